(** Lemmas on Windows paths: appending a name, the filename test. Used for remove_all (C72) and canonical (C71). *)
From Coq Require Import Ascii String Bool Arith NArith ZArith Lia List.
From Verif Require Import Str PathModel PathSpec StrProofs PathProofs PathOps WinPathProps.
Import ListNotations.

(** A name as a directory holds it: not empty, no separator, no colon. *)
Definition proper (n : str) : Prop := n <> [] /\ wplain n /\ ~ In colon n.

Lemma proper_starts : forall n, proper n -> wstarts n = false.
Proof.
  intros [|c r] (Hn & Hp & _); [congruence|]. unfold wplain in Hp. cbn in Hp. apply andb_prop in Hp. destruct Hp as [Hc _].
  unfold no_wsep in Hc. apply negb_true_iff in Hc. exact Hc.
Qed.

Lemma plain_rev : forall n, wplain n -> wplain (rev n).
Proof.
  intros n H. unfold wplain in *. rewrite forallb_forall in *. intros x Hx. apply H. apply in_rev. exact Hx.
Qed.

Lemma proper_ends : forall n, proper n -> wends n = false.
Proof.
  intros n (Hn & Hp & _). unfold wends. pose proof (plain_rev n Hp) as H. destruct (rev n) as [|c r]; [reflexivity|].
  unfold wplain in H. cbn in H. apply andb_prop in H. destruct H as [Hc _]. unfold no_wsep in Hc. apply negb_true_iff in Hc. exact Hc.
Qed.

Lemma proper_root : forall n, proper n -> split_root no_wsep n = ([], n).
Proof.
  intros n Hn. pose proof (proper_starts n Hn) as Hs. destruct Hn as (_ & Hp & Hc). destruct n as [|a [|b r]]; try reflexivity.
  cbn in Hs. unfold split_root. rewrite Hs. cbn [andb]. destruct (Ascii.eqb_spec b colon) as [->|]; [exfalso; apply Hc; cbn; auto|].
  rewrite andb_false_r. reflexivity.
Qed.

Lemma wtok_plain : forall n off cur, wplain n -> wtok off cur n = wflush off (cur ++ n).
Proof.
  induction n as [|c r IH]; intros off cur H; cbn [wtok]; [rewrite app_nil_r; reflexivity|].
  unfold wplain in H. cbn in H. apply andb_prop in H. destruct H as [Hc Hr]. unfold no_wsep in Hc. apply negb_true_iff in Hc.
  rewrite Hc, IH by exact Hr. rewrite <- app_assoc. reflexivity.
Qed.

Lemma name_path : forall n, proper n -> split_components Windows n = Path n [] FILENAME.
Proof.
  intros n Hn. pose proof Hn as (Hne & Hp & _). rewrite wsplit_all by exact Hne. unfold all_comps. rewrite proper_root by exact Hn.
  unfold root_comps. cbn [is_nil app length]. rewrite proper_starts by exact Hn. cbn [app]. rewrite wtok_plain by exact Hp. cbn [app].
  unfold trail. rewrite proper_ends by exact Hn. cbn [andb]. rewrite app_nil_r. destruct n as [|c r]; [congruence|]. reflexivity.
Qed.

Lemma last_map_some : forall A (l : list A) x, last (map Some (l ++ [x])) None = Some x.
Proof. intros. rewrite map_app. cbn. apply last_last. Qed.

Lemma wtok_last : forall rest off cur, wplain cur -> wtok off cur rest = [] \/
  exists l c, wtok off cur rest = l ++ [c] /\ c_type c = FILENAME /\ c_str c <> [].
Proof.
  intros rest off cur Hcur. pose proof (wtok_types rest off cur) as Ht. pose proof (wtok_names rest off cur Hcur) as Hn.
  destruct (wtok off cur rest) as [|c l _] using rev_ind; [left; reflexivity|]. right. exists l, c. split; [reflexivity|].
  rewrite Forall_app in Ht. destruct Ht as [_ Ht]. split; [inversion Ht; assumption|].
  pose proof (wnames_nonempty (cur ++ rest)) as He. rewrite <- Hn, map_app, Forall_app in He. destruct He as [_ He]. cbn in He. inversion He; assumption.
Qed.

Lemma last_bs_ends : forall s, match last (map Some s) None with Some c => Ascii.eqb c backslash | None => false end = true -> wends s = true.
Proof.
  intros s H. rewrite <- last_wsep. destruct (last (map Some s) None) as [c|]; [|discriminate]. cbn. rewrite H. apply orb_true_r.
Qed.

Lemma names_tok : forall rest off, is_nil (wnames rest) = is_nil (wtok off [] rest).
Proof.
  intros rest off. pose proof (wtok_names rest off [] eq_refl) as H. cbn [app] in H. rewrite <- H. destruct (wtok off [] rest); reflexivity.
Qed.

(** has_filename: there is a name and no separator at the end. *)
Lemma filename_split : forall s rn rest, s <> [] -> split_root no_wsep s = (rn, rest) ->
  has_filename Windows (split_components Windows s) = Ok (negb (is_nil (wnames rest)) && negb (wends rest)).
Proof.
  intros s rn rest Hs Hr. pose proof (wsplit s rn rest Hs Hr) as [Hcat Hsp]. rewrite Hsp.
  set (cs := root_comps rn rest ++ wtok (length rn) [] rest ++ trail rest (length s)) in *.
  assert (Htypes := root_comps_types rn rest).
  destruct (wtok_last rest (length rn) [] eq_refl) as [Hnil|(l & c & Hl & Hc & Hcs)].
  - (* no names *)
    rewrite (names_tok rest (length rn)), Hnil. cbn [is_nil negb andb].
    assert (Htr : trail rest (length s) = []) by (apply trail_nil; apply (f_equal (map c_str)) in Hnil; rewrite wtok_names in Hnil by reflexivity; exact Hnil).
    assert (Hcs : cs = root_comps rn rest) by (unfold cs; rewrite Hnil, Htr, !app_nil_r; reflexivity).
    rewrite Hcs. unfold has_filename, filename. destruct (root_comps rn rest) as [|d [|d2 l2]] eqn:El.
    + exfalso. unfold root_comps in El. destruct rn; [|discriminate]. destruct (wstarts rest) eqn:Es; [discriminate|].
      cbn [app] in Hcat. subst rest. assert (Hw : forallb is_wsep s = true).
      { apply wnames_none. apply (f_equal (map c_str)) in Hnil. rewrite wtok_names in Hnil by reflexivity. exact Hnil. }
      destruct s; [congruence|]. cbn in Hw, Es. rewrite Es in Hw. discriminate.
    + rewrite trim_single. unfold empty. cbn [pathname ptyp]. destruct (is_nil (c_str d)); [reflexivity|].
      inversion Htypes; subst. destruct (c_type d) eqn:Et; try reflexivity; try congruence.
      exfalso. unfold root_comps in El. destruct (is_nil rn), (wstarts rest); cbn [app] in El; try discriminate; injection El as <-; cbn in Et; discriminate.
    + rewrite trim_other by (cbn; lia). unfold empty. cbn [pathname ptyp comps]. destruct (is_nil s); [reflexivity|].
      destruct (match last (map Some s) None with Some c => Ascii.eqb c (preferred_separator Windows) | None => false end); [reflexivity|].
      assert (Hne : d :: d2 :: l2 <> []) by discriminate. clear - Hne Htypes. revert Hne Htypes. generalize (d :: d2 :: l2). intros L Hne Htypes.
      destruct L as [|x y _] using rev_ind; [congruence|]. rewrite last_map_some.
      rewrite Forall_app in Htypes. destruct Htypes as [_ Htypes]. inversion Htypes; subst. destruct (ptype_eqb (c_type x) FILENAME) eqn:Et; [|reflexivity].
      destruct (c_type x); try discriminate. congruence.
  - rewrite (names_tok rest (length rn)), Hl. assert (Hin : is_nil (l ++ [c]) = false) by (destruct l; reflexivity). rewrite Hin. cbn [negb andb].
    assert (Hrest : rest <> []) by (intros ->; cbn in Hl; destruct l; discriminate).
    assert (Hends : wends s = wends rest) by (rewrite Hcat; apply wends_app; exact Hrest).
    assert (Htr : trail rest (length s) = if wends rest then [Comp [] FILENAME (length s)] else []).
    { unfold trail. rewrite (names_tok rest (length rn)), Hl, Hin. cbn [negb]. rewrite andb_true_r. reflexivity. }
    unfold cs. rewrite Htr, Hl. clear Htr cs Hsp.
    destruct (wends rest) eqn:Ew; cbn [negb].
    + (* trailing separator *)
      rewrite trim_other by (rewrite !app_length; cbn; lia).
      unfold has_filename, filename, empty. cbn [pathname ptyp comps]. destruct (is_nil s); [reflexivity|].
      destruct (match last (map Some s) None with Some c => Ascii.eqb c (preferred_separator Windows) | None => false end); [reflexivity|].
      rewrite !app_assoc, last_map_some. reflexivity.
    + rewrite app_nil_r, app_assoc. set (cs0 := root_comps rn rest ++ l) in *.
      destruct cs0 as [|x y] eqn:E0.
      * cbn [app]. rewrite trim_single. unfold has_filename, filename, empty. cbn [pathname ptyp]. rewrite Hc.
        destruct (c_str c) eqn:Ec; [congruence|]. cbn [is_nil bind]. unfold empty. cbn [pathname]. reflexivity.
      * rewrite trim_other by (rewrite app_length; cbn; lia). unfold has_filename, filename, empty. cbn [pathname ptyp comps].
        destruct s as [|s0 s1] eqn:Es; [congruence|]. rewrite <- Es in *. replace (is_nil s) with false by (rewrite Es; reflexivity).
        destruct (match last (map Some s) None with Some c => Ascii.eqb c (preferred_separator Windows) | None => false end) eqn:Eb.
        { exfalso. apply last_bs_ends in Eb. congruence. }
        rewrite last_map_some, Hc. cbn [ptype_eqb bind comp_path pathname]. destruct (c_str c); [congruence|reflexivity].
Qed.

Lemma has_root_name_split : forall s rn rest, split_root no_wsep s = (rn, rest) ->
  has_root_name (split_components Windows s) = negb (is_nil rn).
Proof.
  intros s rn rest Hr. destruct s as [|a s']; [cbn in Hr; injection Hr as <- <-; reflexivity|].
  pose proof (wsplit (a :: s') rn rest ltac:(congruence) Hr) as [_ ->]. unfold root_comps.
  assert (Ht := wtok_types rest (length rn) []). set (tr := trail rest (length (a :: s'))).
  assert (Htr : Forall (fun c => c_type c = FILENAME) tr) by (unfold tr, trail; destruct (_ && _); repeat constructor).
  destruct (is_nil rn); cbn [app negb].
  - assert (Hall : Forall (fun c => c_type c = ROOT_DIR \/ c_type c = FILENAME)
                     ((if wstarts rest then [Comp [backslash] ROOT_DIR (length rn)] else []) ++ wtok (length rn) [] rest ++ tr)).
    { rewrite !Forall_app. repeat split; [destruct (wstarts rest); repeat constructor; auto| |]; (eapply Forall_impl; [|eassumption]); cbn; auto. }
    destruct (_ ++ _) as [|x [|y l]]; [reflexivity| |].
    + inversion Hall as [|? ? Hx]; subst. rewrite trim_single. unfold has_root_name. cbn [ptyp comps]. destruct Hx as [-> | ->]; reflexivity.
    + inversion Hall as [|? ? Hx]; subst. rewrite trim_other by (cbn; lia). unfold has_root_name. cbn [ptyp comps]. destruct Hx as [-> | ->]; reflexivity.
  - destruct ((if wstarts rest then [Comp [backslash] ROOT_DIR (length rn)] else []) ++ wtok (length rn) [] rest ++ tr) as [|y l] eqn:El.
    + reflexivity.
    + rewrite trim_other by (cbn; lia). reflexivity.
Qed.

Lemma has_root_directory_split : forall E s rn rest, split_root no_wsep s = (rn, rest) ->
  has_root_directory Windows E (split_components Windows s) = wstarts rest.
Proof.
  intros E s rn rest Hr. destruct (win_parts E s rn rest Hr) as (_ & Hd & _). unfold has_root_directory, empty.
  unfold native in Hd. rewrite Hd. destruct (wstarts rest); reflexivity.
Qed.

Lemma preferred_sep_bool : forall c, is_wsep (if Ascii.eqb c slash then backslash else c) = is_wsep c.
Proof. intros c. destruct (Ascii.eqb c slash) eqn:E; [|reflexivity]. apply Ascii.eqb_eq in E. subst. reflexivity. Qed.

Definition host_root (rn : str) : bool := match rn with a :: b :: _ => is_wsep a && is_wsep b | _ => false end.

Lemma is_absolute_split : forall E s rn rest, split_root no_wsep s = (rn, rest) ->
  is_absolute Windows E (split_components Windows s) = host_root rn || wstarts rest.
Proof.
  intros E s rn rest Hr. unfold is_absolute. rewrite (has_root_directory_split E s rn rest Hr), (has_root_name_split s rn rest Hr).
  destruct (win_parts E s rn rest Hr) as (Hn & _). unfold native in Hn. rewrite Hn. f_equal.
  destruct rn as [|a [|b r]]; try reflexivity. cbn [is_nil negb andb preferred map host_root].
  change (is_sep Windows (if Ascii.eqb a slash then backslash else a)) with (is_wsep (if Ascii.eqb a slash then backslash else a)).
  change (is_sep Windows (if Ascii.eqb b slash then backslash else b)) with (is_wsep (if Ascii.eqb b slash then backslash else b)).
  rewrite !preferred_sep_bool. reflexivity.
Qed.

(** The separator put between a path and a name. *)
Definition joint (s : str) : str :=
  let (rn, rest) := split_root no_wsep s in
  if (negb (is_nil (wnames rest)) && negb (wends rest)) || (negb (wstarts rest) && host_root rn) then [backslash] else [].

Lemma append_name : forall E s n, proper n -> s <> [] ->
  path_append Windows E true (split_components Windows s) (split_components Windows n) =
  Ok (split_components Windows (native (split_components Windows s) ++ joint s ++ n)).
Proof.
  intros E s n Hn Hs. destruct (split_root no_wsep s) as [rn rest] eqn:Hr.
  unfold path_append. pose proof (proper_root n Hn) as Hnr.
  rewrite (is_absolute_split E n [] n Hnr), (has_root_name_split n [] n Hnr), (has_root_directory_split E n [] n Hnr).
  cbn [host_root orb is_nil negb]. rewrite (proper_starts n Hn). cbn [andb orb].
  rewrite (filename_split s rn rest Hs Hr), (has_root_directory_split E s rn rest Hr), (is_absolute_split E s rn rest Hr). cbn [bind].
  rewrite (name_path n Hn). cbn [ptyp ptype_eqb comps pathname].
  assert (Hb : (negb (wstarts rest) && (host_root rn || wstarts rest)) = (negb (wstarts rest) && host_root rn)).
  { destruct (wstarts rest); [reflexivity|]. rewrite orb_false_r. reflexivity. }
  rewrite Hb. unfold joint. rewrite Hr. unfold native, swap. cbn [fst].
  destruct ((negb (is_nil (wnames rest)) && negb (wends rest)) || (negb (wstarts rest) && host_root rn));
    change (preferred_separator Windows) with backslash; rewrite <- ?app_assoc;
    destruct (split_components Windows _); reflexivity.
Qed.

(** * Texts of paths *)

Lemma preferred_twice : forall s, preferred (preferred s) = preferred s.
Proof.
  intros s. unfold preferred. rewrite map_map. apply map_ext. intros c. destruct (Ascii.eqb c slash) eqn:E; [reflexivity|]. rewrite E. reflexivity.
Qed.

(** Splitting the text of a path gives the path. *)
Lemma split_native : forall s, split_components Windows (native (split_components Windows s)) = split_components Windows s.
Proof.
  intros s. destruct s as [|a s0]; [reflexivity|]. remember (a :: s0) as s eqn:Hs. assert (Hne : s <> []) by (rewrite Hs; discriminate). clear a s0 Hs.
  destruct (split_root no_wsep s) as [rn rest] eqn:Hr. pose proof (wsplit s rn rest Hne Hr) as [Hcat Hsp].
  destruct (root_comps rn rest ++ wtok (length rn) [] rest ++ trail rest (length s)) as [|c [|d l]] eqn:Hl.
  - rewrite Hsp, trim_other by (cbn; lia). unfold native. cbn [pathname]. rewrite Hsp, trim_other by (cbn; lia). reflexivity.
  - rewrite Hsp, trim_single. unfold native. cbn [pathname].
    destruct rn as [|a rn].
    + cbn [app] in Hcat. subst rest. destruct (wstarts s) eqn:Es.
      * unfold root_comps in Hl. rewrite Es in Hl. cbn in Hl. injection Hl as <- Hl. reflexivity.
      * unfold root_comps in Hl. rewrite Es in Hl. cbn [is_nil app] in Hl.
        assert (Hn : wnames s <> []).
        { intros H. apply wnames_none in H. destruct s; [congruence|]. cbn in H, Es. rewrite Es in H. discriminate. }
        pose proof (wtok_names s (length (@nil ascii)) [] eq_refl) as Hw. cbn [app] in Hw.
        destruct (wtok (length (@nil ascii)) [] s) as [|c1 l1] eqn:Et; [cbn in Hw; congruence|]. cbn [app] in Hl. injection Hl as -> Hl.
        apply app_eq_nil in Hl. destruct Hl as [-> Htr]. cbn in Hw.
        assert (Hends : wends s = false).
        { unfold trail in Htr. destruct (wends s); [|reflexivity]. rewrite <- Hw in Htr. discriminate. }
        rewrite <- (single_name s (c_str c) Es Hends (eq_sym Hw)). rewrite Hsp, trim_single.
        rewrite <- (single_name s (c_str c) Es Hends (eq_sym Hw)). reflexivity.
    + unfold root_comps in Hl. cbn [is_nil app] in Hl. injection Hl as <- Hl. apply app_eq_nil in Hl. destruct Hl as [Hst Hl].
      apply app_eq_nil in Hl. destruct Hl as [Hnil _]. cbn [c_str c_type].
      assert (Hrest : rest = []).
      { pose proof (wtok_names rest (S (length rn)) [] eq_refl) as Hw. cbn [length] in Hnil. rewrite Hnil in Hw. cbn in Hw. symmetry in Hw. apply wnames_none in Hw.
        destruct rest as [|c r]; [reflexivity|]. exfalso. cbn in Hw, Hst. destruct (is_wsep c); discriminate. }
      subst rest. pose proof (split_root_canonical s (a :: rn) [] Hr) as Hc. cbn [wstarts drop_wseps app] in Hc. rewrite !app_nil_r in Hc.
      assert (Hp : preferred (a :: rn) <> []) by (cbn; discriminate).
      change ((if (Ascii.eqb a slash) then backslash else a) :: preferred rn) with (preferred (a :: rn)).
      pose proof (wsplit _ _ _ Hp Hc) as [_ ->]. unfold root_comps. replace (is_nil (preferred (a :: rn))) with false by reflexivity. cbn [wstarts app wtok trail wends rev wnames wpieces filter is_nil negb andb wflush].
      rewrite preferred_twice. reflexivity.
  - rewrite Hsp, trim_other by (cbn; lia). unfold native. cbn [pathname]. rewrite Hsp, trim_other by (cbn; lia). reflexivity.
Qed.

(** A drive alone, as in "c:". *)
Definition drive_only (s : str) : bool := match s with [a; b] => no_wsep a && Ascii.eqb b colon | _ => false end.

(** The text of an entry [n] of the directory with text [q]. *)
Definition entry_text (q n : str) : str := if wends q || drive_only q then q ++ n else q ++ backslash :: n.

Lemma after_word_wstarts : forall r, after_word r <> [] -> wstarts (after_word r) = true.
Proof. intros r H. rewrite after_word_starts. destruct (after_word r); [congruence|reflexivity]. Qed.

Lemma wends_plain : forall s, wplain s -> wends s = false.
Proof.
  intros s Hp. unfold wends. pose proof (plain_rev s Hp) as H. destruct (rev s) as [|c r]; [reflexivity|].
  unfold wplain in H. cbn in H. apply andb_prop in H. destruct H as [Hc _]. unfold no_wsep in Hc. apply negb_true_iff in Hc. exact Hc.
Qed.

Lemma split_root_cases : forall s rn rest, split_root no_wsep s = (rn, rest) ->
  s = rn ++ rest /\
  ((rn = [] /\ host_root rn = false) \/
   (exists a, rn = [a; colon] /\ is_wsep a = false) \/
   (exists a w, rn = a :: a :: w /\ is_wsep a = true /\ w <> [] /\ wplain w /\ (rest = [] \/ wstarts rest = true))).
Proof.
  intros s rn rest H. destruct s as [|a [|b r]].
  - cbn in H. injection H as <- <-. auto.
  - cbn in H. injection H as <- <-. auto.
  - cbn [split_root] in H. destruct (is_wsep a && Ascii.eqb a b && negb (is_nil (word r))) eqn:E1.
    + injection H as <- <-. apply andb_prop in E1. destruct E1 as [E1 Ew]. apply andb_prop in E1. destruct E1 as [Ea Eb]. apply Ascii.eqb_eq in Eb. subst b.
      split; [cbn [app]; rewrite word_after; reflexivity|]. right. right. exists a, (word r). split; [reflexivity|]. split; [exact Ea|].
      split; [intros Hw; rewrite Hw in Ew; discriminate|]. split; [apply word_plain|].
      destruct (after_word r) eqn:Ea2; [auto|]. right. rewrite <- Ea2. apply after_word_wstarts. rewrite Ea2. discriminate.
    + destruct (no_wsep a && Ascii.eqb b colon) eqn:E2; injection H as <- <-; [|split; [reflexivity|auto]].
      apply andb_prop in E2. destruct E2 as [Ea Eb]. apply Ascii.eqb_eq in Eb. subst b. split; [reflexivity|]. right. left.
      exists a. split; [reflexivity|]. unfold no_wsep in Ea. apply negb_true_iff in Ea. exact Ea.
Qed.

Lemma joint_text : forall s, s <> [] -> joint s = if wends s || drive_only s then [] else [backslash].
Proof.
  intros s Hs. unfold joint. destruct (split_root no_wsep s) as [rn rest] eqn:Hr.
  destruct (split_root_cases s rn rest Hr) as [Hcat Hc]. destruct rest as [|x rest'].
  - rewrite app_nil_r in Hcat. subst rn. cbn [wnames wpieces filter is_nil negb andb orb wends rev wstarts].
    destruct Hc as [[H _]|[(a & H & Ha)|(a & w & H & Ha & Hw & Hp & _)]].
    + congruence.
    + rewrite H. cbn [host_root]. rewrite Ha. cbn [andb]. assert (Hd : drive_only [a; colon] = true) by (cbn; unfold no_wsep; rewrite Ha; reflexivity).
      rewrite Hd, orb_true_r. reflexivity.
    + rewrite H. cbn [host_root]. rewrite Ha. cbn [andb].
      assert (He : wends (a :: a :: w) = false) by (change (a :: a :: w) with ([a; a] ++ w); rewrite wends_app by exact Hw; apply wends_plain; exact Hp).
      rewrite He. destruct w as [|w0 w]; [congruence|]. reflexivity.
  - assert (He : wends s = wends (x :: rest')) by (rewrite Hcat; apply wends_app; discriminate). rewrite He.
    destruct (wends (x :: rest')) eqn:E.
    + cbn [negb]. rewrite andb_false_r. cbn [orb]. destruct Hc as [[_ H]|[(a & H & Ha)|(a & w & H & Ha & Hw & Hp & Hst)]].
      * rewrite H, andb_false_r. reflexivity.
      * rewrite H. cbn [host_root]. rewrite Ha. cbn [andb]. rewrite andb_false_r. reflexivity.
      * destruct Hst as [Hst|Hst]; [discriminate|]. rewrite Hst. reflexivity.
    + cbn [negb orb]. rewrite andb_true_r.
      assert (Hn : is_nil (wnames (x :: rest')) = false).
      { destruct (wnames (x :: rest')) eqn:En; [|reflexivity]. apply wnames_none in En. apply wends_seps in En; [congruence|discriminate]. }
      rewrite Hn. cbn [negb orb]. destruct (drive_only s) eqn:Ed; [|reflexivity]. exfalso.
      destruct s as [|a [|b [|]]]; try discriminate. cbn in Ed. apply andb_prop in Ed. destruct Ed as [Ea Eb]. cbn in Hr.
      unfold no_wsep in Ea. pose proof Ea as Ea2. apply negb_true_iff in Ea2. rewrite Ea2 in Hr. cbn [andb] in Hr. unfold no_wsep in Hr. rewrite Ea2, Eb in Hr. cbn in Hr. injection Hr as _ Hr. discriminate.
Qed.

Lemma entry_text_joint : forall q n, q <> [] -> entry_text q n = q ++ joint q ++ n.
Proof. intros q n Hq. rewrite joint_text by exact Hq. unfold entry_text. destruct (wends q || drive_only q); reflexivity. Qed.

(** Texts that paths report. *)
Definition stable (s : str) : Prop := s <> [] /\ native (split_components Windows s) = s.

Lemma stable_native : forall s, s <> [] -> stable (native (split_components Windows s)).
Proof.
  intros s Hs. split; [|rewrite split_native; reflexivity]. rewrite win_native. unfold win_text.
  destruct (win_elements no_wsep s) as [|x [|y l]] eqn:E; try exact Hs. apply (win_elements_single no_wsep s). exact E.
Qed.

Lemma wends_last : forall s n, proper n -> wends (s ++ n) = false.
Proof. intros s n Hn. rewrite wends_app by (destruct Hn; assumption). apply proper_ends. exact Hn. Qed.

Lemma wnames_ends : forall s, s <> [] -> wends s = false -> wnames s <> [].
Proof. intros s Hs He H. apply wnames_none in H. apply wends_seps in H; congruence. Qed.

Lemma split_root_join : forall s n rn rest, stable s -> proper n -> split_root no_wsep s = (rn, rest) ->
  split_root no_wsep (entry_text s n) = (rn, rest ++ joint s ++ n).
Proof.
  intros s n rn rest [Hs Hst] Hn Hr. rewrite entry_text_joint by exact Hs. destruct (split_root_cases s rn rest Hr) as [Hcat Hc].
  pose proof (proper_starts n Hn) as Hn0. rewrite win_native in Hst.
  destruct s as [|a [|b r]]; [congruence| |].
  - cbn in Hr. injection Hr as <- <-. rewrite joint_text by exact Hs. cbn [drive_only]. rewrite orb_false_r. unfold wends. cbn [rev app wstarts].
    destruct (is_wsep a) eqn:Ea.
    + destruct n as [|c n]; [reflexivity|]. cbn [app split_root]. cbn in Hn0. rewrite Ea.
      destruct (Ascii.eqb_spec a c) as [<-|]; [congruence|]. cbn [andb]. unfold no_wsep. rewrite Ea. reflexivity.
    + cbn [app split_root]. rewrite Ea. cbn [andb]. rewrite andb_false_r. reflexivity.
  - destruct Hc as [[-> _]|[(x & -> & Hx)|(x & w & -> & Hx & Hw & Hp & Hrest)]].
    + cbn [app] in Hcat. subst rest. cbn [split_root] in Hr. cbn [app split_root].
      destruct (is_wsep a && Ascii.eqb a b) eqn:E1.
      * cbn [andb] in Hr |- *. destruct (is_nil (word r)) eqn:Ew; [|discriminate].
        destruct r as [|c r].
        { exfalso. apply andb_prop in E1. destruct E1 as [Ea Eb]. apply Ascii.eqb_eq in Eb. subst b.
          destruct (wsep_cases a Ea) as [->| ->]; cbv in Hst; discriminate. }
        cbn [word] in Ew. cbn [app word]. destruct (is_wsep c) eqn:Ec; [|discriminate].
        cbn [is_nil negb]. apply andb_prop in E1. destruct E1 as [Ea _]. unfold no_wsep. rewrite Ea. reflexivity.
      * cbn [andb] in Hr |- *. destruct (no_wsep a && Ascii.eqb b colon); [discriminate|]. reflexivity.
    + cbn [app] in Hcat. injection Hcat as -> -> ->. cbn [app split_root]. rewrite Hx. cbn [andb]. unfold no_wsep. rewrite Hx. reflexivity.
    + cbn [app] in Hcat. injection Hcat as -> -> ->. cbn [app split_root]. rewrite Hx, Ascii.eqb_refl. cbn [andb].
      assert (Hwa : word ((w ++ rest) ++ joint (x :: x :: w ++ rest) ++ n) = w /\ after_word ((w ++ rest) ++ joint (x :: x :: w ++ rest) ++ n) = rest ++ joint (x :: x :: w ++ rest) ++ n).
      { rewrite <- app_assoc. apply word_app; [exact Hp|]. destruct Hrest as [->|Hrest].
        - left. rewrite app_nil_r. rewrite joint_text by discriminate.
          assert (He : wends (x :: x :: w) = false) by (change (x :: x :: w) with ([x; x] ++ w); rewrite wends_app by exact Hw; apply wends_plain; exact Hp).
          rewrite He. destruct w; [congruence|]. reflexivity.
        - left. destruct rest; [discriminate|exact Hrest]. }
      destruct Hwa as [-> ->]. destruct w; [congruence|]. reflexivity.
Qed.

(** An entry's text is again a text that paths report. *)
Lemma stable_entry : forall s n, stable s -> proper n -> stable (entry_text s n).
Proof.
  intros s n Hs Hn. destruct (split_root no_wsep s) as [rn rest] eqn:Hr. pose proof (split_root_join s n rn rest Hs Hn Hr) as Hj.
  destruct Hs as [Hs Hst]. split.
  - rewrite entry_text_joint by exact Hs. destruct s; [congruence|discriminate].
  - rewrite win_native. unfold win_text, win_elements. rewrite Hj.
    assert (He : wends (rest ++ joint s ++ n) = false) by (rewrite app_assoc; apply wends_last; exact Hn).
    assert (Hnn : rest ++ joint s ++ n <> []).
    { intros H. apply app_eq_nil in H. destruct H as [_ H]. apply app_eq_nil in H. destruct H as [_ H]. destruct Hn; congruence. }
    pose proof (wnames_ends _ Hnn He) as Hw. rewrite He. cbn [andb]. rewrite app_nil_r.
    destruct rn as [|c rn]; cbn [is_nil app].
    + destruct (wstarts (rest ++ joint s ++ n)) eqn:Es; cbn [app].
      * destruct (wnames (rest ++ joint s ++ n)); [congruence|reflexivity].
      * destruct (wnames (rest ++ joint s ++ n)) as [|x [|y l]] eqn:En; [congruence| |reflexivity].
        destruct (split_root_cases s [] rest Hr) as [Hcat _]. cbn [app] in Hcat. subst rest.
        rewrite entry_text_joint by exact Hs. symmetry. apply single_name; assumption.
    + destruct (wstarts (rest ++ joint s ++ n)); cbn [app]; [destruct (wnames (rest ++ joint s ++ n)); reflexivity|].
      destruct (wnames (rest ++ joint s ++ n)); [congruence|reflexivity].
Qed.

(** operator/ with the name of an entry. *)
Lemma div_name : forall E s n, stable s -> proper n ->
  path_div Windows E (split_components Windows s) (split_components Windows n) = Ok (split_components Windows (entry_text s n)).
Proof.
  intros E s n Hs Hn. pose proof Hs as [Hne Hst]. unfold path_div. rewrite append_name by assumption. cbn [bind].
  rewrite Hst, entry_text_joint by exact Hne. unfold fin. destruct (el_other E); [reflexivity|].
  pose proof (split_native (s ++ joint s ++ n)) as H. unfold native in H. rewrite H. reflexivity.
Qed.
