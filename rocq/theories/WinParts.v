(** Names, stems and extensions of Windows paths, and the operations that change them, for every text.
    Sources: fs_path.cpp:141-150 (has_stem, has_extension), 299-361 (filename, stem, extension,
    FindExtension), 631-686 (make_preferred, remove_filename, replace_filename, replace_extension). *)
From Coq Require Import Ascii String Bool Arith NArith ZArith Lia List.
From Verif Require Import Str PathModel PathSpec StrProofs PathProofs PathOps PathOps2 PathLaws WinPathProps WinPlace WinAppend.
Import ListNotations.

(** The text [s] read as a root name [rn], directories [dirs] ending in a separator, and a last
    name [f], empty when there is none. *)
Definition cut_at (s rn dirs f : str) : Prop :=
  split_root no_wsep s = (rn, dirs ++ f) /\ (dirs = [] \/ wends dirs = true) /\ wplain f.

(** ** Cutting off the last name *)

Lemma wplain_cons : forall c f, wplain (c :: f) -> is_wsep c = false /\ wplain f.
Proof.
  intros c f H. unfold wplain in H. cbn in H. apply andb_prop in H. destruct H as [H1 H2].
  unfold no_wsep in H1. apply negb_true_iff in H1. split; assumption.
Qed.

Lemma cut_exists : forall r : str, exists dirs f, r = dirs ++ f /\ (dirs = [] \/ wends dirs = true) /\ wplain f.
Proof.
  induction r as [|c r (dirs & f & -> & Hd & Hf)]; [exists [], []; repeat split; auto|].
  destruct Hd as [->|Hd].
  - destruct (is_wsep c) eqn:Hc.
    + exists [c], f. split; [reflexivity|]. split; [|exact Hf]. right. unfold wends. cbn. exact Hc.
    + exists [], (c :: f). split; [reflexivity|]. split; [left; reflexivity|]. unfold wplain. cbn. unfold no_wsep. rewrite Hc. exact Hf.
  - exists (c :: dirs), f. split; [reflexivity|]. split; [|exact Hf]. right. change (c :: dirs) with ([c] ++ dirs). rewrite wends_app; [exact Hd|].
    intros ->. discriminate Hd.
Qed.

Lemma cut_text : forall s, exists rn dirs f, cut_at s rn dirs f.
Proof.
  intros s. destruct (split_root no_wsep s) as [rn rest] eqn:Hr. destruct (cut_exists rest) as (dirs & f & -> & Hd & Hf).
  exists rn, dirs, f. split; [exact Hr|split; assumption].
Qed.

Lemma cut_whole : forall s rn dirs f, cut_at s rn dirs f -> s = rn ++ dirs ++ f.
Proof. intros s rn dirs f (Hr & _). apply (split_root_cases s rn (dirs ++ f) Hr). Qed.

Lemma wends_f : forall dirs f, f <> [] -> wplain f -> wends (dirs ++ f) = false.
Proof. intros dirs f Hn Hf. rewrite wends_app by exact Hn. apply wends_plain. exact Hf. Qed.

Lemma wends_dirs : forall dirs, dirs = [] \/ wends dirs = true -> dirs <> [] -> exists d c, dirs = d ++ [c] /\ is_wsep c = true.
Proof. intros dirs [->|H] Hn; [congruence|]. apply wends_snoc. exact H. Qed.

Lemma wnames_cut : forall dirs f, dirs = [] \/ wends dirs = true -> wplain f -> f <> [] -> wnames (dirs ++ f) = wnames dirs ++ [f].
Proof.
  intros dirs f [->|Hd] Hf Hn.
  - cbn [app]. rewrite wnames_plain by assumption. reflexivity.
  - rewrite wnames_ended, (wnames_plain f) by assumption. reflexivity.
Qed.

(** The pieces found in a text and where they start. *)
Lemma wtok_app_sep : forall u off cur c f, is_wsep c = true ->
  wtok off cur (u ++ c :: f) = wtok off cur (u ++ [c]) ++ wtok (off + length cur + length u + 1) [] f.
Proof.
  induction u as [|x u IH]; intros off cur c f Hc; cbn [app wtok].
  - rewrite Hc. cbn [wtok wflush length]. rewrite app_nil_r, Nat.add_0_r. reflexivity.
  - destruct (is_wsep x).
    + rewrite IH, <- app_assoc by exact Hc. f_equal. f_equal. f_equal. cbn [length]. lia.
    + rewrite IH by exact Hc. f_equal. f_equal. rewrite app_length. cbn [length]. lia.
Qed.

Lemma wtok_cut : forall dirs f off, dirs = [] \/ wends dirs = true -> wplain f ->
  wtok off [] (dirs ++ f) = wtok off [] dirs ++ wflush (off + length dirs) f.
Proof.
  intros dirs f off Hd Hf. destruct dirs as [|x dirs].
  - cbn [app wtok wflush length]. rewrite wtok_plain, Nat.add_0_r by exact Hf. reflexivity.
  - destruct (wends_dirs _ Hd) as (d & c & Hd' & Hc); [discriminate|]. rewrite Hd', <- app_assoc. cbn [app].
    rewrite wtok_app_sep by exact Hc. rewrite (wtok_plain f) by exact Hf. cbn [app].
    rewrite app_length. cbn [length]. f_equal. f_equal. lia.
Qed.

(** A text keeps its root name when only the last name changes. *)
Lemma cut_root : forall s rn dirs f f', cut_at s rn dirs f -> wplain f' -> (f = [] -> f' = []) ->
  (rn = [] -> dirs = [] -> no_drive f') -> split_root no_wsep (rn ++ dirs ++ f') = (rn, dirs ++ f').
Proof.
  intros s rn dirs f f' Hcut Hf' Hnil Hdr. pose proof (cut_whole _ _ _ _ Hcut) as Hs. destruct Hcut as (Hr & Hd & Hf).
  destruct (split_root_cases s rn _ Hr) as [_ [[-> _]|[(a & -> & Ha)|(a & w & -> & Ha & Hw & Hp & Hrest)]]].
  - cbn [app] in *. subst s. destruct dirs as [|a [|b d]].
    + cbn [app] in *. destruct f' as [|x [|y r]]; [reflexivity|reflexivity|].
      specialize (Hdr eq_refl eq_refl). cbn in Hdr. apply wplain_cons in Hf'. destruct Hf' as [Hx _].
      cbn [split_root]. rewrite Hx. cbn [andb]. destruct (Ascii.eqb_spec y colon); [congruence|]. rewrite andb_false_r. reflexivity.
    + cbn [app]. destruct f' as [|x r]; [reflexivity|]. destruct Hd as [|Hd]; [discriminate|]. cbn in Hd.
      apply wplain_cons in Hf'. destruct Hf' as [Hx _]. cbn [split_root]. unfold no_wsep. rewrite Hd. cbn [negb].
      destruct (Ascii.eqb_spec a x); [congruence|]. reflexivity.
    + cbn [app] in *. cbn [split_root] in *. destruct (is_wsep a && Ascii.eqb a b) eqn:Eh.
      * destruct (no_wsep a && Ascii.eqb b colon) eqn:Ed.
        { exfalso. apply andb_prop in Ed, Eh. unfold no_wsep in Ed. destruct Ed as [Ed _], Eh as [Eh _]. rewrite Eh in Ed. discriminate. }
        destruct d as [|x d].
        { cbn [app] in *. destruct (word_of_plain f' Hf') as [-> _]. destruct (word_of_plain f Hf) as [Hwf _]. rewrite Hwf in Hr.
          destruct f as [|z f]; [rewrite Hnil by reflexivity; reflexivity|]. cbn in Hr. discriminate. }
        { cbn [app word andb] in *. destruct (is_wsep x); [reflexivity|]. cbn in Hr. discriminate. }
      * cbn [andb] in *. destruct (no_wsep a && Ascii.eqb b colon); [discriminate|reflexivity].
  - cbn [app split_root]. rewrite Ha. cbn [andb]. unfold no_wsep. rewrite Ha. reflexivity.
  - assert (Hx : dirs ++ f' = [] \/ wstarts (dirs ++ f') = true).
    { destruct dirs as [|x d]; cbn [app] in *.
      - left. apply Hnil. destruct Hrest as [H|H]; [exact H|]. destruct f as [|z f]; [reflexivity|]. apply wplain_cons in Hf.
        cbn in H. destruct Hf. congruence.
      - right. destruct Hrest as [H|H]; [discriminate|exact H]. }
    cbn [app split_root]. rewrite Ha, Ascii.eqb_refl. cbn [andb].
    destruct (word_app w (dirs ++ f') Hp) as [-> ->]; [tauto|]. destruct w; [congruence|]. reflexivity.
Qed.

Lemma cut_dirs : forall s rn dirs f, cut_at s rn dirs f -> cut_at (rn ++ dirs) rn dirs [].
Proof.
  intros s rn dirs f Hc. pose proof Hc as (_ & Hd & _). split; [|split; [exact Hd|reflexivity]].
  rewrite <- (app_nil_r dirs) at 1. apply (cut_root s rn dirs f []); [exact Hc|reflexivity|reflexivity|intros _ _; exact Logic.I].
Qed.

(** Components of a text with a last name, and of the same text without it. *)
Lemma comps_named : forall s rn dirs f, cut_at s rn dirs f -> f <> [] ->
  all_comps s = root_comps rn (dirs ++ f) ++ wtok (length rn) [] dirs ++ [Comp f FILENAME (length rn + length dirs)].
Proof.
  intros s rn dirs f (Hr & Hd & Hf) Hn. unfold all_comps. rewrite Hr, wtok_cut by assumption.
  unfold trail. rewrite (wends_f dirs f Hn Hf). cbn [andb]. rewrite app_nil_r. destruct f; [congruence|reflexivity].
Qed.

Lemma starts_cut : forall s rn dirs f, cut_at s rn dirs f -> wstarts (dirs ++ f) = wstarts dirs.
Proof.
  intros s rn dirs f (_ & _ & Hf). destruct dirs; [|reflexivity]. cbn. destruct f as [|c f]; [reflexivity|].
  apply wplain_cons in Hf. cbn. tauto.
Qed.

Lemma root_comps_cut : forall s rn dirs f, cut_at s rn dirs f -> root_comps rn (dirs ++ f) = root_comps rn dirs.
Proof. intros. unfold root_comps. rewrite (starts_cut _ _ _ _ H). reflexivity. Qed.

(** Without a last name, the last component is a root or the empty name after a separator. *)
Lemma comps_unnamed : forall s rn dirs, cut_at s rn dirs [] ->
  all_comps s = [] \/ exists l c, all_comps s = l ++ [c] /\ (c_type c = FILENAME -> c_str c = [] /\ l <> []).
Proof.
  intros s rn dirs (Hr & Hd & _). rewrite app_nil_r in Hr.
  unfold all_comps. rewrite Hr. destruct (wtok_last dirs (length rn) [] eq_refl) as [Hn|(l & c & Hl & _)].
  - assert (Hw : wnames dirs = []) by (pose proof (names_tok dirs (length rn)) as H; rewrite Hn in H; destruct (wnames dirs); [reflexivity|discriminate]).
    rewrite Hn, (trail_nil _ _ Hw), !app_nil_r. pose proof (root_comps_types rn dirs) as Ht.
    destruct (root_comps rn dirs) as [|y ys _] using rev_ind; [left; reflexivity|]. right. exists ys, y. split; [reflexivity|].
    rewrite Forall_app in Ht. destruct Ht as [_ Ht]. inversion Ht as [|? ? Hy]. intros. congruence.
  - destruct Hd as [->|Hd]; [cbn in Hl; destruct l; discriminate|].
    assert (Hnn : is_nil (wnames dirs) = false) by (rewrite (names_tok dirs (length rn)), Hl; destruct l; reflexivity).
    right. unfold trail. rewrite Hd, Hnn. cbn [andb negb]. exists (root_comps rn dirs ++ wtok (length rn) [] dirs), (Comp [] FILENAME (length s)).
    rewrite app_assoc. split; [reflexivity|]. intros _. split; [reflexivity|]. rewrite Hl. destruct (root_comps rn dirs), l; discriminate.
Qed.

(** remove_filename gives the path made from the text without the last name. *)
Lemma remove_cut : forall s rn dirs f, cut_at s rn dirs f ->
  remove_filename Windows (split_components Windows s) = Ok (split_components Windows (rn ++ dirs)).
Proof.
  intros s rn dirs f Hc. pose proof (cut_whole _ _ _ _ Hc) as Hs. pose proof Hc as (Hr & Hd & Hf).
  pose proof (cut_dirs _ _ _ _ Hc) as (Hrd & _ & _). rewrite app_nil_r in Hrd.
  destruct (list_eq_dec ascii_dec s []) as [->|Hsn].
  { destruct rn; [|discriminate]. destruct dirs; [|discriminate]. reflexivity. }
  destruct f as [|f0 f'] eqn:Ef.
  - (* no last name *)
    rewrite app_nil_r in *. rewrite <- Hs. rewrite wsplit_all by exact Hsn.
    assert (Hlast := comps_unnamed s rn dirs Hc).
    destruct Hlast as [Hz|(l & c & Hz & Hcc)]; rewrite Hz.
    + reflexivity.
    + destruct l as [|d l].
      * cbn [app]. rewrite trim_single. unfold remove_filename. cbn [ptyp]. destruct (c_type c) eqn:Et.
        { cbn [comps rev]. reflexivity. }
        { reflexivity. }
        { reflexivity. }
        { destruct (Hcc eq_refl) as [_ H]. congruence. }
      * rewrite trim_other by (rewrite app_length; cbn; lia). unfold remove_filename. cbn [ptyp comps].
        rewrite rev_app_distr. cbn [rev app]. destruct (ptype_eqb (c_type c) FILENAME) eqn:Et; [|reflexivity].
        destruct Hcc as [-> _]; [destruct (c_type c); try discriminate; reflexivity|]. reflexivity.
  - assert (Hfn : f <> []) by congruence. rewrite <- Ef in *. clear f0 f' Ef.
    rewrite wsplit_all by exact Hsn. rewrite (comps_named _ _ _ _ Hc Hfn), (root_comps_cut _ _ _ _ Hc), app_assoc.
    set (L := root_comps rn dirs ++ wtok (length rn) [] dirs).
    assert (Her : str_erase s (length rn + length dirs) = Ok (rn ++ dirs)).
    { unfold str_erase. rewrite Hs, app_assoc, !app_length. rewrite (proj2 (Nat.leb_le _ _)) by lia.
      rewrite <- app_length, firstn_exact by reflexivity. reflexivity. }
    assert (HL : L = [] -> rn ++ dirs = []).
    { unfold L. intros H. apply app_eq_nil in H. destruct H as [H1 H2]. unfold root_comps in H1.
      destruct rn; [|discriminate]. cbn [is_nil app length] in *. destruct dirs as [|x d]; [reflexivity|]. exfalso.
      destruct (wstarts (x :: d)) eqn:Es; [discriminate|]. pose proof (names_tok (x :: d) 0) as Hnt. rewrite H2 in Hnt.
      apply unstarted_no_names in Es; [discriminate|]. destruct (wnames (x :: d)); [reflexivity|discriminate]. }
    destruct L as [|y L'] eqn:EL.
    + rewrite (HL eq_refl). cbn [app]. rewrite trim_single. reflexivity.
    + rewrite trim_other by (rewrite app_length; cbn; lia). rewrite <- EL. unfold remove_filename. cbn [ptyp comps pathname].
      rewrite rev_app_distr. cbn [rev app c_type c_str c_pos ptype_eqb]. destruct f; [congruence|]. cbn [is_nil negb andb]. rewrite Her. cbn [bind].
      rewrite rev_involutive. destruct (rev L) as [|pv rL] eqn:Erev.
      { apply (f_equal (@rev comp)) in Erev. rewrite rev_involutive in Erev. cbn [rev] in Erev. congruence. }
      assert (Hrdn : rn ++ dirs <> []) by (intros H; apply app_eq_nil in H; destruct H; subst rn dirs; discriminate).
      rewrite (wsplit_all (rn ++ dirs)) by exact Hrdn. unfold all_comps. rewrite Hrd.
      assert (HLr : L = rev rL ++ [pv]) by (rewrite <- (rev_involutive L), Erev; reflexivity).
      unfold L in HLr. destruct (wtok_last dirs (length rn) [] eq_refl) as [Hn|(l & c & Hl & Hct & _)].
      * assert (Hw : wnames dirs = []) by (pose proof (names_tok dirs (length rn)) as H; rewrite Hn in H; destruct (wnames dirs); [reflexivity|discriminate]).
        rewrite (trail_nil _ _ Hw), app_nil_r. fold L.
        assert (Ht : c_type pv <> FILENAME /\ c_type pv <> MULTI).
        { rewrite Hn, app_nil_r in HLr. assert (Hin : In pv (root_comps rn dirs)) by (rewrite HLr; apply in_or_app; right; left; reflexivity).
          unfold root_comps in Hin. destruct (is_nil rn), (wstarts dirs); cbn in Hin; intuition (subst pv; discriminate). }
        destruct (c_type pv) eqn:Et; try tauto; cbn [ptype_eqb orb]; reflexivity.
      * destruct Hd as [->|Hd]; [cbn in Hl; destruct l; discriminate|].
        assert (Hnn : is_nil (wnames dirs) = false) by (rewrite (names_tok dirs (length rn)), Hl; destruct l; reflexivity).
        unfold trail. rewrite Hd, Hnn. cbn [andb negb]. rewrite app_assoc. fold L. rewrite app_length.
        rewrite Hl, app_assoc in HLr. apply app_inj_tail in HLr. destruct HLr as [_ <-]. rewrite Hct. cbn [ptype_eqb orb].
        rewrite trim_other; [reflexivity|]. rewrite app_length. rewrite EL. cbn. lia.
Qed.

Lemma path_named : forall s rn dirs f, cut_at s rn dirs f -> f <> [] ->
  rn ++ dirs = [] /\ split_components Windows s = Path f [] FILENAME \/
  rn ++ dirs <> [] /\ exists L, L <> [] /\ split_components Windows s = Path s (L ++ [Comp f FILENAME (length rn + length dirs)]) MULTI.
Proof.
  intros s rn dirs f Hc Hfn. pose proof (cut_whole _ _ _ _ Hc) as Hs. pose proof Hc as (Hr & Hd & Hf).
  assert (Hsn : s <> []) by (rewrite Hs; destruct rn; [destruct dirs; [cbn; congruence|discriminate]|discriminate]).
  rewrite wsplit_all by exact Hsn. rewrite (comps_named _ _ _ _ Hc Hfn), (root_comps_cut _ _ _ _ Hc), app_assoc.
  set (L := root_comps rn dirs ++ wtok (length rn) [] dirs).
  assert (HL : L = [] <-> rn ++ dirs = []).
  { unfold L. split; intros H.
    - apply app_eq_nil in H. destruct H as [H1 H2]. unfold root_comps in H1.
      destruct rn; [|discriminate]. cbn [is_nil app length] in *. destruct dirs as [|x d]; [reflexivity|]. exfalso.
      destruct (wstarts (x :: d)) eqn:Es; [discriminate|]. pose proof (names_tok (x :: d) 0) as Hnt. rewrite H2 in Hnt.
      apply unstarted_no_names in Es; [discriminate|]. destruct (wnames (x :: d)); [reflexivity|discriminate].
    - apply app_eq_nil in H. destruct H as [-> ->]. reflexivity. }
  destruct L as [|y L'] eqn:EL.
  - left. split; [apply HL; reflexivity|]. cbn [app]. rewrite trim_single. reflexivity.
  - right. split; [intros H; apply HL in H; discriminate|]. exists (y :: L'). split; [discriminate|].
    rewrite trim_other by (rewrite app_length; cbn; lia). reflexivity.
Qed.

Lemma named_not_bs : forall s rn dirs f, cut_at s rn dirs f -> f <> [] ->
  match last (map Some s) None with Some c => Ascii.eqb c backslash | None => false end = false.
Proof.
  intros s rn dirs f Hc Hn. destruct (match last (map Some s) None with Some c => Ascii.eqb c backslash | None => false end) eqn:E; [|reflexivity].
  apply last_bs_ends in E. rewrite (cut_whole _ _ _ _ Hc), app_assoc in E. destruct Hc as (_ & _ & Hf). rewrite wends_f in E by assumption. discriminate.
Qed.

Lemma filename_cut : forall s rn dirs f, cut_at s rn dirs f -> exists x, filename Windows (split_components Windows s) = Ok x /\
  native x = f /\ (f <> [] -> x = Path f [] FILENAME).
Proof.
  intros s rn dirs f Hc. destruct (list_eq_dec ascii_dec f []) as [->|Hn].
  - destruct (C75_filename s) as (x & Hx & Hnx). exists x. split; [exact Hx|]. split; [|congruence].
    destruct Hc as (Hr & Hd & _). rewrite Hr in Hnx. cbn [snd] in Hnx. cbv zeta in Hnx. rewrite app_nil_r in Hnx. rewrite Hnx.
    destruct Hd as [->|Hd]; [reflexivity|]. rewrite Hd. reflexivity.
  - exists (Path f [] FILENAME). split; [|split; reflexivity].
    destruct (path_named s rn dirs f Hc Hn) as [[_ ->]|[_ (L & HL & ->)]]; unfold filename, empty; cbn [pathname ptyp comps].
    + destruct f; [congruence|reflexivity].
    + rewrite last_map_some. cbn [c_type ptype_eqb comp_path c_str].
      change (preferred_separator Windows) with backslash. rewrite (named_not_bs s rn dirs f Hc Hn).
      pose proof (cut_whole _ _ _ _ Hc) as Hs. destruct s; [|reflexivity].
      destruct rn; [|discriminate]. destruct dirs; [|discriminate]. cbn in Hs. congruence.
Qed.

Lemma extension_cut : forall s rn dirs f, cut_at s rn dirs f ->
  (f = [] -> find_extension (split_components Windows s) = None) /\
  (f <> [] -> exists x, find_extension (split_components Windows s) = Some (x, ext_pos f) /\ ext_str x = f /\
     (x = ExtSelf f /\ rn ++ dirs = [] \/ x = ExtBack (Comp f FILENAME (length rn + length dirs)) /\ rn ++ dirs <> [])).
Proof.
  assert (FE : forall x, ext_str x <> [] ->
    match ext_str x with
    | [] => None
    | c0 :: _ =>
        if (length (ext_str x) <=? 2) && Ascii.eqb c0 dot then Some (x, None)
        else match rfind dot (ext_str x) with Some 0 => Some (x, None) | o => Some (x, o) end
    end = Some (x, ext_pos (ext_str x))).
  { intros x Hx. unfold ext_pos. destruct (ext_str x) as [|c f]; [congruence|].
    destruct (_ && _); auto. destruct (rfind dot (c :: f)) as [[|n]|]; auto. }
  intros s rn dirs f Hc. split; intros Hf.
  - subst f. destruct s as [|s0 s1]; [reflexivity|]. rewrite wsplit_all by discriminate.
    destruct (comps_unnamed _ _ _ Hc) as [Hz|(l & c & Hz & Hcc)]; rewrite Hz; [reflexivity|].
    destruct l as [|d l].
    + cbn [app]. rewrite trim_single. unfold find_extension. cbn [ptyp comps]. destruct (c_type c) eqn:Et; try reflexivity.
      destruct (Hcc eq_refl) as [_ H]. congruence.
    + rewrite trim_other by (rewrite app_length; cbn; lia). unfold find_extension. cbn [ptyp comps]. rewrite last_map_some.
      destruct (ptype_eqb (c_type c) FILENAME) eqn:Et; [|reflexivity]. cbn [ext_str].
      destruct Hcc as [-> _]; [destruct (c_type c); try discriminate; reflexivity|]. reflexivity.
  - destruct (path_named s rn dirs f Hc Hf) as [[Hz ->]|[Hz (L & HL & ->)]]; unfold find_extension; cbn [ptyp comps pathname].
    + exists (ExtSelf f). rewrite FE by exact Hf. cbn [ext_str]. repeat split. left. split; [reflexivity|exact Hz].
    + rewrite last_map_some. cbn [c_type ptype_eqb]. exists (ExtBack (Comp f FILENAME (length rn + length dirs))).
      rewrite FE by exact Hf. cbn [ext_str c_str]. repeat split. right. split; [reflexivity|exact Hz].
Qed.

(** A text without separators is its own text as a path. *)
Lemma native_plain : forall t, wplain t -> native (split_components Windows t) = t.
Proof.
  intros t Ht. rewrite win_native. unfold win_text. destruct (win_elements no_wsep t) as [|x [|y l]] eqn:E; try reflexivity.
  unfold win_elements in E. destruct (split_root no_wsep t) as [rn rest] eqn:Hr.
  destruct (split_root_cases t rn rest Hr) as [Hs [[-> _]|[(a & -> & Ha)|(a & w & -> & Ha & _)]]].
  - cbn [app] in Hs. subst rest. cbn [is_nil app] in E.
    assert (Hst : wstarts t = false) by (destruct t; [reflexivity|]; apply wplain_cons in Ht; cbn; tauto).
    rewrite Hst, (wends_plain t Ht) in E. cbn [andb app] in E. rewrite app_nil_r in E.
    destruct t as [|c t]; [discriminate|]. rewrite wnames_plain in E by (try discriminate; exact Ht). congruence.
  - cbn [is_nil app] in E. rewrite Hs in Ht. apply wplain_cons in Ht. destruct Ht as [_ Ht]. cbn [app] in Ht. apply wplain_cons in Ht. destruct Ht as [_ Ht].
    rewrite (wends_plain rest Ht) in E. cbn [andb] in E. rewrite app_nil_r in E. injection E as E1 E2.
    apply app_eq_nil in E2. destruct E2 as [_ E2].
    assert (rest = []) as -> by (destruct rest as [|c r]; [reflexivity|]; rewrite wnames_plain in E2 by (try discriminate; exact Ht); discriminate).
    rewrite Hs, <- E1. unfold preferred. cbn [map app]. rewrite (plain_nosep a Ha). reflexivity.
  - exfalso. rewrite Hs in Ht. cbn [app] in Ht. apply wplain_cons in Ht. destruct Ht. congruence.
Qed.

Lemma wplain_app : forall a b, wplain (a ++ b) <-> wplain a /\ wplain b.
Proof. intros. unfold wplain. rewrite forallb_app. apply andb_true_iff. Qed.

Lemma stem_plain : forall f, wplain f -> wplain (stem_text f) /\ wplain (ext_text f).
Proof. intros f Hf. apply wplain_app. rewrite stem_ext_app. exact Hf. Qed.

Lemma stem_cut : forall s rn dirs f, cut_at s rn dirs f -> native (stem Windows (split_components Windows s)) = stem_text f.
Proof.
  intros s rn dirs f Hc. destruct (extension_cut s rn dirs f Hc) as [H1 H2]. destruct Hc as (_ & _ & Hf).
  unfold stem. destruct f as [|c f]; [rewrite H1 by reflexivity; reflexivity|].
  destruct H2 as (x & -> & Hx & _); [discriminate|]. rewrite Hx. destruct (stem_plain _ Hf) as [Hp _].
  unfold stem_text in *. pose proof (ext_pos_pos (c :: f)). destruct (ext_pos (c :: f)) as [[|n]|]; [congruence| |].
  - unfold substr. cbn [skipn]. apply native_plain. exact Hp.
  - apply native_plain. exact Hf.
Qed.

Lemma ext_cut : forall s rn dirs f, cut_at s rn dirs f -> native (extension Windows (split_components Windows s)) = ext_text f.
Proof.
  intros s rn dirs f Hc. destruct (extension_cut s rn dirs f Hc) as [H1 H2]. destruct Hc as (_ & _ & Hf).
  unfold extension. destruct f as [|c f]; [rewrite H1 by reflexivity; reflexivity|].
  destruct H2 as (x & -> & Hx & _); [discriminate|]. rewrite Hx. destruct (stem_plain _ Hf) as [_ Hp].
  unfold ext_text in *. pose proof (ext_pos_pos (c :: f)). destruct (ext_pos (c :: f)) as [[|n]|]; [congruence| |reflexivity].
  apply native_plain. exact Hp.
Qed.

Lemma has_cut : forall s rn dirs f, cut_at s rn dirs f ->
  has_stem (split_components Windows s) = negb (is_nil f) /\ has_extension (split_components Windows s) = negb (is_nil (ext_text f)).
Proof.
  intros s rn dirs f Hc. destruct (extension_cut s rn dirs f Hc) as [H1 H2]. unfold has_stem, has_extension.
  destruct f as [|c f]; [rewrite H1 by reflexivity; split; reflexivity|].
  destruct H2 as (x & -> & Hx & _); [discriminate|]. split; [reflexivity|].
  pose proof (ext_text_nil (c :: f)) as Hn. pose proof (ext_pos_pos (c :: f)).
  destruct (ext_pos (c :: f)) as [[|n]|] eqn:Hp; [congruence| |].
  - destruct (ext_text (c :: f)); [|reflexivity]. destruct Hn as [Hn _]. discriminate Hn; auto.
  - destruct Hn as [_ Hn]. rewrite Hn; reflexivity.
Qed.

Lemma replace_extension_cut : forall s rn dirs f r, native (split_components Windows s) = s -> cut_at s rn dirs f ->
  replace_extension Windows (split_components Windows s) r =
  Ok (split_components Windows (rn ++ dirs ++ stem_text f ++ dotted (native r))).
Proof.
  intros s rn dirs f r Hst Hc. unfold replace_extension. pose proof (cut_whole _ _ _ _ Hc) as Hs.
  assert (Hd : forall t, (match pathname r with
            | c :: _ => if Ascii.eqb c dot then t else t ++ [dot]
            | [] => t end) ++ pathname r = t ++ dotted (native r)).
  { intros t. unfold native, dotted. destruct (pathname r) as [|c q]; auto.
    destruct (Ascii.eqb c dot); auto. rewrite <- app_assoc. reflexivity. }
  assert (Ht : forall t, bind (Ok t) (fun t => Ok (split_components Windows (match pathname r with
            | c :: _ => if Ascii.eqb c dot then t else t ++ [dot]
            | [] => t end ++ pathname r))) = Ok (split_components Windows (t ++ dotted (native r)))).
  { intros. cbn [bind]. rewrite Hd. reflexivity. }
  destruct (extension_cut s rn dirs f Hc) as [H1 H2]. fold (native (split_components Windows s)). rewrite Hst.
  destruct f as [|c f].
  - rewrite H1 by reflexivity. rewrite Ht. cbn [stem_text ext_pos app]. rewrite Hs at 1. rewrite app_nil_r, app_assoc. reflexivity.
  - destruct H2 as (x & -> & Hx & Hsrc); [discriminate|].
    assert (He : forall n, ext_pos (c :: f) = Some n ->
       str_erase s (length rn + length dirs + n) = Ok (rn ++ dirs ++ stem_text (c :: f))).
    { intros n Hn. unfold str_erase, stem_text. rewrite Hn.
      assert (n <= length (c :: f)).
      { unfold ext_pos in Hn. destruct (_ && _); [discriminate|].
        destruct (rfind dot (c :: f)) as [[|m]|] eqn:Hr; try discriminate. injection Hn as <-.
        apply rfind_Some in Hr as (a & b & -> & Hl & _). rewrite app_length. lia. }
      rewrite Hs. rewrite (proj2 (Nat.leb_le _ _)) by (rewrite !app_length; lia).
      rewrite app_assoc, <- app_length, firstn_app_2, <- app_assoc. reflexivity. }
    assert (Hnone : ext_pos (c :: f) = None -> s = rn ++ dirs ++ stem_text (c :: f)) by (intros Hn; unfold stem_text; rewrite Hn; exact Hs).
    destruct Hsrc as [[-> Hz]|[-> Hz]]; destruct (ext_pos (c :: f)) as [n|] eqn:Hp.
    + specialize (He n eq_refl). apply app_eq_nil in Hz. destruct Hz as [-> ->]. cbn [length Nat.add] in He. rewrite He, Ht, <- !app_assoc. reflexivity.
    + rewrite Ht. rewrite (Hnone eq_refl) at 1. rewrite <- !app_assoc. reflexivity.
    + cbn [c_pos]. rewrite He, Ht, <- !app_assoc by reflexivity. reflexivity.
    + rewrite Ht. rewrite (Hnone eq_refl) at 1. rewrite <- !app_assoc. reflexivity.
Qed.

(** ** Elements of a text with a last name *)

Lemma elements_cut : forall s rn dirs f, cut_at s rn dirs f -> f <> [] ->
  win_elements no_wsep s = parts_elements (preferred rn) (wstarts dirs) (wnames dirs ++ [f]) false.
Proof.
  intros s rn dirs f Hc Hn. pose proof Hc as (Hr & Hd & Hf). rewrite (win_elements_parts s rn _ Hr).
  rewrite (starts_cut _ _ _ _ Hc), (wnames_cut dirs f Hd Hf Hn), (wends_f dirs f Hn Hf). reflexivity.
Qed.

(** The text a path reports, cut in the same way: only a lone element can be spelled differently. *)
Lemma cut_native : forall s rn dirs f, cut_at s rn dirs f -> f <> [] -> native (split_components Windows s) = s.
Proof.
  intros s rn dirs f Hc Hn. rewrite win_native. unfold win_text. rewrite (elements_cut s rn dirs f Hc Hn).
  unfold parts_elements. rewrite nil_preferred. cbn [andb]. rewrite app_nil_r. pose proof (cut_whole _ _ _ _ Hc) as Hs. destruct Hc as (_ & Hd & _).
  destruct rn as [|a rn]; cbn [is_nil app].
  - destruct dirs as [|x d]; [cbn; exact (eq_sym Hs)|].
    destruct (wstarts (x :: d)) eqn:Es.
    + cbn [app]. destruct (wnames (x :: d)) as [|y [|z l]]; reflexivity.
    + cbn [app]. destruct (wnames (x :: d)) as [|y [|z l]] eqn:En; try reflexivity.
      apply unstarted_no_names in Es; [discriminate|exact En].
  - destruct (wstarts dirs); cbn [app].
    + reflexivity.
    + destruct (wnames dirs) as [|y l]; [|destruct l; reflexivity]. reflexivity.
Qed.

(** ** make_preferred *)

Lemma preferred_names : forall r off cur, wtok off cur (preferred r) = wtok off cur r.
Proof.
  induction r as [|c r IH]; intros off cur; [reflexivity|]. unfold preferred in *. cbn [map wtok]. rewrite preferred_sep_bool.
  destruct (is_wsep c) eqn:Hc; rewrite IH; [reflexivity|]. rewrite (plain_nosep c Hc). reflexivity.
Qed.

Lemma preferred_wnames : forall r, wnames (preferred r) = wnames r.
Proof.
  intros r. pose proof (wtok_names r 0 [] eq_refl) as H1. pose proof (wtok_names (preferred r) 0 [] eq_refl) as H2.
  rewrite preferred_names in H2. cbn [app] in *. congruence.
Qed.

Lemma preferred_starts : forall r, wstarts (preferred r) = wstarts r.
Proof. destruct r as [|c r]; [reflexivity|]. cbn. apply preferred_sep_bool. Qed.

Lemma preferred_ends : forall r, wends (preferred r) = wends r.
Proof. intros. unfold wends, preferred. rewrite <- map_rev. apply preferred_starts. Qed.

Lemma preferred_app : forall a b, preferred (a ++ b) = preferred a ++ preferred b.
Proof. intros. apply map_app. Qed.

Lemma preferred_word : forall r, word (preferred r) = word r /\ after_word (preferred r) = preferred (after_word r).
Proof.
  induction r as [|c r [IH1 IH2]]; [split; reflexivity|]. unfold preferred in *. cbn [map word after_word]. rewrite preferred_sep_bool.
  destruct (is_wsep c) eqn:Hc; [split; reflexivity|]. rewrite IH1, IH2, (plain_nosep c Hc). split; reflexivity.
Qed.

(** A text that starts with two different separators and a name. *)
Definition mixed_start (s : str) : bool :=
  match s with
  | a :: b :: r => is_wsep a && is_wsep b && negb (Ascii.eqb a b) && negb (is_nil (word r))
  | _ => false
  end.

Lemma preferred_root : forall s rn rest, mixed_start s = false -> split_root no_wsep s = (rn, rest) ->
  split_root no_wsep (preferred s) = (preferred rn, preferred rest).
Proof.
  intros [|a [|b r]] rn rest Hm Hr; [cbn in Hr; injection Hr as <- <-; reflexivity|cbn in Hr; injection Hr as <- <-; reflexivity|].
  cbn [split_root mixed_start] in *. change (preferred (a :: b :: r)) with ((if Ascii.eqb a slash then backslash else a) :: (if Ascii.eqb b slash then backslash else b) :: preferred r).
  cbn [split_root]. unfold no_wsep in *. destruct (preferred_word r) as [-> ->]. rewrite preferred_sep_bool.
  destruct (is_wsep a) eqn:Ha.
  - cbn [negb andb] in *. assert (Hpa : (if Ascii.eqb a slash then backslash else a) = backslash) by (destruct (wsep_cases a Ha); subst; reflexivity). rewrite Hpa.
    destruct (Ascii.eqb_spec a b) as [<-|Hab].
    + rewrite Hpa, Ascii.eqb_refl. cbn [andb] in *. destruct (is_nil (word r)) eqn:En; cbn [negb] in *.
      * injection Hr as <- <-. unfold preferred. cbn [map]. rewrite ?Hpa. reflexivity.
      * injection Hr as <- <-. unfold preferred. cbn [map]. rewrite ?Hpa. rewrite <- (preferred_plain (word r) (word_plain r)) at 1. reflexivity.
    + cbn [andb negb] in *. injection Hr as <- <-. destruct (is_wsep b) eqn:Hb.
      * cbn [andb] in Hm. rewrite Hm, andb_false_r. unfold preferred. cbn [map]. rewrite ?Hpa. reflexivity.
      * rewrite (plain_nosep b Hb). destruct (Ascii.eqb_spec backslash b) as [<-|]; [discriminate|]. cbn [andb]. unfold preferred. cbn [map]. rewrite ?Hpa, ?(plain_nosep b Hb). reflexivity.
  - cbn [negb andb] in *. rewrite (plain_nosep a Ha). destruct (Ascii.eqb_spec b colon) as [->|Hbc].
    + injection Hr as <- <-. cbn. rewrite (plain_nosep a Ha). reflexivity.
    + injection Hr as <- <-. assert (Hx : Ascii.eqb (if Ascii.eqb b slash then backslash else b) colon = false).
      { destruct (Ascii.eqb b slash); [reflexivity|]. apply Ascii.eqb_neq. exact Hbc. }
      rewrite Hx. unfold preferred. cbn [map]. rewrite ?(plain_nosep a Ha). reflexivity.
Qed.

Lemma preferred_length : forall s, length (preferred s) = length s.
Proof. intros. apply map_length. Qed.

Lemma preferred_comps : forall s, mixed_start s = false -> all_comps (preferred s) = all_comps s.
Proof.
  intros s Hm. unfold all_comps. destruct (split_root no_wsep s) as [rn rest] eqn:Hr. rewrite (preferred_root s rn rest Hm Hr).
  unfold root_comps, trail. rewrite nil_preferred, preferred_twice, preferred_starts, !preferred_length, preferred_names, preferred_ends, preferred_wnames. reflexivity.
Qed.

Lemma comps_preferred : forall s c, all_comps s = [c] -> preferred (c_str c) = c_str c.
Proof.
  intros s c H. assert (Hin : In c (all_comps s)) by (rewrite H; left; reflexivity). unfold all_comps in Hin.
  destruct (split_root no_wsep s) as [rn rest] eqn:Hr. apply in_app_or in Hin. destruct Hin as [Hin|Hin].
  - unfold root_comps in Hin. apply in_app_or in Hin. destruct Hin as [Hin|Hin].
    + destruct (is_nil rn); [destruct Hin|]. destruct Hin as [<-|[]]. apply preferred_twice.
    + destruct (wstarts rest); [|destruct Hin]. destruct Hin as [<-|[]]. reflexivity.
  - apply in_app_or in Hin. destruct Hin as [Hin|Hin].
    + apply (in_map c_str) in Hin. rewrite wtok_names in Hin by reflexivity. cbn [app] in Hin.
      pose proof (wnames_all rest) as Hw. rewrite Forall_forall in Hw. destruct (Hw _ Hin) as [_ Hp]. apply preferred_plain. exact Hp.
    + unfold trail in Hin. destruct (_ && _); [|destruct Hin]. destruct Hin as [<-|[]]. reflexivity.
Qed.

(** * C86 *)

(** The last name of the text, or nothing after a separator or a root; its stem and extension. *)
Theorem C86_filename_stem_extension : forall s, let p := split_components Windows s in
  exists rn dirs f x, cut_at s rn dirs f /\ filename Windows p = Ok x /\ native x = f /\
    has_filename Windows p = Ok (negb (is_nil f)) /\
    is_stem_ext f (native (stem Windows p)) (native (extension Windows p)) /\
    (forall st ex, is_stem_ext f st ex -> st = native (stem Windows p) /\ ex = native (extension Windows p)) /\
    has_stem p = negb (empty (stem Windows p)) /\
    has_extension p = negb (empty (extension Windows p)).
Proof.
  intros s p. destruct (cut_text s) as (rn & dirs & f & Hc). destruct (filename_cut s rn dirs f Hc) as (x & Hx & Hn & _).
  exists rn, dirs, f, x. split; [exact Hc|]. split; [exact Hx|]. split; [exact Hn|].
  split; [unfold has_filename; unfold p; rewrite Hx; cbn [bind]; unfold empty; fold (native x); rewrite Hn; reflexivity|].
  unfold empty. fold (native (stem Windows p)). fold (native (extension Windows p)). unfold p.
  rewrite (stem_cut s rn dirs f Hc), (ext_cut s rn dirs f Hc). destruct (has_cut s rn dirs f Hc) as [-> ->].
  split; [apply stem_ext_ok|]. split; [|split; [|reflexivity]].
  - intros st ex H. eapply stem_ext_unique; [exact H|apply stem_ext_ok].
  - f_equal. destruct f as [|c t]; [reflexivity|].
    destruct (stem_ext_ok (c :: t)) as [He [[Hz _]|(z & _ & _ & Hne & _)]].
    + rewrite Hz, app_nil_r in He. rewrite <- He. reflexivity.
    + destruct (stem_text (c :: t)); [congruence|reflexivity].
Qed.

(** The texts cut only in one way. *)
Theorem C86_cut_unique : forall s rn dirs f rn' dirs' f', cut_at s rn dirs f -> cut_at s rn' dirs' f' -> rn = rn' /\ dirs = dirs' /\ f = f'.
Proof.
  intros s rn dirs f rn' dirs' f' (Hr & Hd & Hf) (Hr' & Hd' & Hf'). rewrite Hr in Hr'. injection Hr' as <- He. split; [reflexivity|].
  assert (K : forall u v u' v', u = [] \/ wends u = true -> u' = [] \/ wends u' = true -> wplain v -> wplain v' -> u ++ v = u' ++ v' -> length u <= length u' -> u = u' /\ v = v').
  { clear. intros u v u' v' Hu Hu' Hv Hv' He Hl. assert (Hp : exists w, u' = u ++ w /\ v = w ++ v').
    { exists (skipn (length u) u'). assert (H1 : firstn (length u) (u ++ v) = firstn (length u) (u' ++ v')) by (rewrite He; reflexivity).
      rewrite firstn_exact in H1 by reflexivity. rewrite firstn_app in H1. replace (length u - length u') with 0 in H1 by lia. cbn [firstn] in H1. rewrite app_nil_r in H1.
      assert (H2 : u' = u ++ skipn (length u) u') by (rewrite H1 at 1; rewrite firstn_skipn; reflexivity). split; [exact H2|].
      rewrite H2, <- app_assoc in He. apply app_inv_head in He. exact He. }
    destruct Hp as (w & -> & ->). apply wplain_app in Hv. destruct Hv as [Hw _]. destruct w as [|c w]; [rewrite app_nil_r; split; reflexivity|].
    destruct Hu' as [H|H]; [apply app_eq_nil in H; destruct H; discriminate|]. rewrite wends_app in H by discriminate. rewrite wends_plain in H by exact Hw. discriminate. }
  destruct (Nat.le_ge_cases (length dirs) (length dirs')) as [Hl|Hl].
  - apply (K dirs f dirs' f'); assumption.
  - destruct (K dirs' f' dirs f) as [-> ->]; auto.
Qed.

Example C86_filename_example :
  cut_at (lit "C:\d/foo.bar.txt") (lit "C:") (lit "\d/") (lit "foo.bar.txt") /\
  cut_at (lit "\\host\") (lit "\\host") (lit "\") [] /\
  native (stem Windows (split_components Windows (lit "C:\d/foo.bar.txt"))) = lit "foo.bar" /\
  native (extension Windows (split_components Windows (lit "C:\d/foo.bar.txt"))) = lit ".txt" /\
  has_stem (split_components Windows (lit "\\host\")) = false.
Proof. repeat split; auto. Qed.

(** The queries agree with the parts; a root path is the root name followed by the root directory, and a
    path is absolute when it has a root directory or names a host. *)
Theorem C86_queries : forall E s, let p := split_components Windows s in
  has_root_name p = negb (empty (root_name Windows E p)) /\
  has_root_directory Windows E p = negb (empty (root_directory Windows E p)) /\
  has_root_path Windows E p = has_root_name p || has_root_directory Windows E p /\
  native (root_path Windows E p) = native (root_name Windows E p) ++ native (root_directory Windows E p) /\
  (exists r, relative_path Windows E p = Ok r /\ has_relative_path Windows E p = Ok (negb (empty r))) /\
  (exists r, filename Windows p = Ok r /\ has_filename Windows p = Ok (negb (empty r))) /\
  (is_absolute Windows E p = true <-> has_root_directory Windows E p = true \/ exists a b r, native (root_name Windows E p) = a :: b :: r /\ is_wsep a = true /\ is_wsep b = true) /\
  is_relative Windows E p = negb (is_absolute Windows E p).
Proof.
  intros E s p. destruct (split_root no_wsep s) as [rn rest] eqn:Hr. destruct (win_parts E s rn rest Hr) as (Hn & Hd & (q & Hq & _)).
  assert (Hrp : native (root_path Windows E p) = preferred rn ++ (if wstarts rest then [backslash] else [])).
  { unfold p. destruct s as [|a0 s0]; [cbn in Hr; injection Hr as <- <-; unfold root_path, fin; cbn; destruct (el_other E); reflexivity|].
    remember (a0 :: s0) as s eqn:Es. assert (Hs : s <> []) by (subst; discriminate). clear a0 s0 Es.
    pose proof (wsplit s rn rest Hs Hr) as [Hcat ->]. unfold root_path.
    assert (Hfin : forall t, win_text no_wsep t = t -> forall cs ty, native (fin Windows (el_other E) (Path t cs ty)) = t).
    { intros t Ht cs ty. apply (fin_native (el_other E) (Path t cs ty)). exact Ht. }
    destruct rn as [|b rn'] eqn:Ern.
    - unfold root_comps. cbn [is_nil app length]. destruct (wstarts rest) eqn:Est; cbn [app].
      + assert (Hb : native (fin Windows (el_other E) (Path [backslash] [] ROOT_DIR)) = [backslash]) by (apply Hfin; reflexivity).
        match goal with |- context [trim (Path s (?c :: ?L) MULTI)] => destruct L as [|d l] end.
        * rewrite trim_single. cbn [ptyp c_type]. exact Hb.
        * rewrite trim_other by (cbn; lia). cbn [ptyp comps c_type]. exact Hb.
      + pose proof (wtok_types rest 0 []) as Ht. assert (Htr : Forall (fun c => c_type c = FILENAME) (trail rest (length s))) by (unfold trail; destruct (_ && _); repeat constructor).
        pose proof (proj2 (Forall_app _ _ _) (conj Ht Htr)) as HF.
        destruct (wtok 0 [] rest ++ trail rest (length s)) as [|c [|d l]].
        * cbn. unfold fin. destruct (el_other E); reflexivity.
        * rewrite trim_single. inversion HF as [|? ? Hc]. cbn [ptyp comps]. rewrite Hc. cbn. unfold fin. destruct (el_other E); reflexivity.
        * rewrite trim_other by (cbn; lia). inversion HF as [|? ? Hc]. cbn [ptyp comps]. rewrite Hc. cbn. unfold fin. destruct (el_other E); reflexivity.
    - assert (Hrn : rn <> []) by congruence. rewrite <- Ern in *. clear b rn' Ern.
      pose proof (win_text_root s rn rest Hr) as Hwt.
      unfold root_comps. replace (is_nil rn) with false by (destruct rn; [congruence|reflexivity]). cbn [app].
      destruct (wstarts rest) eqn:Est; cbn [app].
      + rewrite trim_other by (cbn; lia). cbn [ptyp comps c_type ptype_eqb c_str]. change (preferred_separator Windows) with backslash.
        pose proof (split_root_with s rn rest [backslash] Hr Hrn (fun _ => or_intror eq_refl)) as Hsr.
        assert (Hw2 : win_text no_wsep (preferred rn ++ [backslash]) = preferred rn ++ [backslash]).
        { unfold win_text, win_elements. rewrite Hsr. rewrite nil_preferred. destruct rn; [congruence|]. cbn. reflexivity. }
        rewrite fin_native; rewrite !win_native, Hw2; [reflexivity|exact Hw2].
      + match goal with |- context [trim (Path s (?c :: ?L) MULTI)] => destruct L as [|d l] eqn:EL end.
        * rewrite trim_single. cbn [ptyp c_type c_str]. rewrite app_nil_r. apply Hfin. exact Hwt.
        * rewrite trim_other by (cbn; lia). cbn [ptyp comps c_type]. assert (Hdt : c_type d = FILENAME).
          { pose proof (wtok_types rest (length rn) []) as Ht. assert (Htr : Forall (fun c => c_type c = FILENAME) (trail rest (length s))) by (unfold trail; destruct (_ && _); repeat constructor).
            pose proof (proj2 (Forall_app _ _ _) (conj Ht Htr)) as HF. rewrite EL in HF. inversion HF; assumption. }
          rewrite Hdt. cbn [ptype_eqb comp_path c_str c_type]. rewrite app_nil_r. apply Hfin. exact Hwt. }
  assert (Hrn : has_root_name p = negb (is_nil rn)) by (apply (has_root_name_split s rn rest Hr)).
  assert (Hrd : has_root_directory Windows E p = wstarts rest) by (apply (has_root_directory_split E s rn rest Hr)).
  split; [unfold empty; fold (native (root_name Windows E p)); unfold p in *; rewrite Hn, Hrn, nil_preferred; reflexivity|].
  split; [reflexivity|].
  split; [unfold has_root_path, empty; fold (native (root_path Windows E p)); rewrite Hrp, Hrn, Hrd; destruct rn, (wstarts rest); reflexivity|].
  split; [rewrite Hrp; unfold p; rewrite Hn, Hd; reflexivity|].
  split; [exists q; split; [exact Hq|]; unfold has_relative_path, p; rewrite Hq; reflexivity|].
  split; [destruct (C75_filename s) as (x & Hx & _); exists x; split; [exact Hx|]; unfold has_filename, p; rewrite Hx; reflexivity|].
  split; [|reflexivity]. rewrite Hrd. unfold p. rewrite (is_absolute_split E s rn rest Hr), Hn, <- host_preferred. rewrite orb_true_iff.
  split; intros [H|H]; auto.
  - right. destruct (preferred rn) as [|a [|b r]]; try discriminate. cbn in H. apply andb_prop in H. exists a, b, r. tauto.
  - left. destruct H as (a & b & r & -> & Ha & Hb). cbn. rewrite Ha, Hb. reflexivity.
Qed.

Example C86_queries_example : forall E,
  native (root_path Windows E (split_components Windows (lit "//host/x"))) = lit "\\host\" /\
  is_absolute Windows E (split_components Windows (lit "\\host")) = true /\
  is_absolute Windows E (split_components Windows (lit "C:x")) = false /\
  is_absolute Windows E (split_components Windows (lit "\x")) = true.
Proof. destruct E as [[] [] []]; repeat split; reflexivity. Qed.

(** remove_filename leaves the text up to the last separator, or the root name. *)
Theorem C86_remove_filename : forall s, exists rn dirs f, cut_at s rn dirs f /\
  let q := split_components Windows (rn ++ dirs) in
  remove_filename Windows (split_components Windows s) = Ok q /\
  has_filename Windows q = Ok false /\ remove_filename Windows q = Ok q.
Proof.
  intros s. destruct (cut_text s) as (rn & dirs & f & Hc). exists rn, dirs, f. split; [exact Hc|]. cbv zeta.
  split; [apply (remove_cut s rn dirs f Hc)|]. pose proof (cut_dirs _ _ _ _ Hc) as Hc'.
  split; [|apply (remove_cut _ rn dirs [] Hc')].
  destruct (filename_cut _ _ _ _ Hc') as (x & Hx & Hn & _). unfold has_filename. rewrite Hx. cbn [bind]. unfold empty. fold (native x). rewrite Hn. reflexivity.
Qed.

Example C86_remove_filename_example :
  remove_filename Windows (split_components Windows (lit "C:\d//b.c")) = Ok (split_components Windows (lit "C:\d//")) /\
  remove_filename Windows (split_components Windows (lit "C:b.c")) = Ok (split_components Windows (lit "C:")) /\
  remove_filename Windows (split_components Windows (lit "\\host")) = Ok (split_components Windows (lit "\\host")).
Proof. repeat split; reflexivity. Qed.

(** replace_filename is removal followed by appending. *)
Theorem C86_replace_filename : forall E s t, exists rn dirs f r, cut_at s rn dirs f /\
  replace_filename Windows E (split_components Windows s) (split_components Windows t) = Ok r /\
  split_components Windows (native r) = r /\ map native (elems r) = appended (rn ++ dirs) t.
Proof.
  intros E s t. destruct (cut_text s) as (rn & dirs & f & Hc). destruct (C75_append E true (rn ++ dirs) t) as (r & H1 & H2 & H3).
  exists rn, dirs, f, r. split; [exact Hc|]. split; [|split; assumption].
  unfold replace_filename. rewrite (remove_cut s rn dirs f Hc). cbn [bind]. exact H1.
Qed.

Example C86_replace_filename_example : forall E,
  replace_filename Windows E (split_components Windows (lit "C:\d\b.c")) (split_components Windows (lit "x/y")) = Ok (split_components Windows (lit "C:\d\x/y")) /\
  replace_filename Windows E (split_components Windows (lit "C:\d\b.c")) (split_components Windows (lit "D:z")) = Ok (split_components Windows (lit "D:z")).
Proof. destruct E as [[] [] []]; split; reflexivity. Qed.

(** Replacing the last name by itself gives the same elements, whatever characters the name has. *)
Theorem C86_replace_own_filename : forall E s x, filename Windows (split_components Windows s) = Ok x -> native x <> [] ->
  exists r, replace_filename Windows E (split_components Windows s) x = Ok r /\ map native (elems r) = map native (elems (split_components Windows s)).
Proof.
  intros E s x Hx Hn. destruct (cut_text s) as (rn & dirs & f & Hc). destruct (filename_cut s rn dirs f Hc) as (x' & Hx' & Hf & Hp).
  rewrite Hx in Hx'. injection Hx' as <-. rewrite Hf in Hn. rewrite (Hp Hn) in *. clear Hp.
  pose proof (cut_dirs _ _ _ _ Hc) as Hc'. pose proof Hc' as (Hr & _ & _). rewrite app_nil_r in Hr.
  unfold replace_filename. rewrite (remove_cut s rn dirs f Hc). cbn [bind]. unfold path_append.
  assert (Ha : is_absolute Windows E (Path f [] FILENAME) = false).
  { unfold is_absolute, has_root_directory, root_directory, fin. cbn. destruct (el_other E); reflexivity. }
  assert (Hd : has_root_directory Windows E (Path f [] FILENAME) = false).
  { unfold has_root_directory, root_directory, fin. cbn. destruct (el_other E); reflexivity. }
  rewrite Ha, Hd. change (has_root_name (Path f [] FILENAME)) with false. cbn [andb orb].
  assert (Hhf : has_filename Windows (split_components Windows (rn ++ dirs)) = Ok false).
  { destruct (filename_cut _ _ _ _ Hc') as (y & Hy & Hyn & _). unfold has_filename. rewrite Hy. cbn [bind]. unfold empty. fold (native y). rewrite Hyn. reflexivity. }
  rewrite Hhf. cbn [bind]. rewrite (has_root_directory_split E _ rn dirs Hr), (is_absolute_split E _ rn dirs Hr).
  assert (Hno : negb (wstarts dirs) && (host_root rn || wstarts dirs) = false).
  { destruct (wstarts dirs) eqn:Es; [reflexivity|]. cbn [negb andb]. rewrite orb_false_r. destruct (host_root rn) eqn:Eh; [|reflexivity]. exfalso.
    destruct Hc as (Hrs & _ & Hfp). destruct (split_root_cases s rn _ Hrs) as [_ [[_ H]|[(a & -> & Ha')|(a & w & _ & _ & _ & _ & H)]]].
    - congruence.
    - cbn in Eh. rewrite Ha' in Eh. discriminate.
    - destruct H as [H|H].
      + apply app_eq_nil in H. destruct H. congruence.
      + destruct dirs as [|z d]; [|cbn in H, Es; congruence]. cbn [app] in H. destruct f as [|z f]; [congruence|]. apply wplain_cons in Hfp. cbn in H. destruct Hfp. congruence. }
  rewrite Hno. cbn [orb bind ptyp ptype_eqb comps pathname swap fst]. rewrite app_nil_r. eexists. split; [reflexivity|].
  fold (native (split_components Windows (rn ++ dirs))). cbn [pathname comps ptyp].
  match goal with |- context [Path ?a ?b ?c] => change (Path a b c) with (Path (pathname (split_components Windows (native (split_components Windows (rn ++ dirs)) ++ f))) b c) end.
  assert (Heta : forall p, Path (pathname p) (comps p) (ptyp p) = p) by (intros []; reflexivity). rewrite Heta, !win_elems.
  (* the text of the directories *)
  rewrite (elements_cut s rn dirs f Hc Hn).
  assert (Hcut2 : exists s2 dirs2, native (split_components Windows (rn ++ dirs)) ++ f = s2 /\ cut_at s2 rn dirs2 f /\ wstarts dirs2 = wstarts dirs /\ wnames dirs2 = wnames dirs).
  { rewrite win_native. unfold win_text. destruct (win_elements no_wsep (rn ++ dirs)) as [|y [|z l]] eqn:Ee.
    - exists s, dirs. rewrite <- app_assoc, <- (cut_whole _ _ _ _ Hc). auto.
    - unfold win_elements in Ee. rewrite Hr in Ee. destruct rn as [|r0 rn'] eqn:Ern.
      + cbn [is_nil app] in *. destruct (wstarts dirs) eqn:Es.
        * cbn [app] in Ee. injection Ee as <- Ee. apply app_eq_nil in Ee. destruct Ee as [Ee _]. exists ([backslash] ++ f), [backslash].
          split; [reflexivity|]. split; [|split; [reflexivity|exact (eq_sym Ee)]]. split; [|split; [right; reflexivity|destruct Hc as (_ & _ & H); exact H]].
          destruct Hc as (_ & _ & Hfp). destruct f as [|z f]; [congruence|]. apply wplain_cons in Hfp. cbn [app split_root]. change (is_wsep backslash) with true. cbn [andb].
          destruct (Ascii.eqb_spec backslash z) as [<-|]; [destruct Hfp; discriminate|]. reflexivity.
        * exfalso. cbn [app] in Ee. destruct dirs as [|w d]; [discriminate|]. destruct Hc as (_ & [H|H] & _); [discriminate|]. rewrite H in Ee. cbn [andb] in Ee.
          destruct (wnames (w :: d)) as [|? [|? ?]] eqn:En; try discriminate.
      + rewrite <- Ern in *. cbn [is_nil app] in Ee. replace (is_nil rn) with false in Ee by (rewrite Ern; reflexivity). cbn [app] in Ee. injection Ee as <- Ee.
        apply app_eq_nil in Ee. destruct Ee as [E1 E2]. destruct (wstarts dirs) eqn:Es; [discriminate|]. apply app_eq_nil in E2. destruct E2 as [E2 _].
        apply unstarted_no_names in E2; [|exact Es]. subst dirs. destruct Hc as (Hrs & Hz & Hfp). cbn [app] in *.
        destruct (split_root_cases s rn _ Hrs) as [_ [[H _]|[(a & -> & Ha')|(a & w & Hw & Ha' & _ & _ & H)]]].
        * congruence.
        * exists s, []. rewrite (proj1 (split_root_cases s _ _ Hrs)). split; [unfold preferred; cbn [map app]; rewrite (plain_nosep a Ha'); reflexivity|].
          split; [|split; reflexivity]. rewrite <- (proj1 (split_root_cases s _ _ Hrs)). split; [exact Hrs|]. split; [exact Hz|exact Hfp].
        * exfalso. destruct H as [H|H]; [congruence|]. destruct f as [|z f]; [congruence|]. apply wplain_cons in Hfp. cbn in H. destruct Hfp. congruence.
    - exists s, dirs. rewrite <- app_assoc, <- (cut_whole _ _ _ _ Hc). auto. }
  destruct Hcut2 as (s2 & dirs2 & -> & Hc2 & H1 & H2). rewrite (elements_cut s2 rn dirs2 f Hc2 Hn), H1, H2. reflexivity.
Qed.

Example C86_replace_own_example : exists x, filename Windows (split_components Windows (lit "//d/c:y")) = Ok x /\ native x <> [] /\
  native x = lit "c:y".
Proof. eexists. split; [reflexivity|]. split; [discriminate|reflexivity]. Qed.

(** replace_extension: everything before the extension is kept, then a dot unless the replacement has
    one or is empty, then the replacement; the whole is read again as a path. *)
Theorem C86_replace_extension : forall s r, let p := split_components Windows s in
  exists rn dirs f, cut_at (native p) rn dirs f /\
  replace_extension Windows p r = Ok (split_components Windows (rn ++ dirs ++ native (stem Windows p) ++
    match native r with [] => [] | c :: x => if Ascii.eqb c dot then c :: x else dot :: c :: x end)).
Proof.
  intros s r p. unfold p. destruct (cut_text (native (split_components Windows s))) as (rn & dirs & f & Hc). exists rn, dirs, f. split; [exact Hc|].
  pose proof (split_native s) as Hsp. rewrite <- Hsp at 1.
  assert (Hst : native (split_components Windows (native (split_components Windows s))) = native (split_components Windows s)) by (rewrite Hsp; reflexivity).
  rewrite (replace_extension_cut _ rn dirs f r Hst Hc). rewrite <- Hsp at 1. rewrite (stem_cut _ rn dirs f Hc).
  unfold dotted. destruct (native r); reflexivity.
Qed.

(** The stem and the new extension can be read back when the replacement is one extension (no
    separator, no dot except in front) and the stem is neither empty nor "."; the other elements stay. *)
Theorem C86_replace_extension_reads_back : forall s rn dirs f r, let p := split_components Windows s in
  cut_at s rn dirs f -> f <> [] -> native (stem Windows p) <> lit "." ->
  wplain r -> r <> [] -> ~ In dot (tl r) -> (hd dot r = dot \/ ~ In dot r) ->
  exists q f', replace_extension Windows p (split_components Windows r) = Ok q /\
    cut_at (native q) rn dirs f' /\
    native (stem Windows q) = native (stem Windows p) /\
    native (extension Windows q) = (if Ascii.eqb (hd dot r) dot then r else dot :: r) /\
    map native (elems q) = removelast (map native (elems p)) ++ [f'].
Proof.
  intros s rn dirs f r p Hc Hf Hst Hr Hrn Hd1 Hd2. unfold p in *. rewrite (stem_cut s rn dirs f Hc) in *.
  pose proof Hc as (_ & Hdirs & Hfp).
  assert (Hne : stem_text f <> []).
  { destruct (stem_ext_ok f) as [He [[Hx _]|(x & _ & _ & Hne & _)]]; [|exact Hne]. rewrite Hx, app_nil_r in He. congruence. }
  assert (Hdot : wplain (dotted r)).
  { unfold dotted. destruct r as [|c r]; [reflexivity|]. destruct (Ascii.eqb c dot); [exact Hr|]. unfold wplain in *. cbn [forallb] in *. rewrite Hr. reflexivity. }
  set (f' := stem_text f ++ dotted r).
  assert (Hf' : wplain f') by (apply wplain_app; split; [apply stem_plain; exact Hfp|exact Hdot]).
  assert (Hf'n : f' <> []) by (unfold f'; destruct (stem_text f); [congruence|discriminate]).
  assert (Hc2 : cut_at (rn ++ dirs ++ f') rn dirs f').
  { split; [|split; assumption]. apply (cut_root s rn dirs f f' Hc Hf'); [congruence|]. intros -> ->.
    pose proof (cut_whole _ _ _ _ Hc) as Hs. cbn [app] in Hs. destruct Hc as (Hroot & _ & _). cbn [app] in Hroot. subst s.
    destruct (stem_ext_ok f) as [He _]. unfold f'. destruct (stem_text f) as [|a [|b t]] eqn:Est; [congruence| |].
    - unfold dotted. destruct r as [|c r]; [congruence|]. destruct (Ascii.eqb_spec c dot) as [->|]; cbn; discriminate.
    - cbn. rewrite He in Hroot. cbn [app split_root] in Hroot. intros ->.
      assert (Ha : is_wsep a = false) by (rewrite He in Hfp; apply wplain_cons in Hfp; tauto).
      unfold no_wsep in Hroot. rewrite Ha in Hroot. cbn in Hroot. discriminate. }
  assert (Hnr : native (split_components Windows r) = r) by (apply native_plain; exact Hr).
  exists (split_components Windows (rn ++ dirs ++ f')), f'.
  split.
  { rewrite (replace_extension_cut s rn dirs f _ (cut_native s rn dirs f Hc Hf) Hc), Hnr. reflexivity. }
  rewrite (cut_native _ rn dirs f' Hc2 Hf'n), (stem_cut _ rn dirs f' Hc2), (ext_cut _ rn dirs f' Hc2).
  destruct (stem_ext_unique f' (stem_text f') (ext_text f') _ _ (stem_ext_ok f') (stem_dotted _ r Hne Hst Hrn Hd1 Hd2)) as [U1 U2].
  split; [exact Hc2|]. split; [exact U1|]. split.
  - rewrite U2. destruct r as [|c r]; [congruence|]. reflexivity.
  - rewrite !win_elems, (elements_cut _ rn dirs f' Hc2 Hf'n), (elements_cut _ rn dirs f Hc Hf).
    unfold parts_elements. cbn [andb]. rewrite !app_nil_r, !app_assoc, removelast_snoc. reflexivity.
Qed.

(** Replacing the extension by the path's own extension changes nothing. *)
Theorem C86_replace_own_extension : forall s, let p := split_components Windows s in
  replace_extension Windows p (extension Windows p) = Ok p.
Proof.
  intros s p. unfold p. destruct (cut_text (native (split_components Windows s))) as (rn & dirs & f & Hc).
  pose proof (split_native s) as Hsp.
  assert (Hst : native (split_components Windows (native (split_components Windows s))) = native (split_components Windows s)) by (rewrite Hsp; reflexivity).
  rewrite <- Hsp. rewrite (replace_extension_cut _ rn dirs f _ Hst Hc), (ext_cut _ rn dirs f Hc), ext_text_dotted, stem_ext_app.
  rewrite <- (cut_whole _ _ _ _ Hc). reflexivity.
Qed.

Example C86_replace_extension_example :
  replace_extension Windows (split_components Windows (lit "C:b.tar.gz")) (split_components Windows (lit "zip")) = Ok (split_components Windows (lit "C:b.tar.zip")) /\
  replace_extension Windows (split_components Windows (lit "C:\a/b")) (split_components Windows (lit ".x")) = Ok (split_components Windows (lit "C:\a/b.x")) /\
  cut_at (lit "C:b.tar.gz") (lit "C:") [] (lit "b.tar.gz") /\ wplain (lit "zip").
Proof. repeat split; auto. Qed.

(** make_preferred writes every separator as a backslash and leaves the elements alone. *)
Theorem C86_make_preferred : forall s, let p := split_components Windows s in
  native (make_preferred Windows p) = map (fun c => if Ascii.eqb c slash then backslash else c) (native p) /\
  map native (elems (make_preferred Windows p)) = map native (elems p).
Proof.
  intros s p. split; [reflexivity|]. unfold p. destruct s as [|a s']; [reflexivity|]. rewrite wsplit_all by discriminate.
  destruct (all_comps (a :: s')) as [|c [|d l]] eqn:Ea.
  - reflexivity.
  - rewrite trim_single. unfold make_preferred, elems. cbn [ptyp comps pathname to_preferred].
    change (map (fun c => if Ascii.eqb c slash then backslash else c) (c_str c)) with (preferred (c_str c)).
    rewrite (comps_preferred _ c Ea). destruct (c_type c); reflexivity.
  - rewrite trim_other by (cbn; lia). reflexivity.
Qed.

(** The result is the path of the new text. Missing: texts that start with two different separators
    and a name, where it is not (see below). *)
Theorem C86_make_preferred_path_partial : forall s, mixed_start s = false ->
  make_preferred Windows (split_components Windows s) = split_components Windows (preferred s).
Proof.
  intros s Hm. destruct s as [|a s']; [reflexivity|]. rewrite !wsplit_all by discriminate. rewrite (preferred_comps _ Hm).
  destruct (all_comps (a :: s')) as [|c [|d l]] eqn:Ea.
  - reflexivity.
  - rewrite !trim_single. unfold make_preferred. cbn [ptyp comps pathname to_preferred].
    change (map (fun c => if Ascii.eqb c slash then backslash else c) (c_str c)) with (preferred (c_str c)).
    rewrite (comps_preferred _ c Ea). reflexivity.
  - rewrite !trim_other by (cbn; lia). reflexivity.
Qed.

(** Two different separators and a name: the new text starts with a host, but the path keeps
    the elements it had, so a path made from its text has other elements. *)
Theorem C86_make_preferred_refuted : forall s, mixed_start s = true -> let q := make_preferred Windows (split_components Windows s) in
  map native (elems (split_components Windows (native q))) <> map native (elems q).
Proof.
  intros s Hm q. unfold q. destruct (C86_make_preferred s) as [Hn He]. cbv zeta in *. rewrite He. rewrite !win_elems.
  destruct s as [|a [|b r]]; try discriminate. cbn [mixed_start] in Hm. rewrite !andb_true_iff in Hm. destruct Hm as [[[Ha Hb] Hab] Hw].
  apply negb_true_iff in Hab.
  assert (Hsr : split_root no_wsep (a :: b :: r) = ([], a :: b :: r)).
  { cbn [split_root]. rewrite Ha, Hab. cbn [andb]. unfold no_wsep. rewrite Ha. reflexivity. }
  assert (Hnat : native (split_components Windows (a :: b :: r)) = a :: b :: r).
  { rewrite win_native. unfold win_text, win_elements. rewrite Hsr. cbn [is_nil app wstarts]. rewrite Ha. cbn [app].
    destruct (wnames (a :: b :: r)) as [|n l] eqn:En; [|reflexivity]. exfalso. apply wnames_none in En. cbn in En. rewrite Ha, Hb in En. cbn [andb] in En.
    destruct r as [|c r]; [discriminate|]. cbn in En, Hw. destruct (is_wsep c); discriminate. }
  rewrite Hnat in Hn. rewrite Hn. unfold win_elements. rewrite Hsr. cbn [is_nil app wstarts]. rewrite Ha. cbn [app].
  assert (Hp : forall c, is_wsep c = true -> (if Ascii.eqb c slash then backslash else c) = backslash) by (intros c Hc; destruct (wsep_cases c Hc); subst; reflexivity).
  cbn [map split_root]. rewrite (Hp a Ha), (Hp b Hb). change (is_wsep backslash) with true. rewrite Ascii.eqb_refl.
  fold (preferred r). destruct (preferred_word r) as [Hpw _]. rewrite Hpw, Hw. cbn [andb is_nil app]. discriminate.
Qed.

Example C86_make_preferred_example :
  make_preferred Windows (split_components Windows (lit "C:/a//b/")) = split_components Windows (lit "C:\a\\b\") /\ mixed_start (lit "C:/a//b/") = false /\
  mixed_start (lit "/\h\x") = true /\
  map native (elems (make_preferred Windows (split_components Windows (lit "/\h\x")))) = [lit "\"; lit "h"; lit "x"] /\
  map native (elems (split_components Windows (lit "\\h\x"))) = [lit "\\h"; lit "\"; lit "x"].
Proof. repeat split; reflexivity. Qed.

Print Assumptions C86_filename_stem_extension.
Print Assumptions C86_cut_unique.
Print Assumptions C86_queries.
Print Assumptions C86_remove_filename.
Print Assumptions C86_replace_filename.
Print Assumptions C86_replace_own_filename.
Print Assumptions C86_replace_extension.
Print Assumptions C86_replace_extension_reads_back.
Print Assumptions C86_replace_own_extension.
Print Assumptions C86_make_preferred.
Print Assumptions C86_make_preferred_path_partial.
Print Assumptions C86_make_preferred_refuted.
