(** What joining paths and taking parents give on Windows, for every pair of texts.
    Sources: fs_path.cpp:266-297 (parent_path), 299-316 (filename), 522-597 (operator/=),
    fs_path.h:505-509 (operator/). *)
From Coq Require Import Ascii String Bool Arith NArith ZArith Lia List.
From Verif Require Import Str PathModel PathSpec StrProofs PathProofs PathOps WinPathProps WinPlace.
Import ListNotations.

(** The elements of a Windows path with the given parts: the drive or host, the root directory,
    the names, and an empty element when a separator follows the last name. *)
Definition parts_elements (root : str) (rooted : bool) (names : list str) (trailing : bool) : list str :=
  (if is_nil root then [] else [root]) ++ (if rooted then [[backslash]] else []) ++ names ++
  (if trailing && negb (is_nil names) then [[]] else []).

(** What appending the text [t] to the text [s] must give, as elements.  A second operand that names
    another drive or host, or that is absolute while the first names none, replaces the first; a second
    operand with a root directory replaces all but the drive or host; otherwise the names are joined,
    a bare host gaining a root directory. *)
Definition appended (s t : str) : list str :=
  let (rn1, r1) := split_root no_wsep s in
  let (rn2, r2) := split_root no_wsep t in
  if negb (is_nil rn2) && negb (str_eqb (preferred rn2) (preferred rn1)) ||
     is_nil rn1 && (host_root rn2 || wstarts r2)
  then win_elements no_wsep t
  else if wstarts r2 then parts_elements (preferred rn1) true (wnames r2) (wends r2)
  else parts_elements (preferred rn1) (wstarts r1 || host_root rn1) (wnames r1 ++ wnames r2)
         (if is_nil (wnames r2) then true else wends r2).

(** ** Splitting a text made of a root and a rest *)

Lemma nil_app_starts : forall x : str, x = [] \/ wstarts x = true \/ wstarts x = false.
Proof. intros. destruct (wstarts x); auto. Qed.

Lemma split_root_with : forall s rn rest x, split_root no_wsep s = (rn, rest) -> rn <> [] ->
  (host_root rn = true -> x = [] \/ wstarts x = true) ->
  split_root no_wsep (preferred rn ++ x) = (preferred rn, x).
Proof.
  intros s rn rest x Hr Hrn Hx. destruct (split_root_cases s rn rest Hr) as [_ [[-> _]|[(a & -> & Ha)|(a & w & -> & Ha & Hw & Hp & _)]]].
  - congruence.
  - unfold preferred. cbn [map app]. rewrite (plain_nosep a Ha). change (Ascii.eqb colon slash) with false. cbn iota.
    cbn [split_root]. rewrite Ha. cbn [andb]. unfold no_wsep. rewrite Ha. reflexivity.
  - assert (Hpa : (if Ascii.eqb a slash then backslash else a) = backslash) by (destruct (wsep_cases a Ha); subst; reflexivity).
    assert (Hh : host_root (a :: a :: w) = true) by (cbn; rewrite Ha; reflexivity). specialize (Hx Hh).
    assert (He : preferred (a :: a :: w) = backslash :: backslash :: w).
    { unfold preferred. cbn [map]. rewrite Hpa. f_equal. f_equal. apply (preferred_plain w Hp). }
    rewrite He. cbn [app split_root]. change (is_wsep backslash) with true. rewrite Ascii.eqb_refl. cbn [andb].
    destruct (word_app w x Hp) as [-> ->]; [tauto|]. destruct w; [congruence|]. reflexivity.
Qed.

Lemma host_preferred : forall rn, host_root (preferred rn) = host_root rn.
Proof. intros [|a [|b r]]; try reflexivity. unfold preferred. cbn [map host_root]. rewrite !preferred_sep_bool. reflexivity. Qed.

Lemma nil_preferred : forall rn, is_nil (preferred rn) = is_nil rn.
Proof. intros [|]; reflexivity. Qed.

(** The root name of a path made from a text. *)
Lemma root_name_split : forall E s rn rest, split_root no_wsep s = (rn, rest) -> rn <> [] ->
  root_name Windows E (split_components Windows s) = Path (preferred rn) [] ROOT_NAME.
Proof.
  intros E s rn rest Hr Hrn.
  assert (Hs : s <> []) by (intros ->; cbn in Hr; injection Hr as <- <-; congruence).
  assert (Hfin : fin Windows (el_other E) (Path (preferred rn) [] ROOT_NAME) = Path (preferred rn) [] ROOT_NAME).
  { unfold fin. destruct (el_other E); [reflexivity|]. cbn [pathname].
    pose proof (split_root_with s rn rest [] Hr Hrn (fun _ => or_introl eq_refl)) as Hp. rewrite app_nil_r in Hp.
    assert (Hpn : preferred rn <> []) by (destruct rn; [congruence|discriminate]).
    destruct (wsplit _ _ _ Hpn Hp) as [_ ->]. unfold root_comps. destruct rn as [|b0 rn0]; [congruence|]. cbn [preferred map is_nil wstarts app].
    cbn [wtok wflush is_nil trail wends rev andb app wnames wpieces filter negb].
    rewrite trim_single. cbn [c_str c_type]. f_equal. apply (preferred_twice (b0 :: rn0)). }
  destruct (wsplit s rn rest Hs Hr) as [_ ->]. unfold root_comps. destruct rn as [|b rn]; [congruence|]. cbn [is_nil app].
  match goal with |- context [trim (Path s (?c :: ?L) MULTI)] => destruct L as [|d l] end.
  - rewrite trim_single. unfold root_name. cbn [ptyp c_type ptype_eqb]. exact Hfin.
  - rewrite trim_other by (cbn; lia). unfold root_name. cbn [ptyp comps c_type ptype_eqb]. exact Hfin.
Qed.

Lemma root_name_none : forall E s rest, split_root no_wsep s = ([], rest) ->
  pathname (root_name Windows E (split_components Windows s)) = [].
Proof. intros E s rest Hr. destruct (win_parts E s [] rest Hr) as [H _]. exact H. Qed.

Lemma root_names_differ : forall E s t rn1 r1 rn2 r2, split_root no_wsep s = (rn1, r1) -> split_root no_wsep t = (rn2, r2) ->
  rn2 <> [] ->
  path_ne (root_name Windows E (split_components Windows t)) (root_name Windows E (split_components Windows s))
  = negb (str_eqb (preferred rn2) (preferred rn1)).
Proof.
  intros E s t rn1 r1 rn2 r2 H1 H2 Hn. unfold path_ne. f_equal. rewrite (root_name_split E t rn2 r2 H2 Hn).
  assert (Hpn : preferred rn2 <> []) by (destruct rn2; [congruence|discriminate]).
  destruct rn1 as [|a rn1].
  - pose proof (root_name_none E s r1 H1) as Hp. destruct (root_name Windows E (split_components Windows s)) as [u cs ty] eqn:Er. cbn in Hp. subst u.
    assert (Hcs : cs = []).
    { unfold root_name in Er. assert (Hrn : has_root_name (split_components Windows s) = false) by (rewrite (has_root_name_split s [] r1 H1); reflexivity).
      unfold has_root_name in Hrn. apply orb_false_iff in Hrn. destruct Hrn as [Ht Hc]. rewrite Ht in Er.
      assert (Hx : (match comps (split_components Windows s) with
             | [] => path_default | c :: _ => if ptype_eqb (c_type c) ROOT_NAME then comp_path c else path_default end) = path_default).
      { destruct (comps (split_components Windows s)) as [|c l]; [reflexivity|]. rewrite Hc. reflexivity. }
      rewrite Hx in Er. unfold fin in Er. destruct (el_other E); cbn in Er; injection Er as <- _; reflexivity. }
    subst cs. unfold path_eq, compare, empty. cbn [pathname ptyp comps is_nil].
    destruct (preferred rn2) as [|x y] eqn:Ep; [congruence|]. cbn [is_nil andb].
    destruct ty; cbn; reflexivity.
  - rewrite (root_name_split E s (a :: rn1) r1 H1) by discriminate. unfold path_eq, compare, empty. cbn [pathname ptyp].
    destruct (is_nil (preferred rn2)) eqn:En; [destruct (preferred rn2); [congruence|discriminate]|]. cbn [andb].
    destruct (str_eqb (preferred rn2) (preferred (a :: rn1))) eqn:Ee.
    + apply str_eqb_spec in Ee. rewrite Ee, str_compare_refl. reflexivity.
    + assert (Hd : preferred rn2 <> preferred (a :: rn1)) by (intros X; apply str_eqb_spec in X; congruence).
      destruct (str_compare (preferred rn2) (preferred (a :: rn1))) eqn:Ec; [|reflexivity|reflexivity].
      apply str_compare_eq in Ec. contradiction.
Qed.

(** ** Names of a text made of two *)

Lemma wpieces_app : forall s c r, is_wsep c = true -> wpieces (s ++ c :: r) = wpieces s ++ wpieces r.
Proof.
  induction s as [|x s IH]; intros c r Hc.
  - cbn. rewrite Hc. reflexivity.
  - cbn [app wpieces]. rewrite IH by exact Hc. destruct (is_wsep x); [reflexivity|].
    pose proof (wpieces_nonnil s). destruct (wpieces s); [congruence|]. reflexivity.
Qed.

Lemma wnames_app : forall s c r, is_wsep c = true -> wnames (s ++ c :: r) = wnames s ++ wnames r.
Proof. intros. unfold wnames. rewrite wpieces_app by assumption. apply filter_app. Qed.

Lemma wends_snoc : forall s, wends s = true -> exists u c, s = u ++ [c] /\ is_wsep c = true.
Proof.
  intros s. destruct s as [|c u _] using rev_ind; [discriminate|]. unfold wends. rewrite rev_app_distr. cbn. eauto.
Qed.

Lemma wnames_ended : forall s r, wends s = true -> wnames (s ++ r) = wnames s ++ wnames r.
Proof.
  intros s r H. destruct (wends_snoc s H) as (u & c & -> & Hc). rewrite <- app_assoc. cbn [app].
  rewrite !wnames_app by exact Hc. cbn. rewrite app_nil_r. reflexivity.
Qed.

Lemma unstarted_no_names : forall s, wstarts s = false -> wnames s = [] -> s = [].
Proof.
  intros s H Hn. apply wnames_none in Hn. destruct s; [reflexivity|]. cbn in H, Hn. rewrite H in Hn. discriminate.
Qed.

(** ** The text a path keeps has the parts of the text it was made from *)

Lemma parts_native : forall s rn rest, split_root no_wsep s = (rn, rest) ->
  exists rn' rest', split_root no_wsep (native (split_components Windows s)) = (rn', rest') /\
    preferred rn' = preferred rn /\ wstarts rest' = wstarts rest /\ wnames rest' = wnames rest /\ wends rest' = wends rest.
Proof.
  intros s rn rest Hr. rewrite win_native. unfold win_text.
  destruct (win_elements no_wsep s) as [|x [|y l]] eqn:El; try (exists rn, rest; auto; fail).
  unfold win_elements in El. rewrite Hr in El.
  destruct rn as [|b rn].
  - destruct (split_root_cases s [] rest Hr) as [Hcat _]. cbn [app] in Hcat. subst rest. cbn [is_nil app] in El.
    destruct (wstarts s) eqn:Es.
    + cbn [app] in El. injection El as <- Hl. apply app_eq_nil in Hl. destruct Hl as [Hn _]. exists [], [backslash].
      rewrite Hn. rewrite (wends_seps s); [repeat split; auto| |apply wnames_none; exact Hn]. intros ->. discriminate.
    + cbn [app] in El. destruct (wnames s) as [|n l] eqn:En; [rewrite andb_false_r in El; discriminate|].
      cbn [app] in El. injection El as -> Hl. apply app_eq_nil in Hl. destruct Hl as [-> Ht].
      destruct (wends s) eqn:Ew; [discriminate|]. pose proof (single_name s x Es Ew En) as <-. exists [], s. rewrite Es, Ew, En. auto.
  - cbn [is_nil app] in El. injection El as <- Hl. apply app_eq_nil in Hl. destruct Hl as [Hst Hl]. apply app_eq_nil in Hl. destruct Hl as [Hn _].
    assert (Hw : wstarts rest = false) by (destruct (wstarts rest); [discriminate|reflexivity]).
    rewrite (unstarted_no_names rest Hw Hn) in *. exists (preferred (b :: rn)), [].
    pose proof (split_root_with s (b :: rn) [] [] Hr ltac:(discriminate) (fun _ => or_introl eq_refl)) as Hp. rewrite app_nil_r in Hp.
    rewrite preferred_twice. auto.
Qed.

Lemma elements_native : forall s, win_elements no_wsep (native (split_components Windows s)) = win_elements no_wsep s.
Proof. intros s. rewrite <- !win_elems, split_native. reflexivity. Qed.

Lemma appended_native : forall s t,
  appended (native (split_components Windows s)) (native (split_components Windows t)) = appended s t.
Proof.
  intros s t. unfold appended. rewrite elements_native.
  destruct (split_root no_wsep s) as [rn1 r1] eqn:H1. destruct (split_root no_wsep t) as [rn2 r2] eqn:H2.
  destruct (parts_native s rn1 r1 H1) as (rn1' & r1' & -> & Hp1 & Hs1 & Hn1 & He1).
  destruct (parts_native t rn2 r2 H2) as (rn2' & r2' & -> & Hp2 & Hs2 & Hn2 & He2).
  rewrite <- (nil_preferred rn2'), <- (nil_preferred rn1'), <- (host_preferred rn2'), <- (host_preferred rn1').
  rewrite Hp1, Hp2, Hs1, Hs2, Hn1, Hn2, He2, !nil_preferred, !host_preferred. reflexivity.
Qed.

(** ** What operator/= computes *)

(** fs_path.cpp:561-569 of the model: what is kept of the first operand. *)
Lemma kept_root : forall s rn rest, split_root no_wsep s = (rn, rest) ->
  (let this := split_components Windows s in
   if negb (ptype_eqb (ptyp this) ROOT_NAME) then
     match comps this with c :: _ => if ptype_eqb (c_type c) ROOT_NAME then c_str c else [] | [] => [] end
   else pathname this) = preferred rn.
Proof.
  intros s rn rest Hr. cbv zeta. destruct rn as [|b rn].
  - pose proof (has_root_name_split s [] rest Hr) as H. cbn in H. unfold has_root_name in H. apply orb_false_iff in H. destruct H as [-> H]. cbn [negb].
    destruct (comps (split_components Windows s)) as [|c l]; [reflexivity|]. rewrite H. reflexivity.
  - assert (Hs : s <> []) by (intros ->; discriminate Hr).
    destruct (wsplit s _ _ Hs Hr) as [_ ->]. unfold root_comps. cbn [is_nil app].
    match goal with |- context [trim (Path s (?c :: ?L) MULTI)] => destruct L as [|d l] end.
    + rewrite trim_single. reflexivity.
    + rewrite trim_other by (cbn; lia). reflexivity.
Qed.

(** What is added of the second operand. *)
Lemma added_rest : forall t rn rest, split_root no_wsep t = (rn, rest) -> native (split_components Windows t) = t ->
  (let p := split_components Windows t in
   if ptype_eqb (ptyp p) ROOT_NAME then []
   else match comps p with
        | c :: _ => if ptype_eqb (c_type c) ROOT_NAME then skipn (length (c_str c)) (pathname p) else pathname p
        | [] => pathname p end) = rest.
Proof.
  intros t rn rest Hr Ht. cbv zeta. destruct (split_root_cases t rn rest Hr) as [Hcat _]. destruct rn as [|b rn].
  - cbn [app] in Hcat. subst rest.
    pose proof (has_root_name_split t [] t Hr) as H. cbn in H. unfold has_root_name in H. apply orb_false_iff in H. destruct H as [-> H].
    unfold native in Ht. rewrite Ht. destruct (comps (split_components Windows t)) as [|c l]; [reflexivity|]. rewrite H. reflexivity.
  - assert (Hs : t <> []) by (intros ->; discriminate Hr).
    destruct (wsplit t _ _ Hs Hr) as [_ Hsp]. rewrite Hsp in Ht. rewrite Hsp. unfold root_comps in *. cbn [is_nil app] in *.
    match goal with |- context [trim (Path t (?c :: ?L) MULTI)] => destruct L as [|d l] end.
    + rewrite trim_single in *. cbn [ptyp c_type ptype_eqb native pathname c_str] in *.
      rewrite Hcat in Ht. apply (f_equal (@length ascii)) in Ht. cbn [length] in Ht. rewrite app_length in Ht. unfold preferred in Ht. cbn [map length] in Ht. rewrite map_length in Ht.
      destruct rest; [reflexivity|]. cbn in Ht. lia.
    + rewrite trim_other in * by (cbn; lia). cbn [ptyp ptype_eqb comps c_type c_str pathname].
      unfold preferred. rewrite map_length, Hcat. apply skipn_exact. reflexivity.
Qed.

Lemma split_root_joint : forall s n rn rest, stable s -> wstarts n = false -> split_root no_wsep s = (rn, rest) ->
  split_root no_wsep (s ++ joint s ++ n) = (rn, rest ++ joint s ++ n).
Proof.
  intros s n rn rest [Hs Hst] Hn0 Hr. destruct (split_root_cases s rn rest Hr) as [Hcat Hc]. rewrite win_native in Hst.
  destruct s as [|a [|b r]]; [congruence| |].
  - cbn in Hr. injection Hr as <- <-. rewrite joint_text by exact Hs. cbn [drive_only]. rewrite orb_false_r. unfold wends. cbn [rev app wstarts].
    destruct (is_wsep a) eqn:Ea.
    + destruct n as [|c n]; [reflexivity|]. cbn [app split_root]. cbn in Hn0. rewrite Ea.
      destruct (Ascii.eqb_spec a c) as [<-|]; [congruence|]. cbn [andb]. unfold no_wsep. rewrite Ea. reflexivity.
    + cbn [app split_root]. rewrite Ea. cbn [andb]. rewrite andb_false_r. reflexivity.
  - destruct Hc as [[-> _]|[(x & -> & Hx)|(x & w & -> & Hx & Hw & Hp & Hrest)]].
    + cbn [app] in Hcat. subst rest. cbn [split_root] in Hr. cbn [app split_root].
      destruct (is_wsep a && Ascii.eqb a b) eqn:E1.
      * cbn [andb] in Hr |- *. destruct (is_nil (word r)) eqn:Ew; [|discriminate].
        destruct r as [|c r].
        { exfalso. apply andb_prop in E1. destruct E1 as [Ea Eb]. apply Ascii.eqb_eq in Eb. subst b.
          destruct (wsep_cases a Ea) as [->| ->]; cbv in Hst; discriminate. }
        cbn [word] in Ew. cbn [app word]. destruct (is_wsep c) eqn:Ec; [|discriminate].
        cbn [is_nil negb]. apply andb_prop in E1. destruct E1 as [Ea _]. unfold no_wsep. rewrite Ea. reflexivity.
      * cbn [andb] in Hr |- *. destruct (no_wsep a && Ascii.eqb b colon); [discriminate|]. reflexivity.
    + cbn [app] in Hcat. injection Hcat as -> -> ->. cbn [app split_root]. rewrite Hx. cbn [andb]. unfold no_wsep. rewrite Hx. reflexivity.
    + cbn [app] in Hcat. injection Hcat as -> -> ->. cbn [app split_root]. rewrite Hx, Ascii.eqb_refl. cbn [andb].
      assert (Hwa : word ((w ++ rest) ++ joint (x :: x :: w ++ rest) ++ n) = w /\ after_word ((w ++ rest) ++ joint (x :: x :: w ++ rest) ++ n) = rest ++ joint (x :: x :: w ++ rest) ++ n).
      { rewrite <- app_assoc. apply word_app; [exact Hp|]. destruct Hrest as [->|Hrest].
        - left. rewrite app_nil_r. rewrite joint_text by discriminate.
          assert (He : wends (x :: x :: w) = false) by (change (x :: x :: w) with ([x; x] ++ w); rewrite wends_app by exact Hw; apply wends_plain; exact Hp).
          rewrite He. destruct w; [congruence|]. reflexivity.
        - left. destruct rest; [discriminate|exact Hrest]. }
      destruct Hwa as [-> ->]. destruct w; [congruence|]. reflexivity.
Qed.

Lemma swap_first : forall a b, fst (swap a b) = b.
Proof. intros a [? ? ?]. reflexivity. Qed.

(** The result as a text, for operands whose texts are the ones the paths keep. *)
Lemma append_text : forall E grow s t rn1 r1 rn2 r2,
  split_root no_wsep s = (rn1, r1) -> split_root no_wsep t = (rn2, r2) ->
  native (split_components Windows s) = s -> native (split_components Windows t) = t ->
  path_append Windows E grow (split_components Windows s) (split_components Windows t) =
  Ok (split_components Windows
    (if negb (is_nil rn2) && negb (str_eqb (preferred rn2) (preferred rn1)) || is_nil rn1 && (host_root rn2 || wstarts r2) then t
     else if wstarts r2 then preferred rn1 ++ r2
     else s ++ (if is_nil s then [] else joint s) ++ r2)).
Proof.
  intros E grow s t rn1 r1 rn2 r2 H1 H2 Hs Ht. unfold path_append.
  pose proof (kept_root s rn1 r1 H1) as Hk. pose proof (added_rest t rn2 r2 H2 Ht) as Ha. cbv zeta in Hk, Ha. rewrite Hk, Ha. clear Hk Ha.
  rewrite (is_absolute_split E t rn2 r2 H2), (has_root_name_split t rn2 r2 H2), (has_root_name_split s rn1 r1 H1), (has_root_directory_split E t rn2 r2 H2).
  assert (Hc : (host_root rn2 || wstarts r2) && negb (negb (is_nil rn1)) ||
     negb (is_nil rn2) && path_ne (root_name Windows E (split_components Windows t)) (root_name Windows E (split_components Windows s))
     = negb (is_nil rn2) && negb (str_eqb (preferred rn2) (preferred rn1)) || is_nil rn1 && (host_root rn2 || wstarts r2)).
  { rewrite negb_involutive, orb_comm, (andb_comm _ (is_nil rn1)). f_equal. destruct rn2 as [|b rn2]; [reflexivity|]. cbn [is_nil negb andb].
    apply (root_names_differ E s t rn1 r1 (b :: rn2) r2 H1 H2). discriminate. }
  rewrite Hc. clear Hc.
  match goal with |- (if ?b then _ else _) = _ => destruct b; [reflexivity|] end.
  destruct (wstarts r2) eqn:Ew.
  - cbn [bind]. rewrite app_nil_r. rewrite swap_first. destruct grow; reflexivity.
  - destruct (is_nil s) eqn:En.
    + destruct s; [|discriminate]. cbn in H1. injection H1 as <- <-.
      assert (Hz : has_root_directory Windows E (split_components Windows []) = false /\ is_absolute Windows E (split_components Windows []) = false).
      { rewrite (has_root_directory_split E [] [] [] eq_refl), (is_absolute_split E [] [] [] eq_refl). auto. }
      destruct Hz as [-> ->]. cbn [negb andb orb bind has_filename filename split_components empty pathname is_nil path_default app].
      rewrite swap_first. destruct grow; reflexivity.
    + assert (Hne : s <> []) by (intros ->; discriminate).
      rewrite (filename_split s rn1 r1 Hne H1), (has_root_directory_split E s rn1 r1 H1), (is_absolute_split E s rn1 r1 H1). cbn [bind].
      unfold native in Hs. rewrite Hs.
      assert (Hb : (negb (wstarts r1) && (host_root rn1 || wstarts r1)) = (negb (wstarts r1) && host_root rn1)).
      { destruct (wstarts r1); [reflexivity|]. rewrite orb_false_r. reflexivity. }
      rewrite Hb. unfold joint. rewrite H1. change (preferred_separator Windows) with backslash.
      destruct ((negb (is_nil (wnames r1)) && negb (wends r1)) || (negb (wstarts r1) && host_root rn1));
        (rewrite swap_first; destruct grow; rewrite <- ?app_assoc; cbn [app]; reflexivity).
Qed.

Lemma parts_elements_ended : forall rn d ns a b, (ns <> [] -> a = b) -> parts_elements rn d ns a = parts_elements rn d ns b.
Proof. intros. unfold parts_elements. destruct ns; [cbn [is_nil negb]; rewrite !andb_false_r; reflexivity|]. rewrite (H ltac:(discriminate)). reflexivity. Qed.

Lemma win_elements_parts : forall s rn rest, split_root no_wsep s = (rn, rest) ->
  win_elements no_wsep s = parts_elements (preferred rn) (wstarts rest) (wnames rest) (wends rest).
Proof. intros s rn rest H. unfold win_elements, parts_elements. rewrite H, nil_preferred. reflexivity. Qed.

Lemma append_elements_native : forall E grow s t,
  native (split_components Windows s) = s -> native (split_components Windows t) = t ->
  exists q, path_append Windows E grow (split_components Windows s) (split_components Windows t) = Ok q /\
    q = split_components Windows (pathname q) /\ map native (elems q) = appended s t.
Proof.
  intros E grow s t Hs Ht. unfold appended.
  destruct (split_root no_wsep s) as [rn1 r1] eqn:H1. destruct (split_root no_wsep t) as [rn2 r2] eqn:H2.
  rewrite (append_text E grow s t rn1 r1 rn2 r2 H1 H2 Hs Ht). eexists. split; [reflexivity|]. split; [symmetry; apply split_native|].
  rewrite win_elems.
  destruct (negb (is_nil rn2) && negb (str_eqb (preferred rn2) (preferred rn1)) || is_nil rn1 && (host_root rn2 || wstarts r2)) eqn:Ec; [reflexivity|].
  apply orb_false_iff in Ec. destruct Ec as [Ec1 Ec2].
  destruct (wstarts r2) eqn:Ew.
  - destruct rn1 as [|b rn1]; [rewrite orb_true_r in Ec2; discriminate|].
    rewrite (win_elements_parts (preferred (b :: rn1) ++ r2) (preferred (b :: rn1)) r2), preferred_twice, Ew; [reflexivity|].
    apply (split_root_with s (b :: rn1) r1 r2 H1); [discriminate|auto].
  - destruct (is_nil s) eqn:En.
    + destruct s; [|discriminate]. cbn in H1. injection H1 as <- <-. cbn [app host_root wstarts wnames wpieces filter is_nil negb orb].
      assert (rn2 = []).
      { destruct rn2; [reflexivity|]. cbn in Ec1. discriminate. }
      subst rn2. destruct (split_root_cases t [] r2 H2) as [Hcat _]. cbn [app] in Hcat. subst r2.
      rewrite (win_elements_parts t [] t H2), Ew. apply parts_elements_ended. intros Hn. destruct (wnames t); [congruence|reflexivity].
    + assert (Hne : s <> []) by (intros ->; discriminate).
      rewrite (win_elements_parts _ rn1 (r1 ++ joint s ++ r2)) by (apply split_root_joint; [split; assumption|exact Ew|exact H1]).
      destruct (split_root_cases s rn1 r1 H1) as [Hcat Hcase].
      assert (Hj : joint s = if (negb (is_nil (wnames r1)) && negb (wends r1)) || (negb (wstarts r1) && host_root rn1) then [backslash] else []).
      { unfold joint. rewrite H1. reflexivity. }
      assert (Hhost : r1 <> [] -> host_root rn1 = true -> wstarts r1 = true).
      { intros Hr Hh. destruct Hcase as [[-> Hx]|[(a & -> & Ha)|(a & w & -> & _ & _ & _ & [->|Hx])]]; try congruence.
        cbn in Hh. rewrite Ha in Hh. discriminate. }
      assert (Hst : wstarts (r1 ++ joint s ++ r2) = wstarts r1 || host_root rn1).
      { destruct r1 as [|c r1].
        - cbn [app wstarts orb]. rewrite Hj. cbn [wnames wpieces filter is_nil negb andb orb wstarts]. destruct (host_root rn1); [reflexivity|exact Ew].
        - cbn [app wstarts]. destruct (is_wsep c) eqn:Eq; [reflexivity|]. cbn [orb]. destruct (host_root rn1) eqn:Eh; [|reflexivity].
          specialize (Hhost ltac:(discriminate) eq_refl). cbn in Hhost. congruence. }
      rewrite Hst. clear Hst.
      assert (Hns : wnames (r1 ++ joint s ++ r2) = wnames r1 ++ wnames r2).
      { rewrite Hj. destruct (negb (is_nil (wnames r1)) && negb (wends r1) || negb (wstarts r1) && host_root rn1) eqn:Eb.
        - cbn [app]. apply wnames_app. reflexivity.
        - cbn [app]. apply orb_false_iff in Eb. destruct Eb as [Eb _]. destruct (wends r1) eqn:Er; [apply wnames_ended; exact Er|].
          rewrite andb_true_r in Eb. apply negb_false_iff in Eb. destruct (wnames r1) eqn:Hn1; [|discriminate].
          destruct r1 as [|c r1]; [reflexivity|]. exfalso. rewrite (wends_seps (c :: r1)) in Er; [discriminate|discriminate|apply wnames_none; exact Hn1]. }
      rewrite Hns. apply parts_elements_ended. intros Hnn.
      destruct (is_nil (wnames r2)) eqn:Er2.
      * destruct (wnames r2) eqn:Hn2; [|discriminate]. pose proof (unstarted_no_names r2 Ew Hn2) as ->. rewrite app_nil_r in Hnn |- *.
        rewrite Hj. destruct (negb (is_nil (wnames r1)) && negb (wends r1) || negb (wstarts r1) && host_root rn1) eqn:Eb.
        -- unfold wends. rewrite rev_app_distr. reflexivity.
        -- rewrite app_nil_r. apply orb_false_iff in Eb. destruct Eb as [Eb _]. destruct (wnames r1); [congruence|]. cbn in Eb. apply negb_false_iff in Eb. exact Eb.
      * rewrite app_assoc. apply wends_app. intros ->. discriminate.
Qed.

(** ** C75: joining *)

(** Appending one path to another, with either way of building the result, gives the elements
    described by [appended], for every pair of texts; the result is what constructing a path from
    its own text gives. *)
Theorem C75_append : forall E grow s t, exists q,
  path_append Windows E grow (split_components Windows s) (split_components Windows t) = Ok q /\
  split_components Windows (native q) = q /\
  map native (elems q) = appended s t.
Proof.
  intros E grow s t.
  destruct (append_elements_native E grow (native (split_components Windows s)) (native (split_components Windows t))) as (q & H & Hq & He);
    rewrite ?split_native in *; auto.
  exists q. rewrite appended_native in He. auto.
Qed.

Theorem C75_operator_slash : forall E s t, exists q,
  path_div Windows E (split_components Windows s) (split_components Windows t) = Ok q /\
  split_components Windows (native q) = q /\
  map native (elems q) = appended s t.
Proof.
  intros E s t. destruct (C75_append E true s t) as (q & H & Hq & He). exists q. unfold path_div. rewrite H. cbn [bind].
  split; [|auto]. f_equal. unfold fin. destruct (el_other E); [reflexivity|exact Hq].
Qed.

(** ** Texts put together from parts *)

(** Root names as they are kept: none, a drive, or a host. *)
Definition root_text (rn : str) : Prop :=
  rn = [] \/ (exists a, rn = [a; colon] /\ is_wsep a = false) \/
  (exists w, rn = backslash :: backslash :: w /\ w <> [] /\ wplain w).

(** Names between separators. *)
Definition wname (n : str) : Prop := n <> [] /\ wplain n.

Fixpoint wjoin (ns : list str) : str :=
  match ns with
  | [] => []
  | [n] => n
  | n :: r => n ++ backslash :: wjoin r
  end.

Lemma root_text_split : forall s rn rest, split_root no_wsep s = (rn, rest) -> root_text (preferred rn).
Proof.
  intros s rn rest Hr. destruct (split_root_cases s rn rest Hr) as [_ [[-> _]|[(a & -> & Ha)|(a & w & -> & Ha & Hw & Hp & _)]]].
  - left. reflexivity.
  - right. left. exists a. unfold preferred. cbn [map]. rewrite (plain_nosep a Ha). auto.
  - right. right. exists w. split; [|auto]. unfold preferred. cbn [map].
    replace (if Ascii.eqb a slash then backslash else a) with backslash by (destruct (wsep_cases a Ha); subst; reflexivity).
    f_equal. f_equal. apply (preferred_plain w Hp).
Qed.

Lemma split_root_text : forall rn x, root_text rn -> (rn = [] -> split_root no_wsep x = ([], x)) ->
  (host_root rn = true -> x = [] \/ wstarts x = true) -> split_root no_wsep (rn ++ x) = (rn, x).
Proof.
  intros rn x [->|[(a & -> & Ha)|(w & -> & Hw & Hp)]] H0 Hh.
  - cbn. auto.
  - cbn [app split_root]. rewrite Ha. cbn [andb]. unfold no_wsep. rewrite Ha. reflexivity.
  - cbn [app split_root]. change (is_wsep backslash) with true. rewrite Ascii.eqb_refl. cbn [andb].
    destruct (word_app w x Hp) as [-> ->]; [destruct (Hh eq_refl); auto|]. destruct w; [congruence|]. reflexivity.
Qed.

Lemma root_text_preferred : forall rn, root_text rn -> preferred rn = rn.
Proof.
  intros rn [->|[(a & -> & Ha)|(w & -> & Hw & Hp)]]; [reflexivity| |].
  - unfold preferred. cbn [map]. rewrite (plain_nosep a Ha). reflexivity.
  - unfold preferred. cbn [map]. f_equal. f_equal. apply (preferred_plain w Hp).
Qed.

Lemma wjoin_cons : forall n ns, ns <> [] -> wjoin (n :: ns) = n ++ backslash :: wjoin ns.
Proof. intros n [|m r] H; [congruence|reflexivity]. Qed.

Lemma wname_starts : forall n, wname n -> wstarts n = false.
Proof. intros [|a n] [H Hp]; [congruence|]. cbn in Hp. apply andb_prop in Hp. destruct Hp as [Hp _]. unfold no_wsep in Hp. apply negb_true_iff in Hp. exact Hp. Qed.

Lemma wname_ends : forall n, wname n -> wends n = false.
Proof. intros n [_ H]. apply wends_plain. exact H. Qed.

Lemma wnames_all : forall s, Forall wname (wnames s).
Proof.
  intros s. apply Forall_forall. intros n Hn. split.
  - pose proof (wnames_nonempty s) as H. rewrite Forall_forall in H. auto.
  - unfold wnames in Hn. apply filter_In in Hn. destruct Hn as [Hn _]. revert n Hn. induction s as [|c s IH]; intros n Hn.
    + cbn in Hn. destruct Hn as [<-|[]]. reflexivity.
    + cbn in Hn. destruct (is_wsep c) eqn:Ec.
      * destruct Hn as [<-|Hn]; [reflexivity|auto].
      * destruct (wpieces s) as [|h t] eqn:Ep.
        -- destruct Hn as [<-|[]]. unfold wplain, no_wsep. cbn. rewrite Ec. reflexivity.
        -- destruct Hn as [<-|Hn]; [|apply IH; right; exact Hn].
           unfold wplain. cbn. unfold no_wsep at 1. rewrite Ec. cbn. apply IH. left. reflexivity.
Qed.

Lemma wjoin_nil : forall ns, Forall wname ns -> wjoin ns = [] -> ns = [].
Proof. intros [|n [|m r]] H Hj; [reflexivity| |]; inversion H as [|? ? [Hn _]]; subst; cbn in Hj; [congruence|]. destruct n; [congruence|discriminate]. Qed.

Lemma wjoin_starts : forall ns, Forall wname ns -> wstarts (wjoin ns) = false.
Proof.
  intros [|n r] H; [reflexivity|]. inversion H as [|? ? Hn Hr]; subst. pose proof (wname_starts n Hn). destruct Hn as [Hn _].
  destruct r; [exact H0|]. cbn. destruct n; [congruence|exact H0].
Qed.

Lemma wjoin_names : forall ns, Forall wname ns -> wnames (wjoin ns) = ns.
Proof.
  induction ns as [|n [|m r] IH]; intros H; [reflexivity| |]; inversion H as [|? ? [Hn Hp] Hr]; subst.
  - apply wnames_plain; assumption.
  - change (wjoin (n :: m :: r)) with (n ++ backslash :: wjoin (m :: r)). rewrite wnames_app by reflexivity.
    rewrite IH by exact Hr. rewrite wnames_plain by assumption. reflexivity.
Qed.

Lemma wjoin_ends : forall ns, Forall wname ns -> wends (wjoin ns) = false.
Proof.
  induction ns as [|n [|m r] IH]; intros H; [reflexivity| |]; inversion H as [|? ? Hn Hr]; subst.
  - apply wname_ends. exact Hn.
  - change (wjoin (n :: m :: r)) with (n ++ [backslash] ++ wjoin (m :: r)). rewrite app_assoc, wends_app; [apply IH; exact Hr|].
    intros E. apply wjoin_nil in E; [discriminate|exact Hr].
Qed.

(** The first name of a text without a drive does not look like one. *)
Definition no_drive (n : str) : Prop := match n with _ :: b :: _ => b <> colon | _ => True end.

Lemma wjoin_root : forall ns tl, Forall wname ns -> (forall n, hd_error ns = Some n -> no_drive n) ->
  (tl = [] \/ tl = [backslash] /\ ns <> []) -> split_root no_wsep (wjoin ns ++ tl) = ([], wjoin ns ++ tl).
Proof.
  intros [|n r] tl H Hd Ht.
  - destruct Ht as [->|[_ Ht]]; [reflexivity|congruence].
  - inversion H as [|? ? Hn Hr]; subst. specialize (Hd n eq_refl). pose proof (wname_starts n Hn) as Hns.
    assert (He : exists u, wjoin (n :: r) ++ tl = n ++ u /\ (u = [] \/ exists v, u = backslash :: v)).
    { destruct r as [|m r].
      - exists tl. split; [reflexivity|]. destruct Ht as [->|[-> _]]; eauto.
      - exists (backslash :: wjoin (m :: r) ++ tl). split; [|eauto]. cbn [wjoin]. rewrite <- app_assoc. reflexivity. }
    destruct He as (u & -> & Hu). destruct Hn as [Hn _]. destruct n as [|a [|b n]]; [congruence| |]; cbn in Hns, Hd.
    + destruct Hu as [->|(v & ->)]; [reflexivity|]. cbn [app split_root]. rewrite Hns. cbn [andb]. change (Ascii.eqb backslash colon) with false.
      rewrite andb_false_r. reflexivity.
    + cbn [app split_root]. rewrite Hns. cbn [andb]. rewrite (proj2 (Ascii.eqb_neq b colon)) by exact Hd. rewrite andb_false_r. reflexivity.
Qed.

Lemma unrooted_first : forall s, split_root no_wsep s = ([], s) -> wstarts s = false -> forall n, hd_error (wnames s) = Some n -> no_drive n.
Proof.
  intros s Hr Hs n Hn. destruct s as [|a s]; [discriminate|]. cbn in Hs. unfold wnames in Hn. cbn [wpieces] in Hn. rewrite Hs in Hn.
  destruct s as [|b s].
  - cbn in Hn. injection Hn as <-. exact Logic.I.
  - assert (Hb : b <> colon).
    { intros ->. cbn [split_root] in Hr. rewrite Hs in Hr. cbn [andb] in Hr. unfold no_wsep in Hr. rewrite Hs in Hr. discriminate. }
    cbn [wpieces] in Hn. destruct (is_wsep b).
    + cbn in Hn. injection Hn as <-. exact Logic.I.
    + destruct (wpieces s); cbn in Hn; injection Hn as <-; exact Hb.
Qed.

Lemma sep_root : forall ns tl, Forall wname ns -> wstarts (wjoin ns ++ tl) = false ->
  split_root no_wsep (backslash :: wjoin ns ++ tl) = ([], backslash :: wjoin ns ++ tl).
Proof.
  intros ns tl H Hs. destruct (wjoin ns ++ tl) as [|c u]; [reflexivity|]. cbn in Hs. cbn [split_root].
  destruct (Ascii.eqb_spec backslash c) as [<-|]; [discriminate|]. rewrite andb_false_r. reflexivity.
Qed.

(** ** parent_path and filename *)

(** Not ending in a colon. *)
Definition no_colon_end (n : str) : Prop := last n backslash <> colon.

Lemma last_map_opt : forall (n : str), n <> [] -> last (map Some n) None = Some (last n backslash).
Proof.
  intros n Hn. destruct n as [|c u _] using rev_ind; [congruence|]. rewrite last_map_some, last_last. reflexivity.
Qed.

Lemma sep_after_name : forall acc n, wname n -> no_colon_end n -> append_sep_if_needed Windows (acc ++ n) = (acc ++ n) ++ [backslash].
Proof.
  intros acc n Hn Hc. pose proof (wname_ends n Hn) as He. destruct Hn as [Hn _]. unfold append_sep_if_needed.
  destruct n as [|c u _] using rev_ind; [congruence|]. unfold no_colon_end in Hc. rewrite last_last in Hc.
  rewrite app_assoc, last_map_some. rewrite (proj2 (Ascii.eqb_neq c colon) Hc). cbn [orb].
  unfold wends in He. rewrite rev_app_distr in He. cbn in He. change (is_sep Windows c) with (is_wsep c). rewrite He. reflexivity.
Qed.

Lemma rebuild_names : forall cs acc, Forall wname (map c_str cs) -> Forall no_colon_end (map c_str cs) ->
  rebuild Windows cs acc = acc ++ wjoin (map c_str cs).
Proof.
  induction cs as [|c [|d r] IH]; intros acc H Hc.
  - cbn. rewrite app_nil_r. reflexivity.
  - reflexivity.
  - inversion H; subst. inversion Hc; subst. change (rebuild Windows (c :: d :: r) acc) with (rebuild Windows (d :: r) (append_sep_if_needed Windows (acc ++ c_str c))).
    rewrite sep_after_name, IH by assumption. rewrite <- !app_assoc. reflexivity.
Qed.

Lemma rebuild_cons : forall c cs acc, cs <> [] -> rebuild Windows (c :: cs) acc = rebuild Windows cs (append_sep_if_needed Windows (acc ++ c_str c)).
Proof. intros c [|d r] acc H; [congruence|reflexivity]. Qed.

Lemma app_nonnil_r : forall A (a b : list A), b <> [] -> a ++ b <> [].
Proof. intros A [|x a] b H; [exact H|discriminate]. Qed.

(** The text rebuilt from the root and the names: a host is followed by two separators. *)
Definition parent_text (rn : str) (rooted : bool) (ns : list str) : str :=
  preferred rn ++ (if rooted then (if host_root rn then [backslash; backslash] else [backslash]) else []) ++ wjoin ns.

Lemma sep_after_sep : forall t, append_sep_if_needed Windows (t ++ [backslash]) = t ++ [backslash].
Proof. intros t. unfold append_sep_if_needed. rewrite last_map_some. reflexivity. Qed.

Lemma rebuild_root : forall s rn rest cs, split_root no_wsep s = (rn, rest) -> (cs <> [] -> wnames rest <> []) ->
  Forall wname (map c_str cs) -> Forall no_colon_end (map c_str cs) -> (host_root rn = true -> no_colon_end rn) ->
  rebuild Windows (root_comps rn rest ++ cs) [] = parent_text rn (wstarts rest) (map c_str cs).
Proof.
  intros s rn rest cs Hr Hcs Hn Hc Hh. unfold root_comps, parent_text.
  assert (Hdir : forall l acc o, rebuild Windows (Comp [backslash] ROOT_DIR o :: l) (acc ++ []) = rebuild Windows l (acc ++ [backslash])).
  { intros l acc o. rewrite app_nil_r. destruct l as [|d r]; [reflexivity|]. rewrite rebuild_cons by discriminate. cbn [c_str]. rewrite sep_after_sep. reflexivity. }
  destruct (split_root_cases s rn rest Hr) as [_ [[-> _]|[(a & -> & Ha)|(a & w & -> & Ha & Hw & Hp & Hrest)]]].
  - cbn [is_nil app preferred map host_root]. destruct (wstarts rest); cbn [app].
    + specialize (Hdir cs [] (length (@nil ascii))). cbn [app] in Hdir. rewrite Hdir. apply rebuild_names; assumption.
    + apply rebuild_names; assumption.
  - cbn [is_nil app]. assert (Hpr : preferred [a; colon] = [a; colon]) by (unfold preferred; cbn [map]; rewrite (plain_nosep a Ha); reflexivity).
    rewrite Hpr. cbn [host_root]. rewrite Ha. cbn [andb].
    assert (Hs : append_sep_if_needed Windows [a; colon] = [a; colon]) by reflexivity.
    destruct (wstarts rest); cbn [app].
    + rewrite rebuild_cons by discriminate. cbn [app c_str]. rewrite Hs. rewrite <- (app_nil_r [a; colon]), Hdir.
      rewrite rebuild_names by assumption. reflexivity.
    + destruct cs as [|d r]; [reflexivity|]. rewrite rebuild_cons by discriminate. cbn [app c_str]. rewrite Hs.
      rewrite rebuild_names by assumption. reflexivity.
  - assert (Hpr : preferred (a :: a :: w) = backslash :: backslash :: w).
    { unfold preferred. cbn [map]. replace (if Ascii.eqb a slash then backslash else a) with backslash by (destruct (wsep_cases a Ha); subst; reflexivity).
      f_equal. f_equal. apply (preferred_plain w Hp). }
    assert (Hhr : host_root (a :: a :: w) = true) by (cbn; rewrite Ha; reflexivity). specialize (Hh Hhr). rewrite Hhr, Hpr.
    assert (Hs : append_sep_if_needed Windows ([backslash; backslash] ++ w) = ([backslash; backslash] ++ w) ++ [backslash]).
    { apply sep_after_name; [split; assumption|]. unfold no_colon_end in *. destruct w; [congruence|]. exact Hh. }
    cbn [is_nil app]. destruct (wstarts rest) eqn:Es; cbn [app].
    + rewrite rebuild_cons by discriminate. cbn [app c_str]. change (backslash :: backslash :: w) with ([backslash; backslash] ++ w). rewrite Hs.
      rewrite <- (app_nil_r (([backslash; backslash] ++ w) ++ [backslash])), Hdir. rewrite rebuild_names by assumption.
      rewrite <- !app_assoc. reflexivity.
    + destruct Hrest as [->|]; [|congruence]. destruct cs as [|d r]; [cbn; rewrite app_nil_r; reflexivity|]. exfalso. apply (Hcs ltac:(discriminate)). reflexivity.
Qed.

Lemma removelast_snoc : forall A (l : list A) x, removelast (l ++ [x]) = l.
Proof. intros. apply removelast_last. Qed.

(** What is left of the components once the last name is dropped. *)
Lemma drop_end_split : forall s rn rest, s <> [] -> split_root no_wsep s = (rn, rest) -> wnames rest <> [] ->
  exists l, drop_end (root_comps rn rest ++ wtok (length rn) [] rest ++ trail rest (length s)) = Ok (root_comps rn rest ++ l) /\
    map c_str l = removelast (wnames rest) /\ (exists c, wtok (length rn) [] rest = l ++ [c] /\ c_type c = FILENAME).
Proof.
  intros s rn rest Hs Hr Hn. destruct (wtok_last rest (length rn) [] eq_refl) as [Hnil|(l & c & Hl & Hct & Hc)].
  - exfalso. pose proof (wtok_names rest (length rn) [] eq_refl) as H. rewrite Hnil in H. cbn [map app] in H. congruence.
  - exists l. rewrite Hl. split; [|split].
    + unfold drop_end, trail. destruct (wends rest && negb (is_nil (wnames rest))).
      * rewrite !rev_app_distr. cbn [rev app c_str is_nil]. rewrite <- rev_app_distr, rev_involutive. reflexivity.
      * rewrite app_nil_r, !rev_app_distr. cbn [rev app]. destruct (c_str c) eqn:Ec; [congruence|]. cbn [is_nil].
        rewrite <- rev_app_distr, rev_involutive. reflexivity.
    + pose proof (wtok_names rest (length rn) [] eq_refl) as H. rewrite Hl in H. cbn [app] in H. rewrite <- H, map_app. symmetry. apply removelast_last.
    + eauto.
Qed.

Lemma has_relative_split : forall E s rn rest, split_root no_wsep s = (rn, rest) ->
  has_relative_path Windows E (split_components Windows s) = Ok (negb (is_nil (wnames rest))).
Proof.
  intros E s rn rest Hr. destruct (win_parts E s rn rest Hr) as (_ & _ & q & Hq & Hn). unfold has_relative_path. rewrite Hq. cbn [bind].
  unfold empty. unfold native in Hn. rewrite Hn. f_equal. f_equal. rewrite <- (drop_wnames rest).
  destruct (drop_wseps_split rest) as (k & _ & _ & _ & _ & Hd).
  destruct (drop_wseps rest) as [|x y] eqn:Ed; [reflexivity|]. destruct (wnames (x :: y)) eqn:En; [|reflexivity].
  apply unstarted_no_names in En; [discriminate|exact Hd].
Qed.

Lemma Forall_removelast : forall A (P : A -> Prop) l, Forall P l -> Forall P (removelast l).
Proof.
  intros A P l H. destruct l as [|x l _] using rev_ind; [constructor|]. rewrite removelast_last. apply Forall_app in H. tauto.
Qed.

Lemma hd_removelast : forall A (l : list A) x, hd_error (removelast l) = Some x -> hd_error l = Some x.
Proof. intros A [|a [|b r]] x H; [discriminate|discriminate|exact H]. Qed.

Lemma parent_text_elements : forall s rn rest ns, split_root no_wsep s = (rn, rest) ->
  Forall wname ns -> (forall n, hd_error ns = Some n -> hd_error (wnames rest) = Some n) ->
  win_elements no_wsep (parent_text rn (wstarts rest) ns) = parts_elements (preferred rn) (wstarts rest) ns false.
Proof.
  intros s rn rest ns Hr Hn Hhd. unfold parent_text.
  set (X := (if wstarts rest then if host_root rn then [backslash; backslash] else [backslash] else []) ++ wjoin ns).
  assert (Hsp : split_root no_wsep (preferred rn ++ X) = (preferred rn, X)).
  { apply split_root_text; [eapply root_text_split; exact Hr| |].
    - intros E0. assert (rn = []) by (destruct rn; [reflexivity|discriminate]). subst rn.
      destruct (split_root_cases s [] rest Hr) as [Hcat _]. cbn [app] in Hcat. subst rest. unfold X. cbn [host_root].
      destruct (wstarts s) eqn:Es.
      + cbn [app]. pose proof (sep_root ns [] Hn) as H. rewrite !app_nil_r in H. apply H. apply wjoin_starts. exact Hn.
      + cbn [app]. pose proof (wjoin_root ns [] Hn) as H. rewrite !app_nil_r in H. apply H; [|auto].
        intros n H0. apply (unrooted_first s Hr Es). auto.
    - rewrite host_preferred. intros Hh. unfold X. rewrite Hh. destruct (wstarts rest) eqn:Es; [right; reflexivity|left].
      destruct (split_root_cases s rn rest Hr) as [_ [[-> _]|[(a & -> & Ha)|(a & w & -> & _ & _ & _ & [->|Hx])]]]; try discriminate.
      + cbn in Hh. rewrite Ha in Hh. discriminate.
      + destruct ns as [|n ns]; [reflexivity|]. specialize (Hhd n eq_refl). discriminate.
      + congruence. }
  rewrite (win_elements_parts _ _ _ Hsp), preferred_twice.
  assert (Hst : wstarts X = wstarts rest).
  { unfold X. destruct (wstarts rest); [destruct (host_root rn); reflexivity|]. cbn [app]. apply wjoin_starts. exact Hn. }
  assert (Hns : wnames X = ns).
  { unfold X. destruct (wstarts rest); [destruct (host_root rn)|]; cbn [app].
    - change (backslash :: backslash :: wjoin ns) with ([] ++ backslash :: [] ++ backslash :: wjoin ns). rewrite !wnames_app by reflexivity. cbn. apply wjoin_names. exact Hn.
    - change (backslash :: wjoin ns) with ([] ++ backslash :: wjoin ns). rewrite !wnames_app by reflexivity. cbn. apply wjoin_names. exact Hn.
    - apply wjoin_names. exact Hn. }
  rewrite Hst, Hns. apply parts_elements_ended. intros Hne. unfold X. rewrite wends_app; [apply wjoin_ends; exact Hn|].
  intros E0. apply wjoin_nil in E0; [congruence|exact Hn].
Qed.

(** ** C75: the parent *)

(** What the parent of the text [s] must be, as elements: the last name is dropped, and with it
    a separator that follows it. *)
Definition parent_elems (s : str) : list str :=
  let (rn, rest) := split_root no_wsep s in
  if is_nil (wnames rest) then win_elements no_wsep s
  else parts_elements (preferred rn) (wstarts rest) (removelast (wnames rest)) false.

Theorem C75_parent_partial : forall E s,
  el_parent E = true \/ Forall no_colon_end (wnames (snd (split_root no_wsep s))) /\
                        (host_root (fst (split_root no_wsep s)) = true -> no_colon_end (fst (split_root no_wsep s))) ->
  exists q, parent_path Windows E (split_components Windows s) = Ok q /\ map native (elems q) = parent_elems s.
Proof.
  intros E s Hok. unfold parent_elems. destruct (split_root no_wsep s) as [rn rest] eqn:Hr. cbn [fst snd] in Hok.
  unfold parent_path. rewrite (has_relative_split E s rn rest Hr). cbn [bind]. rewrite negb_involutive.
  destruct (is_nil (wnames rest)) eqn:En.
  - eexists. split; [reflexivity|]. apply win_elems.
  - assert (Hnn : wnames rest <> []) by (intros H; rewrite H in En; discriminate).
    assert (Hs : s <> []) by (intros ->; cbn in Hr; injection Hr as <- <-; apply Hnn; reflexivity).
    destruct (wsplit s rn rest Hs Hr) as [Hcat Hsp].
    destruct (drop_end_split s rn rest Hs Hr Hnn) as (l & Hd & Hl & c & Hc & Hct).
    destruct (root_comps rn rest ++ wtok (length rn) [] rest ++ trail rest (length s)) as [|c0 [|c1 cs]] eqn:Ecs.
    + exfalso. rewrite Hc in Ecs. apply app_eq_nil in Ecs. destruct Ecs as [_ Ecs]. destruct l; discriminate.
    + rewrite Hsp, trim_single. assert (Hone : root_comps rn rest = [] /\ l = [] /\ c0 = c).
      { rewrite Hc in Ecs. destruct (root_comps rn rest) as [|? r0]; [|cbn in Ecs; injection Ecs as _ Ecs; apply app_eq_nil in Ecs; destruct Ecs as [_ Ecs]; destruct l; discriminate].
        destruct l as [|? l]; [cbn in Ecs; injection Ecs as <- _; auto|cbn in Ecs; injection Ecs as _ Ecs; destruct l; discriminate]. }
      destruct Hone as (Hrc & -> & ->). cbn [ptyp]. rewrite Hct. eexists. split; [reflexivity|]. cbn [map] in Hl. rewrite <- Hl.
      unfold root_comps in Hrc. apply app_eq_nil in Hrc. destruct Hrc as [Hr1 Hr2]. unfold parts_elements. rewrite nil_preferred.
      destruct (is_nil rn); [|discriminate]. destruct (wstarts rest); [discriminate|]. reflexivity.
    + rewrite Hsp, trim_other by (cbn; lia). cbn [ptyp comps]. rewrite Hd. cbn [bind]. eexists. split; [reflexivity|].
      unfold fin. destruct (el_parent E) eqn:Ee.
      * unfold elems. cbn [ptyp comps]. rewrite map_map. rewrite (map_ext (fun x => native (comp_path x)) c_str) by reflexivity.
        rewrite map_app, Hl. unfold root_comps, parts_elements. rewrite nil_preferred, map_app. cbn [andb]. rewrite app_nil_r.
        destruct (is_nil rn), (wstarts rest); reflexivity.
      * destruct Hok as [Hok|[Hok1 Hok2]]; [discriminate|]. cbn [pathname].
        rewrite (rebuild_root s rn rest l Hr), Hl; auto.
        -- rewrite win_elems. apply (parent_text_elements s); auto; [apply Forall_removelast, wnames_all|]. intros n. apply hd_removelast.
        -- rewrite Hl. apply Forall_removelast, wnames_all.
        -- rewrite Hl. apply Forall_removelast. exact Hok1.
Qed.

Lemma wtok_word : forall n off cur c r, wplain n -> is_wsep c = true ->
  wtok off cur (n ++ c :: r) = wflush off (cur ++ n) ++ wtok (off + length (cur ++ n) + 1) [] r.
Proof.
  induction n as [|x n IH]; intros off cur c r Hn Hc.
  - cbn [app wtok]. rewrite Hc, app_nil_r. reflexivity.
  - cbn in Hn. apply andb_prop in Hn. destruct Hn as [Hx Hn]. unfold no_wsep in Hx. apply negb_true_iff in Hx.
    cbn [app wtok]. rewrite Hx, IH by assumption. rewrite <- app_assoc. reflexivity.
Qed.

(** The text of the parent: the root and the names but the last, joined by the preferred separator.
    A host is excluded: see [C75_host_parent_refuted]. *)
Theorem C75_parent_text_partial : forall E s rn rest, split_root no_wsep s = (rn, rest) -> wnames rest <> [] ->
  Forall no_colon_end (wnames rest) -> host_root rn = false ->
  exists q, parent_path Windows E (split_components Windows s) = Ok q /\
    native q = preferred rn ++ (if wstarts rest then [backslash] else []) ++ wjoin (removelast (wnames rest)).
Proof.
  intros E s rn rest Hr Hnn Hcol Hh. unfold parent_path. rewrite (has_relative_split E s rn rest Hr). cbn [bind]. rewrite negb_involutive.
  destruct (is_nil (wnames rest)) eqn:En; [destruct (wnames rest); [congruence|discriminate]|].
  assert (Hs : s <> []) by (intros ->; cbn in Hr; injection Hr as <- <-; apply Hnn; reflexivity).
  destruct (wsplit s rn rest Hs Hr) as [Hcat Hsp].
  destruct (drop_end_split s rn rest Hs Hr Hnn) as (l & Hd & Hl & c & Hc & Hct).
  assert (Hpt : parent_text rn (wstarts rest) (removelast (wnames rest)) = preferred rn ++ (if wstarts rest then [backslash] else []) ++ wjoin (removelast (wnames rest))).
  { unfold parent_text. rewrite Hh. reflexivity. }
  destruct (root_comps rn rest ++ wtok (length rn) [] rest ++ trail rest (length s)) as [|c0 [|c1 cs]] eqn:Ecs.
  + exfalso. rewrite Hc in Ecs. apply app_eq_nil in Ecs. destruct Ecs as [_ Ecs]. destruct l; discriminate.
  + rewrite Hsp, trim_single. assert (Hone : root_comps rn rest = [] /\ l = [] /\ c0 = c).
    { rewrite Hc in Ecs. destruct (root_comps rn rest) as [|? r0]; [|cbn in Ecs; injection Ecs as _ Ecs; apply app_eq_nil in Ecs; destruct Ecs as [_ Ecs]; destruct l; discriminate].
      destruct l as [|? l]; [cbn in Ecs; injection Ecs as <- _; auto|cbn in Ecs; injection Ecs as _ Ecs; destruct l; discriminate]. }
    destruct Hone as (Hrc & -> & ->). cbn [ptyp]. rewrite Hct. eexists. split; [reflexivity|]. cbn [map] in Hl. rewrite <- Hl.
    unfold root_comps in Hrc. apply app_eq_nil in Hrc. destruct Hrc as [Hr1 Hr2].
    destruct rn; [|discriminate]. destruct (wstarts rest); [discriminate|]. reflexivity.
  + rewrite Hsp, trim_other by (cbn; lia). cbn [ptyp comps]. rewrite Hd. cbn [bind]. eexists. split; [reflexivity|].
    assert (Hrb : rebuild Windows (root_comps rn rest ++ l) [] = parent_text rn (wstarts rest) (removelast (wnames rest))).
    { rewrite <- Hl. apply (rebuild_root s); auto; [| |intros X; congruence]; rewrite Hl; apply Forall_removelast; [apply wnames_all|exact Hcol]. }
    rewrite Hrb. unfold fin. destruct (el_parent E); [exact Hpt|]. cbn [pathname]. rewrite win_native. unfold win_text.
    rewrite (parent_text_elements s rn rest _ Hr); [|apply Forall_removelast, wnames_all|intros n; apply hd_removelast].
    unfold parts_elements. cbn [andb]. rewrite app_nil_r, nil_preferred, Hpt. destruct rn as [|b rn]; cbn [is_nil app].
    * destruct (wstarts rest); cbn [app preferred map]; destruct (removelast (wnames rest)) as [|x [|y r]]; try reflexivity.
    * destruct (wstarts rest); cbn [app]; destruct (removelast (wnames rest)) as [|x [|y r]]; try reflexivity.
      cbn [wjoin]. rewrite app_nil_r. reflexivity.
Qed.

(** The parent of a path below a host: its text has one separator too many, and when the returned
    object is the local one, the offsets recorded in it are off by one: its relative part starts
    with a separator. *)
Theorem C75_host_parent_refuted : forall E w n m, wplain w -> w <> [] -> no_colon_end w -> wname n -> no_colon_end n -> wname m ->
  exists q, parent_path Windows E (split_components Windows (backslash :: backslash :: w ++ backslash :: n ++ backslash :: m)) = Ok q /\
    native q = backslash :: backslash :: w ++ backslash :: backslash :: n /\
    map native (elems q) = [backslash :: backslash :: w; [backslash]; n] /\
    exists r, relative_path Windows E q = Ok r /\ native r = if el_parent E then backslash :: n else n.
Proof.
  intros E w n m Hw Hw0 Hwc Hn Hnc Hm. set (s := backslash :: backslash :: w ++ backslash :: n ++ backslash :: m).
  set (rest := backslash :: n ++ backslash :: m). set (rn := backslash :: backslash :: w).
  assert (Hr : split_root no_wsep s = (rn, rest)).
  { unfold s. cbn [split_root]. change (is_wsep backslash) with true. rewrite Ascii.eqb_refl. cbn [andb].
    destruct (word_app w rest Hw (or_introl eq_refl)) as [H1 H2]. fold rest. rewrite H1, H2. destruct w; [congruence|reflexivity]. }
  assert (Hns : wnames rest = [n; m]).
  { unfold rest. change (backslash :: n ++ backslash :: m) with ([] ++ backslash :: n ++ backslash :: m). rewrite !wnames_app by reflexivity.
    destruct Hn, Hm. rewrite (wnames_plain n), (wnames_plain m) by assumption. reflexivity. }
  assert (He : wends rest = false).
  { unfold rest. change (backslash :: n ++ backslash :: m) with ((backslash :: n) ++ [backslash] ++ m). rewrite app_assoc. rewrite wends_app; [apply wname_ends; exact Hm|apply Hm]. }
  assert (Hs : s <> []) by discriminate.
  destruct (wsplit s rn rest Hs Hr) as [_ Hsp].
  assert (Htok : wtok (length rn) [] rest = [Comp n FILENAME (length rn + 1); Comp m FILENAME (length rn + 1 + length n + 1)]).
  { unfold rest. change (backslash :: n ++ backslash :: m) with ([] ++ backslash :: n ++ backslash :: m).
    rewrite wtok_word by reflexivity. cbn [app wflush is_nil length]. destruct Hn as [Hn0 Hnp], Hm as [Hm0 Hmp].
    rewrite wtok_word by (exact Hnp || reflexivity). cbn [app]. rewrite wtok_plain by exact Hmp. cbn [app]. unfold wflush.
    destruct n; [congruence|]. destruct m; [congruence|]. cbn [is_nil app]. rewrite Nat.add_0_r. reflexivity. }
  rewrite Htok in Hsp. unfold trail in Hsp. rewrite He in Hsp. cbn [andb app] in Hsp. rewrite ?app_nil_r in Hsp.
  assert (Hp2 : preferred rn = rn) by (apply root_text_preferred; right; right; exists w; auto).
  unfold root_comps in Hsp. replace (is_nil rn) with false in Hsp by reflexivity. replace (wstarts rest) with true in Hsp by reflexivity.
  cbn [app] in Hsp. rewrite Hp2, trim_other in Hsp by (cbn; lia).
  unfold parent_path. rewrite (has_relative_split E s rn rest Hr), Hns. cbn [bind is_nil negb]. rewrite Hsp. cbn [ptyp comps].
  unfold drop_end. cbn [rev app c_str]. assert (Hm0 : is_nil m = false) by (destruct Hm as [Hm _]; destruct m; [congruence|reflexivity]). rewrite Hm0. cbn [bind rev app].
  set (l := [Comp rn ROOT_NAME 0; Comp [backslash] ROOT_DIR (length rn); Comp n FILENAME (length rn + 1)]).
  assert (Ht : rebuild Windows l [] = backslash :: backslash :: w ++ backslash :: backslash :: n).
  { unfold l. rewrite rebuild_cons by discriminate. cbn [app c_str]. unfold rn. change (backslash :: backslash :: w) with ([backslash; backslash] ++ w).
    rewrite sep_after_name by (try split; assumption). rewrite rebuild_cons by discriminate. cbn [c_str]. rewrite sep_after_sep. cbn [rebuild c_str].
    rewrite <- !app_assoc. reflexivity. }
  rewrite Ht. set (T := backslash :: backslash :: w ++ backslash :: backslash :: n) in *.
  assert (HrT : split_root no_wsep T = (rn, backslash :: backslash :: n)).
  { unfold T. cbn [split_root]. change (is_wsep backslash) with true. rewrite Ascii.eqb_refl. cbn [andb].
    destruct (word_app w (backslash :: backslash :: n) Hw (or_introl eq_refl)) as [-> ->]. destruct w; [congruence|reflexivity]. }
  assert (HeT : win_elements no_wsep T = [rn; [backslash]; n]).
  { rewrite (win_elements_parts _ _ _ HrT). replace (wnames (backslash :: backslash :: n)) with [n].
    - unfold parts_elements. rewrite Hp2. replace (wends (backslash :: backslash :: n)) with false; [reflexivity|].
      symmetry. change (backslash :: backslash :: n) with ([backslash; backslash] ++ n). rewrite wends_app; [apply wname_ends; exact Hn|apply Hn].
    - change (backslash :: backslash :: n) with ([] ++ backslash :: [] ++ backslash :: n). rewrite !wnames_app by reflexivity.
      destruct Hn. rewrite (wnames_plain n) by assumption. reflexivity. }
  eexists. split; [reflexivity|]. unfold fin at 1 2 3. destruct (el_parent E) eqn:Ee.
  - split; [reflexivity|]. split; [reflexivity|]. unfold relative_path. cbn [ptyp comps l skip_root_name skip_root_dir c_type ptype_eqb].
    cbn [pathname c_pos]. unfold str_substr_from.
    assert (Hlen : length T = length rn + 2 + length n) by (unfold T, rn; cbn [length]; rewrite app_length; cbn [length]; lia).
    rewrite (proj2 (Nat.leb_le _ _)) by lia. cbn [bind]. eexists. split; [reflexivity|].
    assert (Hsk : skipn (length rn + 1) T = backslash :: n).
    { replace T with ((rn ++ [backslash]) ++ backslash :: n) by (unfold T, rn; rewrite <- !app_assoc; reflexivity). apply skipn_exact. rewrite app_length. cbn. lia. }
    rewrite Hsk. assert (Hwt : win_text no_wsep (backslash :: n) = backslash :: n).
    { unfold win_text. assert (Hb : split_root no_wsep (backslash :: n) = ([], backslash :: n)).
      { pose proof (sep_root [n] [] (Forall_cons n Hn (Forall_nil _))) as X. cbn [wjoin] in X. rewrite !app_nil_r in X. apply X. apply wname_starts. exact Hn. }
      rewrite (win_elements_parts _ _ _ Hb). replace (wnames (backslash :: n)) with [n]; [reflexivity|].
      change (backslash :: n) with ([] ++ backslash :: n). rewrite wnames_app by reflexivity. destruct Hn. rewrite (wnames_plain n) by assumption. reflexivity. }
    rewrite fin_native; rewrite win_native, Hwt; auto.
  - cbn [pathname]. rewrite win_native, win_elems. unfold win_text. rewrite HeT. split; [reflexivity|]. split; [reflexivity|].
    destruct (win_parts E T _ _ HrT) as (_ & _ & r & Hr1 & Hr2). exists r. split; [exact Hr1|]. rewrite Hr2.
    cbn [drop_wseps]. change (is_wsep backslash) with true. cbn iota. pose proof (wname_starts n Hn) as Hst. destruct n as [|x y]; [reflexivity|]. cbn in Hst. cbn. rewrite Hst. reflexivity.
Qed.

(** A name that ends in a colon loses the separator after it: the parent's text names another file. *)
Theorem C75_colon_parent_refuted : forall E n m k, wname n -> last n backslash = colon -> wname m -> wname k ->
  exists q, parent_path Windows E (split_components Windows (backslash :: n ++ backslash :: m ++ backslash :: k)) = Ok q /\
    native q = backslash :: n ++ m.
Proof.
  intros E n m k Hn Hnc Hm Hk. set (s := backslash :: n ++ backslash :: m ++ backslash :: k).
  assert (Hr : split_root no_wsep s = ([], s)).
  { pose proof (sep_root [n; m; k] []) as H. cbn [wjoin] in H. rewrite !app_nil_r in H. apply H; [constructor; [exact Hn|constructor; [exact Hm|constructor; [exact Hk|constructor]]]|].
    pose proof (wname_starts n Hn) as X. destruct Hn as [Hn _]. destruct n; [congruence|]. exact X. }
  assert (Hns : wnames s = [n; m; k]).
  { unfold s. change (backslash :: n ++ backslash :: m ++ backslash :: k) with ([] ++ backslash :: n ++ backslash :: m ++ backslash :: k). rewrite !wnames_app by reflexivity.
    destruct Hn, Hm, Hk. rewrite (wnames_plain n), (wnames_plain m), (wnames_plain k) by assumption. reflexivity. }
  assert (Hs : s <> []) by discriminate.
  destruct (wsplit s [] s Hs Hr) as [_ Hsp].
  destruct (drop_end_split s [] s Hs Hr) as (l & Hd & Hl & c & Hc & _); [rewrite Hns; discriminate|].
  rewrite Hns in Hl. cbn [removelast] in Hl.
  unfold parent_path. rewrite (has_relative_split E s [] s Hr), Hns. cbn [bind is_nil negb]. rewrite Hsp.
  rewrite trim_other by (rewrite Hc; unfold root_comps; replace (wstarts s) with true by reflexivity; cbn [is_nil app length]; rewrite !app_length; cbn [length]; lia).
  cbn [ptyp comps]. rewrite Hd. cbn [bind]. eexists. split; [reflexivity|].
  assert (Ht : rebuild Windows (root_comps [] s ++ l) [] = backslash :: n ++ m).
  { unfold root_comps. replace (wstarts s) with true by reflexivity. cbn [is_nil app].
    destruct l as [|x [|y [|z l]]]; cbn [map] in Hl; try discriminate. injection Hl as Hx Hy.
    rewrite rebuild_cons by discriminate. cbn [app c_str]. change [backslash] with ([] ++ [backslash]). rewrite sep_after_sep.
    rewrite rebuild_cons by discriminate. rewrite Hx. cbn [rebuild]. rewrite Hy.
    unfold append_sep_if_needed. destruct Hn as [Hn _]. destruct n as [|e u _] using rev_ind; [congruence|]. rewrite last_last in Hnc. subst e.
    rewrite app_assoc, last_map_some. cbn [Ascii.eqb]. change (Ascii.eqb colon colon) with true. cbn [orb]. reflexivity. }
  rewrite Ht. unfold fin. destruct (el_parent E); [reflexivity|]. cbn [pathname]. rewrite win_native. unfold win_text.
  assert (Hnm : wname (n ++ m)).
  { destruct Hn as [Hn Hnp], Hm as [Hm Hmp]. split; [destruct n; [congruence|discriminate]|]. unfold wplain in *. rewrite forallb_app, Hnp, Hmp. reflexivity. }
  assert (HrT : split_root no_wsep (backslash :: n ++ m) = ([], backslash :: n ++ m)).
  { pose proof (sep_root [n ++ m] [] (Forall_cons _ Hnm (Forall_nil _))) as X. cbn [wjoin] in X. rewrite app_nil_r in X. apply X. apply wname_starts. exact Hnm. }
  rewrite (win_elements_parts _ _ _ HrT). replace (wnames (backslash :: n ++ m)) with [n ++ m]; [reflexivity|].
  change (backslash :: n ++ m) with ([] ++ backslash :: (n ++ m)). rewrite wnames_app by reflexivity. destruct Hnm. rewrite (wnames_plain (n ++ m)) by assumption. reflexivity.
Qed.

(** ** C75: the filename *)

(** The last name, unless a separator follows it. *)
Theorem C75_filename : forall s, exists q, filename Windows (split_components Windows s) = Ok q /\
  let rest := snd (split_root no_wsep s) in
  native q = if wends rest then [] else last (wnames rest) [].
Proof.
  intros s. destruct s as [|a0 s0]; [exists path_default; split; reflexivity|]. remember (a0 :: s0) as s eqn:Es. assert (Hs : s <> []) by (subst; discriminate). clear a0 s0 Es.
  destruct (split_root no_wsep s) as [rn rest] eqn:Hr. cbn [snd]. cbv zeta.
  pose proof (wsplit s rn rest Hs Hr) as [Hcat Hsp].
  destruct (wtok_last rest (length rn) [] eq_refl) as [Hnil|(l & c & Hl & Hc & Hcs)].
  - assert (Hn : wnames rest = []) by (apply (f_equal (map c_str)) in Hnil; rewrite wtok_names in Hnil by reflexivity; exact Hnil).
    pose proof (filename_split s rn rest Hs Hr) as Hf. unfold has_filename in Hf. destruct (filename Windows (split_components Windows s)) as [q| | |] eqn:Ef; try discriminate.
    exists q. split; [reflexivity|]. rewrite Hn in *. cbn in Hf. injection Hf as Hf. unfold empty in Hf. unfold native.
    destruct (pathname q); [|discriminate]. destruct (wends rest); reflexivity.
  - assert (Hn : wnames rest = map c_str l ++ [c_str c]) by (apply (f_equal (map c_str)) in Hl; rewrite wtok_names in Hl by reflexivity; cbn [app] in Hl; rewrite Hl, map_app; reflexivity).
    assert (Hnn : is_nil (wnames rest) = false) by (rewrite Hn; destruct (map c_str l); reflexivity).
    pose proof (filename_split s rn rest Hs Hr) as Hf. unfold has_filename in Hf. rewrite Hnn in Hf. cbn [negb andb] in Hf.
    destruct (wends rest) eqn:Ew.
    + destruct (filename Windows (split_components Windows s)) as [q| | |] eqn:Ef; try discriminate.
      exists q. split; [reflexivity|]. cbn in Hf. injection Hf as Hf. unfold empty in Hf. unfold native. destruct (pathname q); [reflexivity|discriminate].
    + rewrite Hn, last_last. rewrite Hsp. unfold trail. rewrite Ew, Hl. cbn [andb]. rewrite app_nil_r, app_assoc.
      destruct (root_comps rn rest ++ l) as [|x y] eqn:E0.
      * cbn [app]. rewrite trim_single. unfold filename, empty. cbn [pathname ptyp]. rewrite Hc.
        destruct (c_str c) eqn:Ec; [congruence|]. cbn [is_nil]. eexists. split; [reflexivity|]. reflexivity.
      * rewrite trim_other by (rewrite app_length; cbn; lia). unfold filename, empty. cbn [pathname ptyp comps].
        destruct (is_nil s) eqn:Ens; [destruct s; [congruence|discriminate]|].
        assert (Hends : wends s = false).
        { rewrite Hcat. rewrite wends_app; [exact Ew|]. intros ->. cbn in Hl. destruct l; discriminate. }
        destruct (match last (map Some s) None with Some c => Ascii.eqb c (preferred_separator Windows) | None => false end) eqn:Eb.
        { exfalso. apply last_bs_ends in Eb. congruence. }
        rewrite last_map_some, Hc. cbn [ptype_eqb]. eexists. split; reflexivity.
Qed.

(** ** The text of given parts *)

Definition ctext (rn : str) (rooted : bool) (ns : list str) (trailing : bool) : str :=
  rn ++ (if rooted then [backslash] else []) ++ wjoin ns ++ (if trailing && negb (is_nil ns) then [backslash] else []).

(** Parts that a text can have: below a host there is a root directory, and a first name is not
    read as a drive. *)
Definition ctext_ok (rn : str) (rooted : bool) (ns : list str) : Prop :=
  root_text rn /\ Forall wname ns /\
  (rn = [] -> rooted = false -> forall n, hd_error ns = Some n -> no_drive n) /\
  (host_root rn = true -> rooted = true \/ ns = []).

Lemma wjoin_tail_starts : forall ns (b : bool), Forall wname ns -> wstarts (wjoin ns ++ (if b && negb (is_nil ns) then [backslash] else [])) = false.
Proof.
  intros ns b H. destruct ns as [|n r]; [rewrite andb_false_r; reflexivity|]. pose proof (wjoin_starts _ H) as Hs.
  destruct (wjoin (n :: r)) eqn:E; [apply wjoin_nil in E; [discriminate|exact H]|]. exact Hs.
Qed.

Lemma ctext_root : forall rn d ns tr, ctext_ok rn d ns -> exists rest, split_root no_wsep (ctext rn d ns tr) = (rn, rest) /\
  rest = (if d then [backslash] else []) ++ wjoin ns ++ (if tr && negb (is_nil ns) then [backslash] else []) /\
  wstarts rest = d /\ wnames rest = ns /\ (ns <> [] -> wends rest = tr).
Proof.
  intros rn d ns tr (Hrt & Hn & Hd & Hh). eexists. split; [|split; [reflexivity|]].
  - unfold ctext. apply split_root_text; [exact Hrt| |].
    + intros ->. destruct d; cbn [app].
      * apply sep_root; [exact Hn|]. apply wjoin_tail_starts. exact Hn.
      * apply wjoin_root; [exact Hn|auto|]. destruct tr; cbn [andb]; [|auto]. destruct ns; cbn; [auto|]. right. split; [reflexivity|discriminate].
    + intros H. destruct (Hh H) as [->| ->]; [auto|]. cbn [wjoin is_nil negb]. rewrite andb_false_r. destruct d; [auto|left; reflexivity].
  - assert (Hns : wnames (wjoin ns ++ (if tr && negb (is_nil ns) then [backslash] else [])) = ns).
    { destruct (tr && negb (is_nil ns)); [rewrite wnames_app by reflexivity; cbn|]; rewrite ?app_nil_r; apply wjoin_names; exact Hn. }
    split; [|split].
    + destruct d; [reflexivity|]. apply wjoin_tail_starts. exact Hn.
    + destruct d; [|exact Hns]. cbn [app]. match goal with |- wnames (backslash :: ?x) = _ => change (backslash :: x) with ([] ++ backslash :: x) end.
      rewrite wnames_app by reflexivity. exact Hns.
    + intros Hne. assert (Hj : wjoin ns <> []) by (intros E; apply wjoin_nil in E; [congruence|exact Hn]).
      replace (negb (is_nil ns)) with true by (destruct ns; [congruence|reflexivity]). rewrite andb_true_r.
      destruct tr.
      * rewrite app_assoc. rewrite wends_app by discriminate. reflexivity.
      * rewrite app_nil_r, wends_app by exact Hj. apply wjoin_ends. exact Hn.
Qed.

Lemma ctext_elements : forall rn d ns tr, ctext_ok rn d ns -> win_elements no_wsep (ctext rn d ns tr) = parts_elements rn d ns tr.
Proof.
  intros rn d ns tr H. destruct (ctext_root rn d ns tr H) as (rest & Hr & _ & Hs & Hn & He). rewrite (win_elements_parts _ _ _ Hr), Hs, Hn.
  rewrite root_text_preferred by apply H. apply parts_elements_ended. exact He.
Qed.

(** ** Cases that meet the hypotheses *)

Local Notation W := (split_components Windows).

Example C75_append_example : exists q, path_append Windows (Elision true true true) true (W (lit "c:\dir")) (W (lit "sub/file")) = Ok q /\
  native q = lit "c:\dir\sub/file" /\ appended (lit "c:\dir") (lit "sub/file") = [lit "c:"; lit "\"; lit "dir"; lit "sub"; lit "file"] /\
  appended (lit "c:\dir") (lit "d:x") = [lit "d:"; lit "x"] /\ appended (lit "c:dir") (lit "/x/") = [lit "c:"; lit "\"; lit "x"; []] /\
  appended (lit "\\host") (lit "x") = [lit "\\host"; lit "\"; lit "x"].
Proof. eexists. split; [vm_compute; reflexivity|]. vm_compute. auto. Qed.

Example C75_parent_example : forall E,
  Forall no_colon_end (wnames (snd (split_root no_wsep (lit "c:/a//b\c/")))) /\
  host_root (fst (split_root no_wsep (lit "c:/a//b\c/"))) = false /\
  parent_elems (lit "c:/a//b\c/") = [lit "c:"; lit "\"; lit "a"; lit "b"] /\
  exists q, parent_path Windows E (W (lit "c:/a//b\c/")) = Ok q /\ native q = lit "c:\a\b".
Proof.
  intros E. split; [vm_compute; repeat constructor; discriminate|]. split; [reflexivity|]. split; [reflexivity|].
  destruct (C75_parent_text_partial E (lit "c:/a//b\c/") (lit "c:") (lit "/a//b\c/") eq_refl) as (q & H & Hn).
  - discriminate.
  - vm_compute; repeat constructor; discriminate.
  - reflexivity.
  - exists q. split; [exact H|]. rewrite Hn. reflexivity.
Qed.

Example C75_refuted_example :
  wplain (lit "host") /\ no_colon_end (lit "host") /\ wname (lit "share") /\ no_colon_end (lit "share") /\ wname (lit "file") /\
  wname (lit "disk:") /\ last (lit "disk:") backslash = colon.
Proof. repeat split; try reflexivity; discriminate. Qed.

Example C75_filename_example : exists q, filename Windows (W (lit "c:\dir/file.txt")) = Ok q /\ native q = lit "file.txt".
Proof. eexists. split; vm_compute; reflexivity. Qed.

Print Assumptions C75_append.
Print Assumptions C75_operator_slash.
Print Assumptions C75_parent_partial.
Print Assumptions C75_parent_text_partial.
Print Assumptions C75_host_parent_refuted.
Print Assumptions C75_colon_parent_refuted.
Print Assumptions C75_filename.
