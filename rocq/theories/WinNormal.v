(** lexically_normal on Windows, step by step (fs_path.cpp:702-790, Windows branch of the model in PathModel.v). *)
From Coq Require Import Ascii String Bool Arith NArith ZArith Lia List.
From Verif Require Import Str PathModel PathSpec StrProofs PathProofs PathOps PathOps2 PathNormal WinPathProps WinPlace WinAppend WinGeneric.
Import ListNotations.

(** ** Components of a text with given parts *)

Fixpoint ntok (off : nat) (ns : list str) : list comp :=
  match ns with [] => [] | n :: r => Comp n FILENAME off :: ntok (off + length n + 1) r end.

Definition base (rn : str) (d : bool) : nat := length rn + (if d then 1 else 0).

Definition rootcs (rn : str) (d : bool) : list comp :=
  (if is_nil rn then [] else [Comp rn ROOT_NAME 0]) ++ (if d then [Comp [backslash] ROOT_DIR (length rn)] else []).

Definition nfc (rn : str) (d : bool) (ns : list str) (tr : bool) (k : nat) : list comp :=
  rootcs rn d ++ ntok (base rn d) ns ++ (if tr && negb (is_nil ns) then [Comp [] FILENAME k] else []).

Lemma wtok_join : forall ns off (b : bool), Forall wname ns ->
  wtok off [] (wjoin ns ++ (if b && negb (is_nil ns) then [backslash] else [])) = ntok off ns.
Proof.
  induction ns as [|n [|m r] IH]; intros off b H.
  - rewrite andb_false_r. reflexivity.
  - inversion H as [|? ? [Hn Hp] _]; subst. cbn [wjoin is_nil negb ntok]. rewrite andb_true_r. destruct b.
    + rewrite wtok_word by (exact Hp || reflexivity). cbn [app wtok]. unfold wflush. destruct n; [congruence|]. cbn [is_nil app]. reflexivity.
    + rewrite app_nil_r, wtok_plain by exact Hp. cbn [app]. unfold wflush. destruct n; [congruence|reflexivity].
  - inversion H as [|? ? [Hn Hp] Hr]; subst. change (wjoin (n :: m :: r)) with (n ++ backslash :: wjoin (m :: r)).
    rewrite <- app_assoc. cbn [app]. rewrite wtok_word by (exact Hp || reflexivity). cbn [app].
    change (is_nil (n :: m :: r)) with (is_nil (m :: r)). rewrite IH by exact Hr. unfold wflush. destruct n; [congruence|]. reflexivity.
Qed.

Lemma nfc_comps : forall rn d ns tr k, ctext_ok rn d ns ->
  forall rest, rest = (if d then [backslash] else []) ++ wjoin ns ++ (if tr && negb (is_nil ns) then [backslash] else []) ->
  wstarts rest = d -> wnames rest = ns -> (ns <> [] -> wends rest = tr) ->
  root_comps rn rest ++ wtok (length rn) [] rest ++ trail rest k = nfc rn d ns tr k.
Proof.
  intros rn d ns tr k (Hrt & Hn & _) rest Hrest Hs Hns He. unfold nfc, root_comps, rootcs, trail. rewrite Hs, Hns, root_text_preferred by exact Hrt.
  f_equal. f_equal.
  - rewrite Hrest. unfold base. destruct d; cbn [app].
    + cbn [wtok]. change (is_wsep backslash) with true. cbn iota. cbn [wflush is_nil app length]. rewrite Nat.add_0_r. apply wtok_join. exact Hn.
    + rewrite Nat.add_0_r. apply wtok_join. exact Hn.
  - destruct ns as [|n r]; [rewrite !andb_false_r; reflexivity|]. rewrite He by discriminate. reflexivity.
Qed.

Lemma split_ctext : forall rn d ns tr, ctext_ok rn d ns -> ctext rn d ns tr <> [] ->
  split_components Windows (ctext rn d ns tr) = trim (Path (ctext rn d ns tr) (nfc rn d ns tr (length (ctext rn d ns tr))) MULTI).
Proof.
  intros rn d ns tr H Hne. destruct (ctext_root rn d ns tr H) as (rest & Hr & Hrest & Hs & Hn & He).
  destruct (wsplit _ _ _ Hne Hr) as [_ ->]. rewrite (nfc_comps rn d ns tr _ H rest Hrest Hs Hn He). reflexivity.
Qed.

Lemma ctext_nil : forall rn d ns tr, Forall wname ns -> ctext rn d ns tr = [] <-> rn = [] /\ d = false /\ ns = [].
Proof.
  intros rn d ns tr Hn. unfold ctext. split.
  - intros H. apply app_eq_nil in H. destruct H as [-> H]. apply app_eq_nil in H. destruct H as [H1 H]. apply app_eq_nil in H. destruct H as [H _].
    apply wjoin_nil in H; [|exact Hn]. destruct d; [discriminate|auto].
  - intros (-> & -> & ->). rewrite andb_false_r. reflexivity.
Qed.

Lemma ctext_native : forall rn d ns tr, ctext_ok rn d ns -> native (split_components Windows (ctext rn d ns tr)) = ctext rn d ns tr.
Proof.
  intros rn d ns tr H. rewrite win_native. unfold win_text. rewrite ctext_elements by exact H.
  unfold parts_elements, ctext. destruct H as (_ & Hn & _ & _). destruct rn as [|a rn]; cbn [is_nil app].
  - destruct d; cbn [app].
    + destruct ns as [|n [|m r]]; cbn [is_nil negb]; rewrite ?andb_false_r; try reflexivity.
    + destruct ns as [|n [|m r]]; cbn [is_nil negb]; rewrite ?andb_false_r, ?andb_true_r; try reflexivity.
      destruct tr; cbn [app wjoin]; [reflexivity|]. rewrite app_nil_r. reflexivity.
  - destruct d; cbn [app].
    + destruct ns as [|n [|m r]]; cbn [is_nil negb]; rewrite ?andb_false_r; try reflexivity.
    + destruct ns as [|n [|m r]]; cbn [is_nil negb]; rewrite ?andb_false_r; cbn [app wjoin]; rewrite ?app_nil_r; try reflexivity.
Qed.

Lemma rootcs_types : forall rn d c, In c (rootcs rn d) -> c_type c = ROOT_NAME \/ c_type c = ROOT_DIR.
Proof.
  intros rn d c H. unfold rootcs in H. apply in_app_or in H. destruct (is_nil rn), d, H as [H|H]; cbn in H; try tauto; destruct H as [<-|[]]; auto.
Qed.

Lemma ntok_types : forall ns off, Forall (fun c => c_type c = FILENAME) (ntok off ns).
Proof. induction ns as [|n r IH]; intros off; cbn; constructor; auto. Qed.

Lemma ntok_strs : forall ns off, map c_str (ntok off ns) = ns.
Proof. induction ns as [|n r IH]; intros off; cbn; [reflexivity|]. rewrite IH. reflexivity. Qed.

Lemma ntok_snoc : forall ns x off, exists p, ntok off (ns ++ [x]) = ntok off ns ++ [Comp x FILENAME p] /\
  (Forall wname ns -> p = off + length (wjoin ns) + (if is_nil ns then 0 else 1)).
Proof.
  induction ns as [|n r IH]; intros x off.
  - exists off. split; [reflexivity|]. intros _. cbn. lia.
  - destruct (IH x (off + length n + 1)) as (p & Hp & Hq). exists p. split; [cbn; rewrite Hp; reflexivity|].
    intros H. inversion H; subst. rewrite (Hq H3). destruct r as [|m r]; cbn [wjoin is_nil length]; [lia|].
    rewrite app_length. cbn [length]. lia.
Qed.

(** ** Observers of the untrimmed form *)

Section Observers.
Variable E : elision.

Lemma multi_has_root_name : forall t rn d fs, Forall (fun c => c_type c = FILENAME) fs ->
  has_root_name (Path t (rootcs rn d ++ fs) MULTI) = negb (is_nil rn).
Proof.
  intros t rn d fs H. unfold has_root_name, rootcs. cbn [ptyp comps ptype_eqb orb]. destruct rn as [|a rn]; cbn [is_nil app negb]; [|reflexivity].
  destruct d; cbn [app]; [reflexivity|]. destruct fs as [|c fs]; [reflexivity|]. inversion H as [|? ? Hc _]; subst. rewrite Hc. reflexivity.
Qed.

Lemma noroot_root_name : forall p, has_root_name p = false -> root_name Windows E p = fin Windows (el_other E) path_default.
Proof.
  intros p H. unfold has_root_name in H. apply orb_false_iff in H. destruct H as [H1 H2]. unfold root_name. rewrite H1. f_equal.
  destruct (comps p); [reflexivity|]. rewrite H2. reflexivity.
Qed.

Lemma fin_root : forall rn, root_text rn -> rn <> [] -> fin Windows (el_other E) (Path rn [] ROOT_NAME) = Path rn [] ROOT_NAME.
Proof.
  intros rn Hr Hn. unfold fin. destruct (el_other E); [reflexivity|]. cbn [pathname].
  assert (Hok : ctext_ok rn false []) by (split; [exact Hr|]; split; [constructor|]; split; [discriminate|auto]).
  pose proof (split_ctext rn false [] false Hok) as H. unfold ctext, nfc, rootcs in H. cbn [app wjoin andb] in H. rewrite !app_nil_r in H. rewrite H by exact Hn.
  destruct rn; [congruence|]. reflexivity.
Qed.

Lemma multi_root_name : forall t rn d fs, root_text rn -> rn <> [] ->
  root_name Windows E (Path t (rootcs rn d ++ fs) MULTI) = Path rn [] ROOT_NAME.
Proof.
  intros t rn d fs Hr Hn. unfold root_name, rootcs. cbn [ptyp comps ptype_eqb]. pose proof (fin_root rn Hr Hn) as Hf.
  destruct rn as [|a rn]; [congruence|]. cbn [is_nil app c_type ptype_eqb comp_path c_str]. exact Hf.
Qed.

Lemma skip_root : forall rn d fs, Forall (fun c => c_type c = FILENAME) fs ->
  skip_root_name (rootcs rn d ++ fs) = (if d then [Comp [backslash] ROOT_DIR (length rn)] else []) ++ fs.
Proof.
  intros rn d fs H. unfold rootcs. destruct rn as [|a rn]; cbn [is_nil app].
  - destruct d; cbn [app]; [reflexivity|]. destruct fs as [|c fs]; [reflexivity|]. inversion H as [|? ? Hc _]; subst. cbn. rewrite Hc. reflexivity.
  - reflexivity.
Qed.

Lemma multi_has_root_directory : forall t rn d fs, Forall (fun c => c_type c = FILENAME) fs ->
  has_root_directory Windows E (Path t (rootcs rn d ++ fs) MULTI) = d.
Proof.
  intros t rn d fs H. unfold has_root_directory, root_directory. cbn [ptyp comps]. rewrite skip_root by exact H.
  destruct d; cbn [app].
  - cbn. unfold fin. destruct (el_other E); reflexivity.
  - destruct fs as [|c fs].
    + cbn. unfold fin. destruct (el_other E); reflexivity.
    + inversion H as [|? ? Hc _]; subst. rewrite Hc. cbn. unfold fin. destruct (el_other E); reflexivity.
Qed.

Lemma multi_is_absolute : forall t rn d fs, root_text rn -> Forall (fun c => c_type c = FILENAME) fs ->
  is_absolute Windows E (Path t (rootcs rn d ++ fs) MULTI) = host_root rn || d.
Proof.
  intros t rn d fs Hr H. unfold is_absolute. rewrite multi_has_root_name, multi_has_root_directory by exact H.
  destruct rn as [|a rn]; [reflexivity|]. cbn [is_nil negb andb]. rewrite (multi_root_name t (a :: rn) d fs Hr) by discriminate. reflexivity.
Qed.

Lemma last_char : forall t c, t <> [] -> wends t = true -> last t c = backslash \/ last t c = slash.
Proof.
  intros t c Hn He. destruct (wends_snoc t He) as (u & x & -> & Hx). rewrite last_last. destruct (wsep_cases x Hx); auto.
Qed.

(** The filename test on a loose form. *)
Lemma multi_has_filename : forall rn d ns tr k, ctext_ok rn d ns -> ctext rn d ns tr <> [] -> ns = [] \/ tr = true ->
  has_filename Windows (Path (ctext rn d ns tr) (nfc rn d ns tr k) MULTI) = Ok false.
Proof.
  intros rn d ns tr k Hok Hne Hl. unfold has_filename, filename, empty. cbn [pathname ptyp comps].
  destruct (is_nil (ctext rn d ns tr)) eqn:En; [reflexivity|].
  destruct (match last (map Some (ctext rn d ns tr)) None with Some c => Ascii.eqb c (preferred_separator Windows) | None => false end) eqn:Eb; [reflexivity|].
  destruct ns as [|n r].
  - unfold nfc. cbn [ntok is_nil negb]. rewrite andb_false_r, !app_nil_r.
    assert (Hrc : rootcs rn d <> []).
    { intros H. apply Hne. apply ctext_nil; [constructor|]. unfold rootcs in H. apply app_eq_nil in H. destruct H as [H1 H2]. destruct rn; [|discriminate]. destruct d; [discriminate|auto]. }
    destruct (exists_last Hrc) as (l & c & Hc). rewrite Hc, last_map_some.
    assert (Hin : In c (rootcs rn d)) by (rewrite Hc; apply in_or_app; right; left; reflexivity).
    destruct (rootcs_types _ _ _ Hin) as [-> | ->]; reflexivity.
  - destruct Hl as [Hl| ->]; [discriminate|]. exfalso. unfold ctext in Eb. cbn [is_nil negb andb] in Eb. rewrite !app_assoc, last_map_some in Eb. discriminate.
Qed.

Lemma multi_has_relative : forall rn d ns tr k, ctext_ok rn d ns -> ctext rn d ns tr <> [] ->
  has_relative_path Windows E (Path (ctext rn d ns tr) (nfc rn d ns tr k) MULTI) = Ok (negb (is_nil ns)).
Proof.
  intros rn d ns tr k Hok Hne. unfold has_relative_path, relative_path. cbn [ptyp comps]. unfold nfc.
  assert (Hft : Forall (fun c => c_type c = FILENAME) (ntok (base rn d) ns ++ (if tr && negb (is_nil ns) then [Comp [] FILENAME k] else []))).
  { apply Forall_app. split; [apply ntok_types|]. destruct (_ && _); repeat constructor. }
  rewrite skip_root by exact Hft. destruct ns as [|n r].
  - cbn [ntok is_nil negb]. rewrite andb_false_r. cbn [app]. rewrite app_nil_r. destruct d; cbn; unfold fin; destruct (el_other E); reflexivity.
  - cbn [ntok app is_nil negb]. rewrite andb_true_r.
    assert (Hsk : skip_root_dir ((if d then [Comp [backslash] ROOT_DIR (length rn)] else []) ++ Comp n FILENAME (base rn d) :: ntok (base rn d + length n + 1) r ++ (if tr then [Comp [] FILENAME k] else []))
      = Comp n FILENAME (base rn d) :: ntok (base rn d + length n + 1) r ++ (if tr then [Comp [] FILENAME k] else [])) by (destruct d; reflexivity).
    rewrite Hsk. cbn [c_pos pathname].
    set (X := wjoin (n :: r) ++ (if tr && negb (is_nil (n :: r)) then [backslash] else [])).
    assert (Hc : ctext rn d (n :: r) tr = (rn ++ (if d then [backslash] else [])) ++ X) by (unfold ctext, X; rewrite <- app_assoc; reflexivity).
    assert (Hlen : length (rn ++ (if d then [backslash] else [])) = base rn d) by (rewrite app_length; unfold base; destruct d; reflexivity).
    unfold str_substr_from. rewrite Hc, app_length, Hlen, (proj2 (Nat.leb_le _ _)) by lia. cbn [bind].
    rewrite skipn_exact by (symmetry; exact Hlen). unfold empty. f_equal. f_equal. change (pathname ?p) with (native p).
    destruct Hok as (_ & Hn & _).
    assert (Hst : wstarts X = false) by (apply wjoin_tail_starts; exact Hn).
    rewrite fin_native by (rewrite win_native, !(win_text_unrooted X Hst); reflexivity). rewrite win_native, (win_text_unrooted X Hst).
    unfold X. destruct (wjoin (n :: r)) eqn:Ej; [apply wjoin_nil in Ej; [discriminate|exact Hn]|reflexivity].
Qed.

(** ** States of the loop *)

(** The values the loop holds for a text: the path of that text, or one whose element vector was cut in place. *)
Definition Rep (rn : str) (d : bool) (ns : list str) (tr : bool) (ret : path) : Prop :=
  ret = split_components Windows (ctext rn d ns tr) \/
  (ctext rn d ns tr = [] /\ ret = path_default) \/
  (ctext rn d ns tr <> [] /\ (ns = [] \/ tr = true) /\ exists k, ret = Path (ctext rn d ns tr) (nfc rn d ns tr k) MULTI).

Lemma Rep_pathname : forall rn d ns tr ret, ctext_ok rn d ns -> Rep rn d ns tr ret -> pathname ret = ctext rn d ns tr.
Proof. intros rn d ns tr ret Hok [->|[[-> ->]|(_ & _ & k & ->)]]; [|reflexivity|reflexivity]. apply ctext_native. exact Hok. Qed.

Lemma tail_types : forall ns off (b : bool) k, Forall (fun c => c_type c = FILENAME) (ntok off ns ++ (if b then [Comp [] FILENAME k] else [])).
Proof. intros. apply Forall_app. split; [apply ntok_types|]. destruct b; repeat constructor. Qed.

Lemma nil_parts : forall rn d ns tr, ctext_ok rn d ns -> ctext rn d ns tr = [] -> rn = [] /\ d = false /\ ns = [].
Proof. intros rn d ns tr (_ & H & _) Hn. apply (ctext_nil rn d ns tr H). exact Hn. Qed.

Lemma Rep_has_root_directory : forall rn d ns tr ret, ctext_ok rn d ns -> Rep rn d ns tr ret -> has_root_directory Windows E ret = d.
Proof.
  intros rn d ns tr ret Hok [->|[[Hn ->]|(_ & _ & k & ->)]].
  - destruct (ctext_root rn d ns tr Hok) as (rest & Hr & _ & Hs & _). rewrite (has_root_directory_split E _ _ _ Hr). exact Hs.
  - destruct (nil_parts _ _ _ _ Hok Hn) as (-> & -> & ->). unfold has_root_directory, root_directory. cbn. unfold fin. destruct (el_other E); reflexivity.
  - apply multi_has_root_directory. apply tail_types.
Qed.

Lemma Rep_is_absolute : forall rn d ns tr ret, ctext_ok rn d ns -> Rep rn d ns tr ret -> is_absolute Windows E ret = host_root rn || d.
Proof.
  intros rn d ns tr ret Hok [->|[[Hn ->]|(_ & _ & k & ->)]].
  - destruct (ctext_root rn d ns tr Hok) as (rest & Hr & _ & Hs & _). rewrite (is_absolute_split E _ _ _ Hr), Hs. reflexivity.
  - destruct (nil_parts _ _ _ _ Hok Hn) as (-> & -> & ->). unfold is_absolute, has_root_directory, root_directory. cbn. unfold fin. destruct (el_other E); reflexivity.
  - apply multi_is_absolute; [apply Hok|apply tail_types].
Qed.

Lemma Rep_has_filename : forall rn d ns tr ret, ctext_ok rn d ns -> Rep rn d ns tr ret -> has_filename Windows ret = Ok (negb (is_nil ns) && negb tr).
Proof.
  intros rn d ns tr ret Hok [->|[[Hn ->]|(Hn & Hl & k & ->)]].
  - destruct (ctext_root rn d ns tr Hok) as (rest & Hr & _ & Hs & Hns & He).
    destruct (is_nil (ctext rn d ns tr)) eqn:Hz.
    + assert (Hz' : ctext rn d ns tr = []) by (destruct (ctext rn d ns tr); [reflexivity|discriminate]).
      destruct (nil_parts _ _ _ _ Hok Hz') as (-> & -> & ->). rewrite Hz'. reflexivity.
    + rewrite (filename_split _ _ _ ltac:(intros X; rewrite X in Hz; discriminate) Hr), Hns. destruct ns; [reflexivity|]. rewrite He by discriminate. reflexivity.
  - destruct (nil_parts _ _ _ _ Hok Hn) as (-> & -> & ->). reflexivity.
  - rewrite multi_has_filename by assumption. destruct Hl as [-> | ->]; [reflexivity|]. rewrite andb_false_r. reflexivity.
Qed.

Lemma Rep_has_relative : forall rn d ns tr ret, ctext_ok rn d ns -> Rep rn d ns tr ret -> has_relative_path Windows E ret = Ok (negb (is_nil ns)).
Proof.
  intros rn d ns tr ret Hok [->|[[Hn ->]|(Hn & Hl & k & ->)]].
  - destruct (ctext_root rn d ns tr Hok) as (rest & Hr & _ & Hs & Hns & He). rewrite (has_relative_split E _ _ _ Hr), Hns. reflexivity.
  - destruct (nil_parts _ _ _ _ Hok Hn) as (-> & -> & ->). unfold has_relative_path, relative_path. cbn. unfold fin. destruct (el_other E); reflexivity.
  - apply multi_has_relative; assumption.
Qed.

(** ** Texts of states *)

Lemma wjoin_snoc : forall ns n, ns <> [] -> wjoin (ns ++ [n]) = wjoin ns ++ backslash :: n.
Proof.
  induction ns as [|m [|k r] IH]; intros n H; [congruence|reflexivity|].
  change ((m :: k :: r) ++ [n]) with (m :: (k :: r) ++ [n]). rewrite (wjoin_cons m ((k :: r) ++ [n])) by discriminate. rewrite IH by discriminate.
  rewrite (wjoin_cons m (k :: r)) by discriminate. rewrite <- app_assoc. reflexivity.
Qed.

Lemma ctext_ended : forall rn d ns tr, ctext rn d ns tr ++ (if negb (is_nil ns) && negb tr then [backslash] else []) = ctext rn d ns true.
Proof.
  intros rn d ns tr. unfold ctext. destruct ns as [|n r]; cbn [is_nil negb andb]; [rewrite !andb_false_r, !app_nil_r; reflexivity|].
  rewrite andb_true_r. destruct tr; cbn [negb]; rewrite ?app_nil_r; [reflexivity|]. rewrite <- !app_assoc. reflexivity.
Qed.

Lemma ctext_snoc : forall rn d ns n, ctext rn d ns true ++ n = ctext rn d (ns ++ [n]) false.
Proof.
  intros rn d ns n. unfold ctext. cbn [andb]. rewrite app_nil_r. destruct ns as [|m r].
  - cbn [is_nil negb andb wjoin app]. rewrite !app_nil_r, app_assoc. reflexivity.
  - rewrite wjoin_snoc by discriminate. cbn [is_nil negb andb]. rewrite <- !app_assoc. reflexivity.
Qed.

Lemma ctext_tr_nil : forall rn d tr, ctext rn d [] tr = ctext rn d [] true.
Proof. intros. unfold ctext. cbn [is_nil negb]. rewrite !andb_false_r. reflexivity. Qed.

Lemma Rep_tr_nil : forall rn d tr tr' ret, Rep rn d [] tr ret -> Rep rn d [] tr' ret.
Proof.
  intros rn d tr tr' ret H. unfold Rep, nfc in *. cbn [is_nil negb] in *. rewrite !andb_false_r in *. rewrite (ctext_tr_nil rn d tr) in H. rewrite (ctext_tr_nil rn d tr').
  destruct H as [H|[H|(H1 & _ & H)]]; auto. right. right. auto.
Qed.

(** Appending a name or nothing. *)
Lemma Rep_append : forall rn d ns tr ret q, ctext_ok rn d ns -> (host_root rn = true -> d = true) -> Rep rn d ns tr ret ->
  q = path_default \/ (exists n, q = Path n [] FILENAME) ->
  path_append Windows E true ret q = Ok (split_components Windows (ctext rn d ns true ++ pathname q)).
Proof.
  intros rn d ns tr ret q Hok Hh HR Hq.
  assert (Hq1 : has_root_name q = false) by (destruct Hq as [->|[n ->]]; reflexivity).
  assert (Hq2 : has_root_directory Windows E q = false)
    by (unfold has_root_directory, root_directory; destruct Hq as [->|[n ->]]; cbn; unfold fin; destruct (el_other E); reflexivity).
  assert (Hq3 : is_absolute Windows E q = false) by (unfold is_absolute; rewrite Hq1, Hq2; reflexivity).
  unfold path_append. rewrite Hq1, Hq2, Hq3. cbn [andb orb].
  rewrite (Rep_has_filename _ _ _ _ _ Hok HR), (Rep_has_root_directory _ _ _ _ _ Hok HR), (Rep_is_absolute _ _ _ _ _ Hok HR), (Rep_pathname _ _ _ _ _ Hok HR).
  cbn [bind]. rewrite swap_first.
  assert (Hz : negb d && (host_root rn || d) = false) by (destruct d; [reflexivity|]; destruct (host_root rn); [specialize (Hh eq_refl); discriminate|reflexivity]).
  rewrite Hz, orb_false_r. change (preferred_separator Windows) with backslash. rewrite ctext_ended.
  destruct Hq as [->|[n ->]]; reflexivity.
Qed.

Lemma Rep_append_name : forall rn d ns tr ret n, ctext_ok rn d ns -> (host_root rn = true -> d = true) -> Rep rn d ns tr ret ->
  exists ret', path_append Windows E true ret (Path n [] FILENAME) = Ok ret' /\ Rep rn d (ns ++ [n]) false ret'.
Proof.
  intros rn d ns tr ret n Hok Hh HR. rewrite (Rep_append rn d ns tr ret _ Hok Hh HR) by eauto. cbn [pathname]. rewrite ctext_snoc.
  eexists. split; [reflexivity|]. left. reflexivity.
Qed.

Lemma Rep_append_nothing : forall rn d ns tr ret q, ctext_ok rn d ns -> (host_root rn = true -> d = true) -> Rep rn d ns tr ret ->
  q = path_default \/ q = Path [] [] FILENAME ->
  exists ret', path_append Windows E true ret q = Ok ret' /\ Rep rn d ns true ret'.
Proof.
  intros rn d ns tr ret q Hok Hh HR Hq. rewrite (Rep_append rn d ns tr ret _ Hok Hh HR) by (destruct Hq as [->| ->]; eauto).
  replace (pathname q) with (@nil ascii) by (destruct Hq as [->| ->]; reflexivity). rewrite app_nil_r.
  eexists. split; [reflexivity|]. left. reflexivity.
Qed.

(** ** Removing the last name *)

Lemma ctext_length : forall rn d ns, Forall wname ns -> length (ctext rn d ns true) = base rn d + length (wjoin ns) + (if is_nil ns then 0 else 1).
Proof.
  intros rn d ns H. unfold ctext, base. rewrite !app_length. destruct ns; cbn [is_nil negb andb length]; destruct d; cbn [length]; lia.
Qed.

Lemma nfc_snoc : forall rn d ns x tr k, Forall wname ns ->
  nfc rn d (ns ++ [x]) tr k = (rootcs rn d ++ ntok (base rn d) ns) ++ Comp x FILENAME (length (ctext rn d ns true)) :: (if tr then [Comp [] FILENAME k] else []).
Proof.
  intros rn d ns x tr k H. unfold nfc. destruct (ntok_snoc ns x (base rn d)) as (p & -> & Hp). rewrite (Hp H), <- ctext_length by exact H.
  assert (is_nil (ns ++ [x]) = false) as -> by (destruct ns; reflexivity). cbn [negb]. rewrite andb_true_r, <- !app_assoc. reflexivity.
Qed.

Lemma pre_nil : forall rn d ns, rootcs rn d ++ ntok (base rn d) ns = [] -> rn = [] /\ d = false /\ ns = [].
Proof.
  intros rn d ns H. apply app_eq_nil in H. destruct H as [H1 H2]. unfold rootcs in H1. apply app_eq_nil in H1. destruct H1 as [H0 H1].
  destruct rn; [|discriminate]. destruct d; [discriminate|]. destruct ns; [auto|discriminate].
Qed.

Lemma pre_last : forall rn d ns l c, rootcs rn d ++ ntok (base rn d) ns = l ++ [c] ->
  (ns = [] /\ (c_type c = ROOT_NAME \/ c_type c = ROOT_DIR)) \/ (ns <> [] /\ c_type c = FILENAME).
Proof.
  intros rn d ns l c H. destruct ns as [|x r _] using rev_ind.
  - left. cbn [ntok] in H. rewrite app_nil_r in H. split; [reflexivity|]. apply (rootcs_types rn d). rewrite H. apply in_or_app. right. left. reflexivity.
  - right. split; [destruct r; discriminate|]. destruct (ntok_snoc r x (base rn d)) as (p & Hp & _). rewrite Hp, app_assoc in H. apply app_inj_tail in H. destruct H as [_ <-]. reflexivity.
Qed.

Lemma split_snoc : forall rn d ns x, ctext_ok rn d (ns ++ [x]) ->
  split_components Windows (ctext rn d (ns ++ [x]) false) =
  trim (Path (ctext rn d ns true ++ x) ((rootcs rn d ++ ntok (base rn d) ns) ++ [Comp x FILENAME (length (ctext rn d ns true))]) MULTI).
Proof.
  intros rn d ns x Hok. pose proof Hok as (_ & Hn & _). apply Forall_app in Hn. destruct Hn as [Hn _].
  rewrite split_ctext; [|exact Hok|].
  - rewrite nfc_snoc, ctext_snoc by exact Hn. reflexivity.
  - intros H. destruct (nil_parts _ _ _ _ Hok H) as (_ & _ & H'). destruct ns; discriminate.
Qed.

Lemma erase_prefix : forall (a b : str), str_erase (a ++ b) (length a) = Ok a.
Proof. intros. unfold str_erase. rewrite app_length, (proj2 (Nat.leb_le _ _)) by lia. rewrite firstn_exact by reflexivity. reflexivity. Qed.

Lemma ctext_ok_prefix : forall rn d ns x, ctext_ok rn d (ns ++ [x]) -> ctext_ok rn d ns.
Proof.
  intros rn d ns x (H1 & H2 & H3 & H4). split; [exact H1|]. split; [apply Forall_app in H2; tauto|]. split.
  - intros Ha Hb n Hn. apply (H3 Ha Hb). destruct ns; [discriminate|exact Hn].
  - intros Hh. destruct (H4 Hh) as [H|H]; [auto|]. destruct ns; discriminate.
Qed.

Lemma split_root_only : forall rn d, ctext_ok rn d [] -> rootcs rn d <> [] ->
  split_components Windows (ctext rn d [] true) = trim (Path (ctext rn d [] true) (rootcs rn d) MULTI).
Proof.
  intros rn d Hok H. rewrite split_ctext; [|exact Hok|].
  - unfold nfc. cbn [ntok is_nil negb]. rewrite andb_false_r, !app_nil_r. reflexivity.
  - intros Hz. destruct (nil_parts _ _ _ _ Hok Hz) as (-> & -> & _). apply H. reflexivity.
Qed.

Lemma ctext_true_nonnil : forall rn d ns, Forall wname ns -> rootcs rn d ++ ntok (base rn d) ns <> [] -> ctext rn d ns true <> [].
Proof. intros rn d ns Hn H Hz. apply ctext_nil in Hz; [|exact Hn]. destruct Hz as (-> & -> & ->). apply H. reflexivity. Qed.

Lemma remove_last_name : forall rn d ns x, ctext_ok rn d (ns ++ [x]) ->
  exists ret', remove_filename Windows (split_components Windows (ctext rn d (ns ++ [x]) false)) = Ok ret' /\ Rep rn d ns true ret'.
Proof.
  intros rn d ns x Hok. rewrite split_snoc by exact Hok. set (t := ctext rn d ns true). set (pre := rootcs rn d ++ ntok (base rn d) ns).
  pose proof (ctext_ok_prefix _ _ _ _ Hok) as Hok'. pose proof Hok as (_ & Hn & _). apply Forall_app in Hn. destruct Hn as [Hn Hx]. inversion Hx as [|? ? [Hx1 Hx2] _]; subst.
  destruct pre as [|c0 l0] eqn:Hpre.
  - unfold pre in Hpre. destruct (pre_nil _ _ _ Hpre) as (-> & -> & ->). cbn. eexists. split; [reflexivity|]. left. reflexivity.
  - rewrite <- Hpre. assert (Hne : pre <> []) by (rewrite Hpre; discriminate).
    rewrite trim_other by (rewrite app_length; cbn; rewrite Hpre; cbn; lia). unfold remove_filename. cbn [ptyp comps pathname]. rewrite rev_unit. cbn [c_type ptype_eqb c_str c_pos andb].
    destruct x as [|a x]; [congruence|]. cbn [is_nil negb]. rewrite erase_prefix. cbn [bind].
    destruct (exists_last Hne) as (l & c & Hl). rewrite rev_involutive. assert (Hrev : rev pre = c :: rev l) by (rewrite Hl; apply rev_unit). rewrite Hrev. unfold pre in Hl.
    destruct (pre_last _ _ _ _ _ Hl) as [[-> Ht]|[Hnn Ht]].
    + assert (Hc : ptype_eqb (c_type c) ROOT_DIR || ptype_eqb (c_type c) ROOT_NAME = true) by (destruct Ht as [-> | ->]; reflexivity). rewrite Hc.
      eexists. split; [reflexivity|]. left. unfold pre, t. cbn [ntok]. rewrite app_nil_r. symmetry. apply split_root_only; [exact Hok'|].
      intros Hz. apply Hne. unfold pre. rewrite Hz. reflexivity.
    + rewrite Ht. cbn [ptype_eqb orb]. eexists. split; [reflexivity|]. right. right.
      split; [apply ctext_true_nonnil; assumption|]. split; [auto|]. exists (length t). unfold nfc, pre.
      assert (is_nil ns = false) as -> by (destruct ns; [congruence|reflexivity]). cbn [negb andb]. rewrite <- app_assoc. reflexivity.
Qed.

Lemma Rep_multi : forall rn d ns x ret, ctext_ok rn d (ns ++ [x]) -> Rep rn d (ns ++ [x]) true ret ->
  exists k, ret = Path (ctext rn d ns true ++ x ++ [backslash])
    ((rootcs rn d ++ ntok (base rn d) ns) ++ [Comp x FILENAME (length (ctext rn d ns true)); Comp [] FILENAME k]) MULTI.
Proof.
  intros rn d ns x ret Hok HR. pose proof Hok as (_ & Hn & _). apply Forall_app in Hn. destruct Hn as [Hn _].
  assert (Ht : ctext rn d (ns ++ [x]) true = ctext rn d ns true ++ x ++ [backslash]).
  { rewrite <- (ctext_ended rn d (ns ++ [x]) false), <- ctext_snoc, <- app_assoc. destruct ns; reflexivity. }
  assert (Hc : forall k, nfc rn d (ns ++ [x]) true k = (rootcs rn d ++ ntok (base rn d) ns) ++ [Comp x FILENAME (length (ctext rn d ns true)); Comp [] FILENAME k]).
  { intros k. rewrite nfc_snoc by exact Hn. reflexivity. }
  destruct HR as [->|[[Hz _]|(_ & _ & k & ->)]].
  - exists (length (ctext rn d (ns ++ [x]) true)). rewrite split_ctext; [|exact Hok|].
    + rewrite Hc. rewrite trim_other by (rewrite app_length; cbn; lia). rewrite Ht. reflexivity.
    + intros Hz. rewrite Ht in Hz. apply app_eq_nil in Hz. destruct Hz as [_ Hz]. destruct x; discriminate.
  - rewrite Ht in Hz. apply app_eq_nil in Hz. destruct Hz as [_ Hz]. destruct x; discriminate.
  - exists k. rewrite Hc, Ht. reflexivity.
Qed.

Lemma trailing_spec : forall rn d ns x ret n, ctext_ok rn d (ns ++ [x]) -> (host_root rn = true -> d = true) -> Rep rn d (ns ++ [x]) true ret ->
  exists ret', normal_trailing Windows E ret (Path n [] FILENAME) = Ok ret' /\
    (if is_updir x then Rep rn d ((ns ++ [x]) ++ [n]) false ret' else Rep rn d ns true ret').
Proof.
  intros rn d ns x ret n Hok Hh HR. destruct (Rep_append_name rn d _ true ret n Hok Hh HR) as (r0 & Happ & HR0).
  destruct (Rep_multi _ _ _ _ _ Hok HR) as (k & Hret). 
  pose proof (ctext_ok_prefix _ _ _ _ Hok) as Hok'. pose proof Hok as (_ & Hn & _). apply Forall_app in Hn. destruct Hn as [Hn Hx]. inversion Hx as [|? ? [Hx1 Hx2] _]; subst x0 l.
  set (t := ctext rn d ns true) in *. set (pre := rootcs rn d ++ ntok (base rn d) ns) in *.
  set (cs := pre ++ [Comp x FILENAME (length t); Comp [] FILENAME k]) in *.
  assert (Hlen : length cs = S (S (length pre))) by (unfold cs; rewrite app_length; cbn; lia).
  assert (Hmid : nth_error cs (length pre) = Some (Comp x FILENAME (length t))) by (unfold cs; apply nth_error_mid).
  unfold normal_trailing. rewrite Happ. subst ret. unfold it_end. cbn [ptyp comps]. unfold it_dec at 1. cbn [ptyp]. rewrite Hlen. cbn [bind]. unfold it_dec at 1. cbn [ptyp bind].
  unfold it_deref. cbn [ptyp comps]. rewrite Hmid. cbn [bind].
  assert (Hhf : has_filename Windows (comp_path (Comp x FILENAME (length t))) = Ok true) by (destruct x; [congruence|reflexivity]).
  rewrite Hhf. cbn [bind]. rewrite is_dotdot_eq. change (native (comp_path (Comp x FILENAME (length t)))) with x. fold (is_updir x).
  destruct (is_updir x); cbn [negb andb]; [eauto|].
  unfold it_begin. cbn [ptyp it_equals]. destruct (length pre) as [|j] eqn:Hj.
  - cbn [Nat.eqb]. eexists. split; [reflexivity|]. destruct pre eqn:Hp; [|discriminate]. unfold pre in Hp. destruct (pre_nil _ _ _ Hp) as (-> & -> & ->). left. reflexivity.
  - cbn [Nat.eqb it_cur bind comps]. rewrite Hmid. cbn [c_pos pathname]. rewrite erase_prefix. cbn [bind]. unfold it_dec. cbn [ptyp bind it_cur].
    assert (Hne : pre <> []) by (intros Hz; rewrite Hz in Hj; discriminate).
    destruct (exists_last Hne) as (l & c & Hl).
    assert (Hnth : nth_error cs j = Some c).
    { unfold cs. rewrite Hl, <- app_assoc. cbn [app]. replace j with (length l); [apply nth_error_mid|]. rewrite Hl, app_length in Hj. cbn in Hj. lia. }
    rewrite Hnth. assert (Hf1 : firstn (S j) cs = pre) by (unfold cs; apply firstn_exact; auto).
    assert (Hs1 : skipn (S (S j)) cs = [Comp [] FILENAME k]).
    { unfold cs. change [Comp x FILENAME (length t); Comp [] FILENAME k] with ([Comp x FILENAME (length t)] ++ [Comp [] FILENAME k]). rewrite app_assoc. apply skipn_exact. rewrite app_length. cbn. lia. }
    assert (Htn : t <> []) by (apply ctext_true_nonnil; assumption).
    destruct (pre_last _ _ _ _ _ Hl) as [[-> Ht]|[Hnn Ht]].
    + assert (ptype_eqb (c_type c) FILENAME = false) as -> by (destruct Ht as [-> | ->]; reflexivity). rewrite Hf1. eexists. split; [reflexivity|].
      right. right. split; [exact Htn|]. split; [auto|]. exists k. unfold nfc, pre. cbn [ntok is_nil negb]. rewrite andb_false_r, !app_nil_r. reflexivity.
    + rewrite Ht. cbn [ptype_eqb]. rewrite Hf1, Hs1. eexists. split; [reflexivity|]. right. right. split; [exact Htn|]. split; [auto|]. exists k.
      unfold nfc, pre. assert (is_nil ns = false) as -> by (destruct ns; [congruence|reflexivity]). cbn [negb andb]. rewrite <- app_assoc. reflexivity.
Qed.

(** ** One iteration *)

(** Stacks of names the loop can hold: without root, no name that would be read as a drive. *)
Definition okst (rn : str) (d : bool) (stk : list str) : Prop :=
  root_text rn /\ (host_root rn = true -> d = true) /\ Forall wname stk /\ (rn = [] -> d = false -> Forall no_drive stk).

Lemma okst_ctext : forall rn d stk, okst rn d stk -> ctext_ok rn d (rev stk).
Proof.
  intros rn d stk (H1 & H2 & H3 & H4). split; [exact H1|]. split; [apply Forall_rev; exact H3|]. split; [|auto].
  intros Ha Hb n Hn. specialize (H4 Ha Hb). apply Forall_rev in H4. destruct (rev stk); [discriminate|]. injection Hn as ->. inversion H4; assumption.
Qed.

Lemma okst_reduce : forall rn d stk n, okst rn d stk -> wname n -> (rn = [] -> d = false -> no_drive n) -> okst rn d (reduce1 d stk n).
Proof.
  intros rn d stk n (H1 & H2 & H3 & H4) Hn Hd. split; [exact H1|]. split; [exact H2|].
  assert (G : forall P : str -> Prop, Forall P stk -> P n -> Forall P (reduce1 d stk n)).
  { intros P HP Hp. unfold reduce1. destruct (str_eqb n (lit ".")); [exact HP|]. destruct (str_eqb n (lit "..")); [|constructor; assumption].
    destruct stk as [|x r]; [destruct d; [constructor|constructor; [exact Hp|constructor]]|]. destruct (str_eqb x (lit "..")); [constructor; assumption|]. inversion HP; assumption. }
  split; [apply G; assumption|]. intros Ha Hb. apply G; auto.
Qed.

Lemma Rep_filename : forall rn d stk x ret, ctext_ok rn d (rev (x :: stk)) -> Rep rn d (rev (x :: stk)) false ret ->
  ret = split_components Windows (ctext rn d (rev stk ++ [x]) false) /\ exists q, filename Windows ret = Ok q /\ native q = x.
Proof.
  intros rn d stk x ret Hok HR. cbn [rev] in *.
  assert (Hret : ret = split_components Windows (ctext rn d (rev stk ++ [x]) false)).
  { destruct HR as [HR|[[Hz _]|(_ & [Hz|Hz] & _)]]; [exact HR| | |discriminate].
    - destruct (nil_parts _ _ _ _ Hok Hz) as (_ & _ & Hz'). destruct (rev stk); discriminate.
    - destruct (rev stk); discriminate. }
  split; [exact Hret|]. subst ret. destruct (C75_filename (ctext rn d (rev stk ++ [x]) false)) as (q & Hq & Hn). exists q. split; [exact Hq|].
  destruct (ctext_root _ _ _ false Hok) as (rest & Hr & _ & _ & Hns & He). rewrite Hr in Hn. cbn [snd] in Hn. cbv zeta in Hn.
  rewrite He, Hns in Hn by (destruct (rev stk); discriminate). rewrite last_last in Hn. exact Hn.
Qed.

Lemma step_name : forall rn d stk tr ret n, ctext_ok rn d (rev stk) -> (host_root rn = true -> d = true) -> wname n -> Rep rn d (rev stk) tr ret ->
  exists ret', normal_step Windows E ret (Path n [] FILENAME) = Ok ret' /\ Rep rn d (rev (reduce1 d stk n)) (push_tr stk n) ret'.
Proof.
  intros rn d stk tr ret n Hok Hh [Hn1 Hn2] HR.
  unfold normal_step. cbn [ptyp ptype_eqb orb]. rewrite is_dotdot_eq, is_dot_eq. change (native (Path n [] FILENAME)) with n.
  unfold reduce1, push_tr, plain. destruct (str_eqb n (lit "..")) eqn:Hdd.
  - apply str_eqb_spec in Hdd. replace (str_eqb n (lit ".")) with false by (subst n; reflexivity).
    rewrite (Rep_has_filename _ _ _ _ _ Hok HR). cbn [bind]. destruct stk as [|x r].
    + cbn [rev is_nil negb andb]. rewrite (Rep_has_relative _ _ _ _ _ Hok HR). cbn [bind rev is_nil negb]. rewrite (Rep_has_root_directory _ _ _ _ _ Hok HR).
      destruct d; cbn [negb].
      * exists ret. split; [reflexivity|]. eapply Rep_tr_nil. exact HR.
      * apply (Rep_append_name rn false [] tr ret n Hok Hh HR).
    + assert (Hnn : is_nil (rev (x :: r)) = false) by (cbn [rev]; destruct (rev r); reflexivity). rewrite Hnn. cbn [negb andb]. fold (is_updir x). destruct tr; cbn [negb].
      * rewrite (Rep_has_relative _ _ _ _ _ Hok HR), Hnn. cbn [bind negb]. cbn [rev] in HR, Hok.
        destruct (trailing_spec rn d (rev r) x ret n Hok Hh HR) as (ret' & H1 & H2). exists ret'. split; [exact H1|]. destruct (is_updir x); cbn [negb rev] in *; exact H2.
      * destruct (Rep_filename rn d r x ret Hok HR) as (Hret & q & Hq & Hqn). rewrite Hq. cbn [bind]. rewrite is_dotdot_eq, Hqn. fold (is_updir x).
        destruct (is_updir x); cbn [negb].
        -- destruct (Rep_append_name rn d _ false ret n Hok Hh HR) as (ret' & H1 & H2). exists ret'. split; [exact H1|]. exact H2.
        -- rewrite Hret. apply remove_last_name. exact Hok.
  - replace (is_nil n) with false by (destruct n; [congruence|reflexivity]). cbn [negb andb]. destruct (str_eqb n (lit ".")) eqn:Hd; cbn [negb andb].
    + apply (Rep_append_nothing rn d _ tr ret path_default Hok Hh HR). auto.
    + apply (Rep_append_name rn d _ tr ret n Hok Hh HR).
Qed.

Lemma step_empty : forall rn d stk tr ret, okst rn d stk -> Rep rn d (rev stk) tr ret ->
  exists ret', normal_step Windows E ret (Path [] [] FILENAME) = Ok ret' /\ Rep rn d (rev stk) true ret'.
Proof.
  intros rn d stk tr ret Hst HR. pose proof Hst as (_ & Hh & _). exact (Rep_append_nothing rn d _ tr ret _ (okst_ctext _ _ _ Hst) Hh HR (or_intror eq_refl)).
Qed.

(** ** The loop *)

Lemma loop_names : forall rn d ns stk tr ret more, okst rn d stk -> Forall wname ns -> (rn = [] -> d = false -> Forall no_drive ns) ->
  Rep rn d (rev stk) tr ret ->
  exists ret', normal_loop Windows E (map (fun n => Path n [] FILENAME) ns ++ more) ret = normal_loop Windows E more ret' /\
    okst rn d (fold_left (reduce1 d) ns stk) /\ Rep rn d (rev (fold_left (reduce1 d) ns stk)) (final_tr d stk ns tr) ret'.
Proof.
  intros rn d. induction ns as [|n ns IH]; intros stk tr ret more Hst Hn Hd HR.
  - exists ret. cbn. auto.
  - inversion Hn as [|? ? Hn1 Hn2]; subst. destruct (step_name rn d stk tr ret n (okst_ctext _ _ _ Hst) (proj1 (proj2 Hst)) Hn1 HR) as (r1 & H1 & HR1).
    cbn [map app normal_loop fold_left final_tr]. rewrite H1. cbn [bind]. apply IH; auto.
    + apply okst_reduce; auto. intros Ha Hb. specialize (Hd Ha Hb). inversion Hd; assumption.
    + intros Ha Hb. specialize (Hd Ha Hb). inversion Hd; assumption.
Qed.

Lemma default_append : forall q, path_append Windows E true path_default q = path_append Windows E true (split_components Windows []) q.
Proof. intros q. unfold path_append. destruct E as [? ? []]; reflexivity. Qed.

Lemma elems_split : forall s, s <> [] -> elems (split_components Windows s) = map comp_path (all_comps s).
Proof.
  intros s Hs. rewrite wsplit_all by exact Hs. pose proof (all_comps_elements s) as He. destruct (all_comps s) as [|c [|c' l]] eqn:Hc; try reflexivity.
  unfold trim. cbn [comps]. unfold elems. cbn [ptyp pathname].
  assert (Hcs : c_str c <> []) by (cbn in He; apply (win_elements_single no_wsep s); symmetry; exact He).
  destruct c as [x ty p]. cbn [c_str c_type] in *. unfold empty. cbn [pathname]. destruct x; [congruence|]. destruct ty; try reflexivity.
  exfalso. assert (Hty : Forall (fun c => c_type c <> MULTI) (all_comps s)).
  { unfold all_comps. destruct (split_root no_wsep s) as [rn rest]. apply Forall_app; split; [|apply Forall_app; split].
    - unfold root_comps. destruct (is_nil rn), (wstarts rest); cbn [app]; repeat constructor; discriminate.
    - eapply Forall_impl; [|apply wtok_types]. cbn. intros ? ->. discriminate.
    - unfold trail. destruct (_ && _); repeat constructor; discriminate. }
  rewrite Hc in Hty. inversion Hty as [|? ? Ht _]; subst. apply Ht. reflexivity.
Qed.

Lemma loop_root : forall s rn rest more, split_root no_wsep s = (rn, rest) -> exists ret,
  normal_loop Windows E (map comp_path (root_comps rn rest) ++ more) path_default = normal_loop Windows E more ret /\
  Rep (preferred rn) (wstarts rest) [] false ret.
Proof.
  intros s rn rest more Hr. pose proof (root_text_split s rn rest Hr) as Hrt.
  assert (Hok0 : ctext_ok (preferred rn) false []) by (split; [exact Hrt|]; split; [constructor|]; split; [discriminate|auto]).
  assert (Hok1 : ctext_ok (preferred rn) true []) by (split; [exact Hrt|]; split; [constructor|]; split; [discriminate|auto]).
  assert (Hc0 : ctext (preferred rn) false [] false = preferred rn) by (unfold ctext; cbn; rewrite !app_nil_r; reflexivity).
  assert (Hc1 : ctext (preferred rn) true [] false = preferred rn ++ [backslash]) by (unfold ctext; cbn; reflexivity).
  destruct (ctext_root _ _ _ false Hok0) as (r0 & Hr0 & Hr0' & _). rewrite Hc0 in Hr0. cbn in Hr0'. subst r0.
  assert (Hs0 : native (split_components Windows (preferred rn)) = preferred rn) by (rewrite <- Hc0; apply ctext_native; exact Hok0).
  (* the root name *)
  assert (H1 : exists ret, normal_loop Windows E (map comp_path (root_comps rn rest) ++ more) path_default =
     normal_loop Windows E (map comp_path (if wstarts rest then [Comp [backslash] ROOT_DIR (length rn)] else []) ++ more) ret /\
     (ret = split_components Windows (preferred rn) \/ (rn = [] /\ ret = path_default))).
  { unfold root_comps. destruct (is_nil rn) eqn:Hn.
    - exists path_default. split; [reflexivity|]. right. destruct rn; [auto|discriminate].
    - exists (split_components Windows (preferred rn)). split; [|auto]. cbn [app map normal_loop]. unfold normal_step at 1. unfold comp_path at 1 2. cbn [ptyp c_type ptype_eqb orb].
      change (to_preferred Windows (native (comp_path (Comp (preferred rn) ROOT_NAME 0)))) with (preferred (preferred rn)). rewrite preferred_twice, default_append.
      rewrite (append_text E true [] (preferred rn) [] [] (preferred rn) [] eq_refl Hr0 eq_refl Hs0). rewrite nil_preferred, preferred_twice, Hn. cbn [negb andb].
      replace (str_eqb (preferred rn) (preferred [])) with false by (destruct rn; [discriminate|reflexivity]). reflexivity. }
  destruct H1 as (ret & -> & Hret). destruct (wstarts rest) eqn:Hst.
  - cbn [app map normal_loop]. unfold normal_step at 1. unfold comp_path at 1 2. cbn [ptyp c_type ptype_eqb orb].
    change (to_preferred Windows (native (comp_path (Comp [backslash] ROOT_DIR (length rn))))) with [backslash].
    assert (Hap : path_append Windows E true ret (split_components Windows [backslash]) = path_append Windows E true (split_components Windows (preferred rn)) (split_components Windows [backslash])).
    { destruct Hret as [-> |[-> ->]]; [reflexivity|]. apply default_append. }
    rewrite Hap, (append_text E true (preferred rn) [backslash] (preferred rn) [] [] [backslash] Hr0 eq_refl Hs0 eq_refl). cbn [is_nil negb andb orb wstarts].
    change (is_wsep backslash) with true. rewrite nil_preferred. cbn [host_root orb]. rewrite andb_true_r.
    exists (split_components Windows (preferred rn ++ [backslash])). split.
    + cbn [bind]. destruct (is_nil rn) eqn:Hn; [destruct rn; [reflexivity|discriminate]|]. rewrite preferred_twice. reflexivity.
    + left. rewrite Hc1. reflexivity.
  - exists ret. split; [reflexivity|]. destruct Hret as [-> |[-> ->]]; [left; rewrite Hc0; reflexivity|]. right. left. split; reflexivity.
Qed.

Lemma comp_names : forall rest off, map comp_path (wtok off [] rest) = map (fun n => Path n [] FILENAME) (wnames rest).
Proof.
  intros rest off. change (wnames rest) with (wnames ([] ++ rest)). rewrite <- (wtok_names rest off [] eq_refl), map_map. pose proof (wtok_types rest off []) as Ht. induction Ht as [|c l Hc _ IH]; [reflexivity|].
  cbn [map]. rewrite IH. unfold comp_path. rewrite Hc. reflexivity.
Qed.

(** Texts whose names may come first without turning into a drive. *)
Definition safe (s : str) : Prop :=
  let (rn, rest) := split_root no_wsep s in rn <> [] \/ wstarts rest = true \/ Forall no_drive (wnames rest).

(** The names left, in reverse, and whether a separator follows them. *)
Definition wstk (s : str) : list str := let rest := snd (split_root no_wsep s) in fold_left (reduce1 (wstarts rest)) (wnames rest) [].
Definition wtr (s : str) : bool := let rest := snd (split_root no_wsep s) in final_tr (wstarts rest) [] (wnames rest) false || wends rest.

Lemma loop_split : forall s rn rest, s <> [] -> split_root no_wsep s = (rn, rest) -> safe s -> exists ret,
  normal_loop Windows E (elems (split_components Windows s)) path_default = Ok ret /\
  ctext_ok (preferred rn) (wstarts rest) (rev (wstk s)) /\ Forall wname (wstk s) /\
  Rep (preferred rn) (wstarts rest) (rev (wstk s)) (wtr s) ret.
Proof.
  intros s rn rest Hs Hr Hsafe. rewrite elems_split by exact Hs. unfold all_comps, wstk, wtr. rewrite Hr. cbn [snd]. cbv zeta. rewrite !map_app.
  destruct (loop_root s rn rest (map comp_path (wtok (length rn) [] rest) ++ map comp_path (trail rest (length s))) Hr) as (r0 & -> & HR0).
  destruct (split_root_cases s rn rest Hr) as [_ Hcases].
  destruct (is_nil (wnames rest)) eqn:Hnn.
  - assert (Hw : wnames rest = []) by (destruct (wnames rest); [reflexivity|discriminate]). rewrite comp_names, Hw. unfold trail. rewrite Hw. cbn [is_nil negb]. rewrite andb_false_r. cbn [map app normal_loop fold_left rev].
    exists r0. split; [reflexivity|]. split; [|split; [constructor|eapply Rep_tr_nil; exact HR0]].
    split; [apply (root_text_split s rn rest Hr)|]. split; [constructor|]. split; [discriminate|auto].
  - assert (Hst : okst (preferred rn) (wstarts rest) []).
    { split; [apply (root_text_split s rn rest Hr)|]. split; [|split; [constructor|constructor]]. rewrite host_preferred.
      destruct Hcases as [[_ H]|[(a & -> & Ha)|(a & w & _ & _ & _ & _ & [->|H])]]; [congruence| | |auto].
      - cbn. rewrite Ha. discriminate.
      - discriminate. }
    rewrite comp_names. destruct (loop_names (preferred rn) (wstarts rest) (wnames rest) [] false r0 (map comp_path (trail rest (length s))) Hst (wnames_all rest)) as (r1 & -> & Hst1 & HR1).
    + intros Ha Hb. unfold safe in Hsafe. rewrite Hr in Hsafe. destruct Hsafe as [H|[H|H]]; [|congruence|exact H]. exfalso. apply H. destruct rn; [reflexivity|discriminate].
    + exact HR0.
    + pose proof (okst_ctext _ _ _ Hst1) as Hok1. pose proof Hst1 as (_ & _ & Hwn & _). unfold trail. rewrite Hnn. cbn [negb]. rewrite andb_true_r. destruct (wends rest) eqn:He.
      * cbn [map normal_loop]. destruct (step_empty _ _ _ _ _ Hst1 HR1) as (r2 & H2 & HR2). change (comp_path (Comp [] FILENAME (length s))) with (Path [] [] FILENAME). rewrite H2. cbn [bind].
        exists r2. rewrite orb_true_r. auto.
      * exists r1. rewrite orb_false_r. auto.
Qed.

(** ** The end *)

Definition wfinal (rn : str) (d : bool) (stk : list str) (tr : bool) : str :=
  match stk with
  | [] => if is_nil rn && negb d then [dot] else ctext rn d [] false
  | x :: _ => ctext rn d (rev stk) (tr && negb (is_updir x))
  end.

Definition wnormal (s : str) : str := wfinal (preferred (fst (split_root no_wsep s))) (wstarts (snd (split_root no_wsep s))) (wstk s) (wtr s).

Lemma multi_elements : forall rn d ns tr k t, map native (elems (Path t (nfc rn d ns tr k) MULTI)) = parts_elements rn d ns tr.
Proof.
  intros. unfold elems. cbn [ptyp comps]. rewrite map_map. change (fun x => native (comp_path x)) with c_str. unfold nfc, rootcs, parts_elements. rewrite !map_app, ntok_strs, <- app_assoc.
  destruct (is_nil rn), d, (tr && negb (is_nil ns)); reflexivity.
Qed.

Lemma Rep_elements : forall rn d ns tr ret, ctext_ok rn d ns -> Rep rn d ns tr ret -> map native (elems ret) = win_elements no_wsep (ctext rn d ns tr).
Proof.
  intros rn d ns tr ret Hok [->|[[Hn ->]|(_ & _ & k & ->)]].
  - apply win_elems.
  - rewrite Hn. reflexivity.
  - rewrite multi_elements, ctext_elements by exact Hok. reflexivity.
Qed.

Lemma finish_spec : forall rn d stk tr ret, ctext_ok rn d (rev stk) -> Forall wname stk -> Rep rn d (rev stk) tr ret ->
  exists r, normal_finish Windows ret = Ok r /\ native r = wfinal rn d stk tr /\ map native (elems r) = win_elements no_wsep (wfinal rn d stk tr).
Proof.
  intros rn d stk tr ret Hok Hst HR.
  assert (Hkeep : normal_finish Windows ret = Ok ret -> wfinal rn d stk tr = ctext rn d (rev stk) tr ->
    exists r, normal_finish Windows ret = Ok r /\ native r = wfinal rn d stk tr /\ map native (elems r) = win_elements no_wsep (wfinal rn d stk tr)).
  { intros H1 H2. exists ret. rewrite H2. split; [exact H1|]. split; [exact (Rep_pathname _ _ _ _ _ Hok HR)|]. apply Rep_elements; assumption. }
  destruct stk as [|x r].
  - cbn [rev] in *. destruct (is_nil rn && negb d) eqn:Hz.
    + assert (rn = [] /\ d = false) as [-> ->] by (destruct rn; [|discriminate]; destruct d; [discriminate|auto]).
      exists (split_components Windows [dot]). cbn [wfinal is_nil negb andb]. split; [|split; reflexivity].
      destruct HR as [->|[[_ ->]|(Hne & _)]]; [| reflexivity|exfalso; apply Hne; apply ctext_nil; auto].
      rewrite ctext_tr_nil. reflexivity.
    + apply Hkeep; [|unfold wfinal; rewrite Hz, ctext_tr_nil, (ctext_tr_nil rn d tr); reflexivity].
      assert (Hne : ctext rn d [] tr <> []).
      { intros H. destruct (nil_parts _ _ _ _ Hok H) as (-> & -> & _). discriminate. }
      assert (Hend : forall k, normal_finish Windows (Path (ctext rn d [] tr) (nfc rn d [] tr k) MULTI) = Ok (Path (ctext rn d [] tr) (nfc rn d [] tr k) MULTI)).
      { intros k. unfold normal_finish, nfc, rootcs, empty. cbn [comps pathname ntok is_nil negb]. rewrite andb_false_r, !app_nil_r.
        assert (is_nil (ctext rn d [] tr) = false) as -> by (destruct (ctext rn d [] tr); [congruence|reflexivity]).
        destruct rn as [|a rn]; cbn [is_nil app]; destruct d; cbn [app rev]; try reflexivity; discriminate. }
      destruct HR as [->|[[H _]|(_ & _ & k & ->)]]; [|congruence|apply Hend].
      rewrite split_ctext by assumption. unfold trim. cbn [comps]. set (cs := nfc rn d [] tr (length (ctext rn d [] tr))) in *. destruct cs as [|c [|c' l]] eqn:Hcs; try (rewrite <- Hcs; apply Hend).
      unfold normal_finish. cbn [comps rev app]. unfold empty. cbn [pathname].
      assert (Hc : In c (rootcs rn d)) by (unfold cs, nfc in Hcs; cbn [ntok is_nil negb] in Hcs; rewrite andb_false_r, !app_nil_r in Hcs; rewrite Hcs; left; reflexivity).
      assert (is_nil (c_str c) = false) as ->; [|reflexivity].
      unfold rootcs in Hc. apply in_app_or in Hc. destruct Hc as [Hc|Hc].
      * destruct rn; [contradiction|]. destruct Hc as [<-|[]]. reflexivity.
      * destruct d; [|contradiction]. destruct Hc as [<-|[]]. reflexivity.
  - cbn [rev] in *. inversion Hst as [|? ? [Hx1 Hx2] _]; subst. destruct tr.
    + destruct (Rep_multi _ _ _ _ _ Hok HR) as (k & Hret).
      assert (Hrev : rev (comps ret) = Comp [] FILENAME k :: Comp x FILENAME (length (ctext rn d (rev r) true)) :: rev (rootcs rn d ++ ntok (base rn d) (rev r))).
      { rewrite Hret. cbn [comps]. rewrite rev_app_distr. reflexivity. }
      destruct (is_updir x) eqn:Hx.
      * unfold normal_finish. rewrite Hrev. cbn [c_str is_nil andb]. rewrite is_dotdot_eq. cbn [comp_path native pathname c_str]. fold (is_updir x). rewrite Hx.
        rewrite Hret. cbn [pathname ptyp]. rewrite app_assoc, rev_unit, rev_involutive. eexists. split; [reflexivity|]. cbn [wfinal]. rewrite Hx. cbn [negb andb rev].
        rewrite ctext_snoc. split; [reflexivity|]. rewrite ctext_elements by exact Hok. cbn [rev]. rewrite rev_involutive.
        rewrite <- (multi_elements rn d (rev r ++ [x]) false 0 (ctext rn d (rev r ++ [x]) false)). rewrite nfc_snoc; [reflexivity|]. destruct Hok as (_ & Hn & _). apply Forall_app in Hn. tauto.
      * apply Hkeep; [|cbn [wfinal]; rewrite Hx; reflexivity]. unfold normal_finish. rewrite Hrev. cbn [c_str is_nil andb]. rewrite is_dotdot_eq. cbn [comp_path native pathname c_str]. fold (is_updir x). rewrite Hx. reflexivity.
    + apply Hkeep; [|reflexivity].
      assert (Hret : ret = split_components Windows (ctext rn d (rev r ++ [x]) false)).
      { destruct HR as [HR|[[Hz _]|(_ & [Hz|Hz] & _)]]; [exact HR| | |discriminate].
        - destruct (nil_parts _ _ _ _ Hok Hz) as (_ & _ & Hz'). destruct (rev r); discriminate.
        - destruct (rev r); discriminate. }
      rewrite Hret, split_snoc by exact Hok. set (pre := rootcs rn d ++ ntok (base rn d) (rev r)).
      destruct pre as [|c0 l0] eqn:Hpre.
      * destruct x; [congruence|]. reflexivity.
      * rewrite <- Hpre. rewrite trim_other by (rewrite app_length, Hpre; cbn; lia). unfold normal_finish. cbn [comps pathname]. rewrite rev_unit. cbn [c_str].
        unfold empty. cbn [pathname]. destruct x as [|a x]; [congruence|]. cbn [is_nil andb].
        destruct (rev pre) eqn:Hrp; [|reflexivity]. apply (f_equal (@rev comp)) in Hrp. rewrite rev_involutive in Hrp. cbn in Hrp. congruence.
Qed.

Lemma wfinal_native : forall rn d stk tr, ctext_ok rn d (rev stk) -> native (split_components Windows (wfinal rn d stk tr)) = wfinal rn d stk tr.
Proof.
  intros rn d [|x r] tr Hok; cbn [wfinal].
  - destruct (is_nil rn && negb d); [reflexivity|]. apply ctext_native. exact Hok.
  - apply ctext_native. exact Hok.
Qed.

Theorem normal_text_windows : forall s, s <> [] -> safe s -> exists r, lexically_normal Windows E (split_components Windows s) = Ok r /\
  native r = wnormal s /\ map native (elems r) = win_elements no_wsep (wnormal s).
Proof.
  intros s Hs Hsafe. destruct (split_root no_wsep s) as [rn rest] eqn:Hr. destruct (loop_split s rn rest Hs Hr Hsafe) as (ret & Hl & Hok & Hw & HR).
  unfold lexically_normal. rewrite Hl. unfold wnormal. rewrite Hr. cbn [fst snd].
  assert (empty (split_components Windows s) = false) as ->.
  { unfold empty. change (pathname ?p) with (native p). destruct (native (split_components Windows s)) eqn:Hn; [|reflexivity].
    pose proof (split_native s) as H. rewrite Hn in H. rewrite (wsplit_all s Hs) in H. pose proof (all_comps_elements s) as He.
    destruct (all_comps s) as [|c [|c' l]] eqn:Hc; cbn in H; try discriminate.
    injection H as H _. cbn in He. exfalso. apply (win_elements_single no_wsep s (c_str c)); [symmetry; exact He|]. symmetry. exact H. }
  cbn [bind]. destruct (finish_spec _ _ _ _ _ Hok Hw HR) as (r & -> & Hn & He). cbn [bind]. eexists. split; [reflexivity|]. unfold fin. destruct (el_normal E).
  - auto.
  - change (pathname r) with (native r). rewrite Hn. split; [apply wfinal_native; exact Hok|]. apply win_elems.
Qed.

(** ** Every text: the loop always ends with a path *)

Lemma prefix_ok : forall rn d ns n, ns <> [] -> wname n -> ctext_ok rn d ns -> (host_root rn = true -> d = true) -> ctext_ok rn d (ns ++ [n]).
Proof.
  intros rn d ns n Hne Hn (H1 & H2 & H3 & H4) Hh. split; [exact H1|]. split; [apply Forall_app; split; [exact H2|constructor; [exact Hn|constructor]]|]. split; [|auto].
  intros Ha Hb m Hm. apply (H3 Ha Hb). destruct ns; [congruence|exact Hm].
Qed.

Lemma drive_cases : forall n, no_drive n \/ exists a m, n = a :: colon :: m.
Proof.
  intros [|a [|b m]]; cbn; auto. destruct (Ascii.eqb b colon) eqn:Hb; [right; apply Ascii.eqb_eq in Hb; subst; eauto|]. left. intros ->. discriminate.
Qed.

(** What the loop holds after any names. *)
Definition held (ret : path) : Prop := exists rn d stk tr,
  ctext_ok rn d (rev stk) /\ (host_root rn = true -> d = true) /\ Forall wname stk /\ Rep rn d (rev stk) tr ret.

Lemma wname_dots : wname (lit "..").
Proof. split; [discriminate|reflexivity]. Qed.

Lemma step_any : forall ret n, held ret -> wname n -> exists ret', normal_step Windows E ret (Path n [] FILENAME) = Ok ret' /\ held ret'.
Proof.
  intros ret n (rn & d & stk & tr & Hok & Hh & Hw & HR) Hn. destruct (step_name rn d stk tr ret n Hok Hh Hn HR) as (ret' & Hs & HR'). exists ret'. split; [exact Hs|].
  assert (Hw' : Forall wname (reduce1 d stk n)).
  { unfold reduce1. destruct (str_eqb n (lit ".")); [exact Hw|]. destruct (str_eqb n (lit "..")); [|constructor; assumption].
    destruct stk as [|x r]; [destruct d; [constructor|constructor; [exact Hn|constructor]]|]. destruct (str_eqb x (lit "..")); [constructor; assumption|]. inversion Hw; assumption. }
  assert (Hkeep : ctext_ok rn d (rev (reduce1 d stk n)) -> held ret').
  { intros H. exists rn, d, (reduce1 d stk n), (push_tr stk n). auto. }
  destruct stk as [|x r].
  - destruct (is_nil rn && negb d) eqn:Hz.
    + assert (rn = [] /\ d = false) as [-> ->] by (destruct rn; [|discriminate]; destruct d; [discriminate|auto]).
      destruct (str_eqb n (lit ".")) eqn:Hd1; [apply Hkeep; unfold reduce1; rewrite Hd1; exact Hok|].
      assert (Hone : no_drive n -> held ret').
      { intros Hnd. apply Hkeep. unfold reduce1. rewrite Hd1. assert (rev (if str_eqb n (lit "..") then [n] else [n]) = [n]) as -> by (destruct (str_eqb n (lit "..")); reflexivity).
        split; [left; reflexivity|]. split; [constructor; [exact Hn|constructor]|]. split; [|discriminate]. intros _ _ m Hm. injection Hm as <-. exact Hnd. }
      destruct (drive_cases n) as [Hnd|(a & m & ->)]; [auto|]. destruct (str_eqb (a :: colon :: m) (lit "..")) eqn:Hd2; [apply str_eqb_spec in Hd2; discriminate|].
      unfold reduce1, push_tr, plain in HR'. rewrite Hd1, Hd2 in HR'. cbn [rev app is_nil negb andb] in HR'.
      assert (Hr : ret' = split_components Windows (a :: colon :: m)).
      { destruct HR' as [H|[[H _]|(_ & [H|H] & _)]]; try discriminate. rewrite H. unfold ctext. cbn [app wjoin andb]. rewrite app_nil_r. reflexivity. }
      destruct Hn as [_ Hp]. unfold wplain in Hp. cbn [forallb] in Hp. apply andb_true_iff in Hp. destruct Hp as [Ha Hp]. apply andb_true_iff in Hp. destruct Hp as [_ Hp].
      assert (Hrt : root_text [a; colon]) by (right; left; exists a; split; [reflexivity|]; unfold no_wsep in Ha; apply negb_true_iff in Ha; exact Ha).
      assert (Hh' : host_root [a; colon] = false) by (cbn; destruct (is_wsep a); reflexivity).
      exists [a; colon], false, (if is_nil m then [] else [m]), false.
      assert (Hms : Forall wname (if is_nil m then [] else [m])) by (destruct m; [constructor|constructor; [split; [discriminate|exact Hp]|constructor]]).
      split; [|split; [rewrite Hh'; discriminate|split; [exact Hms|]]].
      * split; [exact Hrt|]. split; [apply Forall_rev; exact Hms|]. split; [discriminate|]. rewrite Hh'. discriminate.
      * left. rewrite Hr. unfold ctext. destruct m; cbn [is_nil rev app wjoin andb]; rewrite ?app_nil_r; reflexivity.
    + apply Hkeep. destruct Hok as (H1 & H2 & H3 & H4). split; [exact H1|]. split; [apply Forall_rev; exact Hw'|]. split; [|auto]. intros -> ->. discriminate.
  - apply Hkeep. unfold reduce1. destruct (str_eqb n (lit ".")); [exact Hok|]. destruct (str_eqb n (lit "..")).
    + destruct (str_eqb x (lit "..")).
      * cbn [rev]. apply prefix_ok; [destruct (rev r); discriminate|exact Hn|exact Hok|exact Hh].
      * cbn [rev] in Hok. apply ctext_ok_prefix in Hok. exact Hok.
    + cbn [rev]. apply prefix_ok; [destruct (rev r); discriminate|exact Hn|exact Hok|exact Hh].
Qed.

Lemma loop_any : forall ns ret more, Forall wname ns -> held ret ->
  exists ret', normal_loop Windows E (map (fun n => Path n [] FILENAME) ns ++ more) ret = normal_loop Windows E more ret' /\ held ret'.
Proof.
  induction ns as [|n ns IH]; intros ret more Hn HR; [exists ret; auto|]. inversion Hn as [|? ? Hn1 Hn2]; subst.
  destruct (step_any ret n HR Hn1) as (r1 & H1 & HR1). cbn [map app normal_loop]. rewrite H1. cbn [bind]. apply IH; assumption.
Qed.

Theorem normal_any : forall s, exists r, lexically_normal Windows E (split_components Windows s) = Ok r.
Proof.
  intros s. unfold lexically_normal. destruct (empty (split_components Windows s)) eqn:Hem; [eauto|].
  destruct (split_root no_wsep s) as [rn rest] eqn:Hr.
  destruct (is_nil s) eqn:Hs0; [destruct s; [discriminate|discriminate]|]. assert (Hs : s <> []) by (intros ->; discriminate).
  destruct (is_nil (wnames rest)) eqn:Hnn.
  - assert (Hsafe : safe s).
    { unfold safe. rewrite Hr. right. right. destruct (wnames rest); [constructor|discriminate]. }
    destruct (normal_text_windows s Hs Hsafe) as (r & H & _). unfold lexically_normal in H. rewrite Hem in H. eauto.
  - assert (exists ret, normal_loop Windows E (elems (split_components Windows s)) path_default = Ok ret /\ held ret) as (ret & -> & Hheld).
    { rewrite elems_split by exact Hs. unfold all_comps. rewrite Hr, !map_app.
      destruct (loop_root s rn rest (map comp_path (wtok (length rn) [] rest) ++ map comp_path (trail rest (length s))) Hr) as (r0 & -> & HR0).
      assert (Hheld : held r0).
      { exists (preferred rn), (wstarts rest), [], false. split; [|split; [|split; [constructor|exact HR0]]].
        - split; [apply (root_text_split s rn rest Hr)|]. split; [constructor|]. split; [discriminate|auto].
        - rewrite host_preferred. destruct (split_root_cases s rn rest Hr) as [_ [[_ H]|[(a & -> & Ha)|(a & w & _ & _ & _ & _ & [->|H])]]]; [congruence| | |auto].
          + cbn. rewrite Ha. discriminate.
          + discriminate. }
      rewrite comp_names. destruct (loop_any (wnames rest) r0 (map comp_path (trail rest (length s))) (wnames_all rest) Hheld) as (r1 & -> & (rn1 & d1 & stk1 & tr1 & H1 & H2 & H3 & H4)).
      unfold trail. rewrite Hnn. cbn [negb]. rewrite andb_true_r. destruct (wends rest).
      - cbn [map normal_loop]. destruct (Rep_append_nothing rn1 d1 (rev stk1) tr1 r1 (Path [] [] FILENAME) H1 H2 H4 (or_intror eq_refl)) as (r2 & Hr2 & HR2).
        exists r2. split; [|exists rn1, d1, stk1, true; auto]. change (normal_step Windows E r1 (comp_path (Comp [] FILENAME (length s)))) with (path_append Windows E true r1 (Path [] [] FILENAME)). rewrite Hr2. reflexivity.
      - exists r1. split; [reflexivity|]. exists rn1, d1, stk1, tr1. auto. }
    destruct Hheld as (rn1 & d1 & stk1 & tr1 & H1 & H2 & H3 & H4). cbn [bind]. destruct (finish_spec rn1 d1 stk1 tr1 ret H1 H3 H4) as (r & -> & _). cbn [bind]. eauto.
Qed.

End Observers.
