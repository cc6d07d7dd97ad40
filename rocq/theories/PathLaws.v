(** Laws of append, filename and extension on texts; canonicity of the normal form. *)
From Coq Require Import Ascii String Bool Arith NArith ZArith Lia List.
From Verif Require Import Str PathModel PathSpec StrProofs PathProofs PathOps PathOps2 PathNormal PathNormal2 PathMisc PathReach.
Import ListNotations.

(** * Append *)

(** What precedes the appended text: empty or ending in a slash. *)
Definition before (a : str) : str := a ++ (if is_nil (after_last_slash a) then [] else [slash]).

Lemma before_cases : forall a, before a = [] /\ a = [] \/ ends_slash (before a) = true /\ a <> [].
Proof.
  intros. unfold before. destruct (after_last_slash a) as [|c t] eqn:H; cbn [is_nil].
  - rewrite app_nil_r. apply after_last_nil in H as [->|H]; auto. right. split; auto. intros ->. discriminate.
  - right. rewrite ends_slash_snoc. split; auto. intros ->. discriminate.
Qed.

Lemma append_text_before : forall a b, starts_slash b = false -> append_text a b = before a ++ b.
Proof. intros. unfold append_text, before. rewrite H, app_assoc. reflexivity. Qed.

Lemma ends_split : forall x, ends_slash x = true -> exists y, x = y ++ [slash].
Proof.
  intros x H. unfold ends_slash in H. destruct (rev x) as [|c r] eqn:Hr; [discriminate|].
  cbn in H. unfold is_slash in H. apply Ascii.eqb_eq in H. subst c.
  exists (rev r). apply (f_equal (@rev ascii)) in Hr. rewrite rev_involutive in Hr. exact Hr.
Qed.

Lemma names_before : forall a b, names (before a ++ b) = names a ++ names b.
Proof.
  intros. destruct (before_cases a) as [[H ->]|[H Hne]].
  - reflexivity.
  - assert (Hn : names (before a) = names a).
    { unfold before. destruct (is_nil (after_last_slash a)); [rewrite app_nil_r; auto|apply names_app_sl]. }
    destruct (ends_split _ H) as [y Hy]. rewrite Hy in *. rewrite <- app_assoc. cbn [app].
    rewrite names_app_slash, <- Hn, names_app_sl. reflexivity.
Qed.

Lemma starts_before : forall a b, starts_slash b = false -> starts_slash (before a ++ b) = starts_slash a.
Proof. intros. unfold before. destruct a; auto. Qed.

Lemma ends_before : forall a b, starts_slash b = false ->
  ends_slash (before a ++ b) = if is_nil b then negb (is_nil a) else ends_slash b.
Proof.
  intros. destruct b as [|c b].
  - rewrite app_nil_r. cbn [is_nil]. destruct (before_cases a) as [[-> ->]|[-> Hne]]; auto.
    destruct a; [congruence|reflexivity].
  - rewrite ends_slash_app by congruence. reflexivity.
Qed.

(** Elements of a join: those of the left path without a trailing empty one, then those of the right. *)
Lemma elements_append : forall a b, starts_slash b = false -> b <> [] ->
  elements (append_text a b) = (if starts_slash a then [[slash]] else []) ++ names a ++ elements b.
Proof.
  intros a b Hb Hne. rewrite append_text_before by auto. unfold elements.
  rewrite starts_before, names_before, ends_before, Hb by auto.
  destruct b as [|c b]; [congruence|]. cbn [is_nil app]. rewrite <- app_assoc. f_equal. f_equal. f_equal.
  destruct (names (c :: b)) eqn:Hn.
  - exfalso. apply only_slashes_names in Hn. cbn in *. rewrite Hb in Hn. discriminate.
  - destruct (names a); reflexivity.
Qed.

Lemma elements_append_empty : forall a,
  elements (append_text a []) = (if starts_slash a then [[slash]] else []) ++ names a ++
    (if is_nil (names a) then [] else [[]]).
Proof.
  intros. rewrite append_text_before by auto. unfold elements.
  rewrite starts_before, names_before, ends_before by auto. cbn [names pieces filter is_nil negb].
  rewrite app_nil_r. cbn [is_nil]. f_equal. f_equal. destruct a; [reflexivity|]. cbn [is_nil negb andb].
  destruct (names (a :: a0)); reflexivity.
Qed.

Lemma after_before : forall a b, starts_slash b = false -> b <> [] ->
  after_last_slash (before a ++ b) = after_last_slash b.
Proof.
  intros a b Hb Hne. destruct (before_cases a) as [[-> _]|[H _]]; [reflexivity|].
  destruct (ends_split _ H) as [y ->]. rewrite <- app_assoc. cbn [app].
  destruct (last_slash_split b) as [Hno|(u & v & -> & Hv)].
  - rewrite after_last_slash_app, after_last_slash_noslash by auto. reflexivity.
  - change (y ++ slash :: u ++ slash :: v) with (y ++ (slash :: u) ++ slash :: v).
    rewrite app_assoc, !after_last_slash_app by auto. reflexivity.
Qed.

Lemma append_text_text : forall a b, is_text a -> is_text b -> is_text (append_text a b).
Proof.
  intros a b Ha Hb. destruct (starts_slash b) eqn:Hs.
  - unfold append_text. rewrite Hs. auto.
  - rewrite append_text_before by auto. destruct b as [|c b].
    + rewrite app_nil_r. unfold before. destruct (is_text_cases a Ha) as [->|[->|Hn]]; try reflexivity.
      destruct (is_nil (after_last_slash a)); [rewrite app_nil_r; auto|].
      apply names_is_text. rewrite names_app_sl. auto.
    + apply names_is_text. rewrite names_before. intros H. apply app_eq_nil in H as [_ H].
      apply only_slashes_names in H. cbn in *. rewrite Hs in H. discriminate.
Qed.

Lemma append_text_assoc : forall a b c, b <> [] ->
  append_text (append_text a b) c = append_text a (append_text b c).
Proof.
  intros a b c Hb. destruct (starts_slash c) eqn:Hc.
  - unfold append_text. rewrite Hc. cbn. rewrite Hc. reflexivity.
  - rewrite (append_text_before (append_text a b) c), (append_text_before b c) by auto.
    destruct (starts_slash b) eqn:Hs.
    + unfold append_text at 1. rewrite Hs. unfold append_text.
      rewrite starts_before, Hs by auto. reflexivity.
    + rewrite !append_text_before by (rewrite ?starts_before; auto).
      unfold before at 1. rewrite after_before by auto. unfold before at 3.
      rewrite <- !app_assoc. reflexivity.
Qed.

Lemma append_text_nil_l : forall b, append_text [] b = b.
Proof. intros. unfold append_text. destruct (starts_slash b); reflexivity. Qed.

(** * Parent and filename *)

Lemma root_cases : forall s, root_text s = [] /\ starts_slash s = false \/ root_text s = [slash] /\ starts_slash s = true.
Proof. intros. unfold root_text. destruct (starts_slash s); auto. Qed.

Lemma elements_parent_append : forall s, is_text s -> after_last_slash s <> [] ->
  elements (append_text (parent_text s) (after_last_slash s)) = elements s.
Proof.
  intros s Hs Ha.
  assert (Hno := noslash_after s).
  assert (Hst : starts_slash (after_last_slash s) = false).
  { destruct (after_last_slash s); auto. apply noslash_cons in Hno. cbn. tauto. }
  rewrite elements_append by auto.
  assert (Hn : names s <> []).
  { intros Hn. destruct (is_text_cases s Hs) as [->|[->|H]]; [apply Ha; reflexivity..|congruence]. }
  assert (He : ends_slash s = false).
  { destruct (ends_slash s) eqn:He; auto. apply ends_after in He. congruence. }
  rewrite (elements_noslash (after_last_slash s)) by auto.
  assert (Hnames : names s = removelast (names s) ++ [after_last_slash s]).
  { rewrite (app_removelast_last [] Hn) at 1. f_equal. f_equal.
    pose proof (upto_after s) as Hu. rewrite <- Hu at 1.
    destruct (last_slash_split s) as [H|(u & v & H & Hv)].
    - rewrite upto_last_slash_noslash, after_last_slash_noslash by auto. cbn [app].
      rewrite names_noslash; auto. intros ->. apply Hn. reflexivity.
    - subst s. rewrite (after_last_slash_app u v) in * by auto.
      rewrite upto_last_slash_app by auto. rewrite <- app_assoc. cbn [app]. rewrite names_app_slash, (names_noslash v) by auto.
      apply last_snoc. }
  pose proof (names_all s) as HF.
  assert (HF' : Forall goodname (removelast (names s))) by (apply removelast_Forall; auto).
  unfold parent_text. destruct (names s) as [|x l] eqn:Hx; [congruence|]. cbn [is_nil].
  rewrite <- Hx in *.
  assert (Hnp : names (root_text s ++ join (removelast (names s))) = removelast (names s)).
  { destruct (root_cases s) as [[-> _]|[-> _]]; cbn [app]; rewrite ?names_cons_slash; apply names_join; auto. }
  assert (Hsp : starts_slash (root_text s ++ join (removelast (names s))) = starts_slash s).
  { destruct (root_cases s) as [[-> ->]|[-> ->]]; cbn [app]; auto. apply starts_join. auto. }
  rewrite Hnp, Hsp. unfold elements. rewrite He. cbn [andb]. rewrite !app_nil_r. f_equal. symmetry. exact Hnames.
Qed.

(** * Normal form is canonical *)

Lemma normal_names : forall s, names (normal_text s) =
  match norm_stk s with [] => if starts_slash s then [] else [lit "."] | _ => rev (norm_stk s) end.
Proof.
  intros. unfold normal_text. rewrite names_final by apply norm_stk_good. destruct (norm_stk s); reflexivity.
Qed.

Lemma walk_norm_stk : forall s place, resolve place s =
  walk (if starts_slash s then [] else place) (rev (norm_stk s)).
Proof.
  intros. unfold resolve, norm_stk. symmetry.
  rewrite walk_reduce; auto using names_all, stk_ok_nil.
  destruct (starts_slash s); auto. discriminate.
Qed.

Lemma normal_text_canonical : forall s t, starts_slash s = starts_slash t ->
  (forall place, Forall (fun n => plain n = true /\ ~ In slash n) place -> resolve place s = resolve place t) ->
  plain (last (elements s) []) = plain (last (elements t) []) ->
  normal_text s = normal_text t.
Proof.
  intros s t Hst Hw Hd.
  assert (Hn : rev (norm_stk s) = rev (norm_stk t)).
  { apply (normal_unique (starts_slash s)).
    - apply stk_ok_normal, norm_stk_ok.
    - rewrite Hst. apply stk_ok_normal, norm_stk_ok.
    - intros place Hp Ha. specialize (Hw place Hp). rewrite !walk_norm_stk, <- Hst in Hw.
      destruct (starts_slash s); auto. rewrite Ha by auto. exact Hw. }
  assert (Hk : norm_stk s = norm_stk t) by (rewrite <- (rev_involutive (norm_stk s)), Hn; apply rev_involutive).
  unfold normal_text. rewrite Hst, Hk. unfold final_text. destruct (norm_stk t) as [|x r] eqn:Hx; auto.
  f_equal. destruct (is_updir x) eqn:Hu; [rewrite !andb_false_r; reflexivity|].
  rewrite (norm_tr_spec s x r), (norm_tr_spec t x r), Hd by auto. reflexivity.
Qed.

(** When the normal form ends with a slash (and is not the root). *)
Lemma normal_text_trailing : forall s, normal_text s <> [slash] -> ends_slash (normal_text s) = true <->
  (plain (last (elements s) []) = false /\
   exists n, last (names (normal_text s)) [] = n /\ plain n = true).
Proof.
  intros s Hns. rewrite normal_names. unfold normal_text in *. pose proof (norm_stk_good s) as HG.
  pose proof (norm_stk_ok s) as Hok.
  destruct (norm_stk s) as [|x r] eqn:Hx; cbn [final_text] in *.
  - destruct (starts_slash s); [congruence|]. split; [discriminate|].
    intros [_ (n & <- & H)]. discriminate.
  - inversion HG; subst. rewrite ends_nf by auto.
    replace (last (rev (x :: r)) []) with x by (symmetry; apply last_rev).
    destruct (stk_ok_head _ _ _ Hok) as [Hp|(-> & _)].
    + apply plain_not_up in Hp as Hu. rewrite Hu. cbn [negb]. rewrite andb_true_r.
      rewrite (norm_tr_spec s x r) by auto. split.
      * intros H'. apply negb_true_iff in H'. split; auto. eauto.
      * intros [H' _]. rewrite H'. reflexivity.
    + change (is_updir (lit "..")) with true. cbn [negb]. rewrite andb_false_r. split; [discriminate|].
      intros [_ (n & <- & H')]. discriminate.
Qed.

(** * Parent and filename again, for every representation parent_path returns *)

Lemma append_any : forall E g p b, has_root_name p = false ->
  has_filename Posix p = Ok (negb (is_nil (after_last_slash (native p)))) ->
  starts_slash b = false -> is_text b ->
  path_append Posix E g p (mkpath b) = Ok (mkpath (append_text (native p) b)).
Proof.
  intros E g p b Hrn Hf Hb Hbt. unfold path_append.
  rewrite is_absolute_mkpath, has_root_name_mkpath, has_root_directory_mkpath, Hb. cbn [andb orb].
  rewrite Hf. cbn [bind].
  replace (negb (has_root_directory Posix E p) && is_absolute Posix E p) with false.
  2:{ unfold is_absolute. rewrite Hrn, orb_false_r. destruct (has_root_directory Posix E p); reflexivity. }
  rewrite orb_false_r, mkpath_ptyp_rn.
  rewrite mkpath_no_rootname_lhs. change (pathname (mkpath b)) with (native (mkpath b)).
  rewrite native_is_text by auto. unfold append_text. rewrite Hb.
  change (pathname p) with (native p).
  destruct (is_nil (after_last_slash (native p))); cbn [negb]; destruct g; cbn [swap fst];
    rewrite ?path_eta, ?app_nil_r, <- ?app_assoc; reflexivity.
Qed.

Lemma parent_append : forall E s, exists q,
  parent_path Posix E (mkpath s) = Ok q /\
  has_root_name q = false /\
  has_filename Posix q = Ok (negb (is_nil (after_last_slash (native q)))).
Proof.
  intros E s. rewrite <- (mkpath_reported s).
  assert (Hs : is_text (reported_text s)) by apply reported_is_text.
  revert Hs. generalize (reported_text s). clear s. intros s Hs.
  destruct (parent_path_mkpath E s) as (q & Hq & Hn & _ & Hc). exists q. split; auto.
  assert (Hcan : canon q -> has_root_name q = false /\
     has_filename Posix q = Ok (negb (is_nil (after_last_slash (native q))))).
  { intros [->|[t ->]]; [split; reflexivity|]. rewrite has_root_name_mkpath, has_filename_mkpath.
    rewrite native_mkpath, after_last_reported. auto. }
  destruct (el_parent E) eqn:HE; [|auto].
  destruct (names s) as [|n ns] eqn:Hnn.
  { apply Hcan. unfold parent_path in Hq. rewrite has_relative_path_mkpath, Hnn in Hq. cbn in Hq.
    injection Hq as <-. apply canon_mkpath. }
  destruct (ptyp (mkpath s)) eqn:Hp.
  2:{ destruct (mkpath_shape s); discriminate. }
  2:{ apply Hcan. unfold parent_path in Hq. rewrite has_relative_path_mkpath, Hnn, Hp in Hq. cbn in Hq.
      injection Hq as <-. apply canon_default. }
  2:{ apply Hcan. unfold parent_path in Hq. rewrite has_relative_path_mkpath, Hnn, Hp in Hq. cbn in Hq.
      injection Hq as <-. apply canon_default. }
  assert (Hne : names s <> []) by congruence.
  rewrite parent_path_mkpath_multi in Hq by auto. rewrite HE in Hq. cbn [fin] in Hq. injection Hq as <-.
  assert (Hrt : reported_text s = s) by exact Hs.
  set (l := removelast (tok 0 [] s)) in *.
  assert (Hml : map c_str l = removelast (names s)).
  { unfold l. rewrite removelast_map, tok_names0. reflexivity. }
  assert (HF : Forall goodname (removelast (names s))) by (apply removelast_Forall, names_all).
  assert (Hty : forall c, In c l -> c_type c = FILENAME).
  { intros c Hc'. assert (In c (tok 0 [] s)).
    { unfold l in Hc'. clear - Hc'. induction (tok 0 [] s) as [|x m IH]; [destruct Hc'|]. cbn in Hc'.
      destruct m; [destruct Hc'|]. destruct Hc' as [->|Hc']; [left; auto|right; auto]. }
    eapply tok_types. eauto. }
  cbn [native pathname]. split.
  - unfold has_root_name. cbn [ptyp comps ptype_eqb orb].
    destruct (rootc s ++ l) as [|c r] eqn:Hrl; auto.
    assert (Hin : In c (rootc s ++ l)) by (rewrite Hrl; left; auto).
    apply in_app_or in Hin as [Hin|Hin]; [apply rootc_type in Hin|apply Hty in Hin]; rewrite Hin; reflexivity.
  - unfold parent_text. destruct (names s) as [|x y] eqn:Hx; [congruence|]. cbn [is_nil]. rewrite <- Hx in *.
    unfold has_filename, filename, empty. cbn [pathname ptyp comps].
    destruct l as [|c m _] using rev_ind.
    + cbn [map] in Hml. rewrite <- Hml. cbn [join]. rewrite app_nil_r.
      destruct (root_cases s) as [[-> _]|[-> _]]; reflexivity.
    + rewrite map_app in Hml. cbn [map] in Hml. rewrite <- Hml in *.
      assert (Hg : goodname (c_str c)) by (apply Forall_app in HF as [_ HF]; inversion HF; auto).
      assert (Hj : join (map c_str m ++ [c_str c]) <> []).
      { apply join_ne; auto. destruct (map c_str m); discriminate. }
      assert (Haft : after_last_slash (root_text s ++ join (map c_str m ++ [c_str c])) = c_str c).
      { pose proof (after_join _ _ HF) as Ha.
        destruct (root_cases s) as [[-> _]|[-> _]]; cbn [app]; auto.
        destruct (last_slash_split (join (map c_str m ++ [c_str c]))) as [H|(u & v & H & Hv)].
        - rewrite after_last_slash_noslash in Ha by auto. rewrite Ha.
          exact (after_last_slash_app [] (c_str c) (proj1 Hg)).
        - rewrite H in *. rewrite after_last_slash_app in Ha by auto. subst v.
          exact (after_last_slash_app (slash :: u) (c_str c) Hv). }
      destruct (root_text s ++ join (map c_str m ++ [c_str c])) as [|z t] eqn:Ht.
      { apply app_eq_nil in Ht as [_ Ht]. congruence. }
      cbn [is_nil]. rewrite last_pref.
      assert (ends_slash (z :: t) = false) as ->.
      { destruct (ends_slash (z :: t)) eqn:He; auto. apply ends_after in He. destruct Hg. congruence. }
      rewrite app_assoc, map_app. cbn [map]. rewrite last_snoc. rewrite (Hty c) by (apply in_or_app; right; left; auto).
      cbn [ptype_eqb bind]. rewrite Haft. reflexivity.
Qed.

(** * Extension *)

Lemma stem_dotted : forall st r, st <> [] -> st <> lit "." -> r <> [] -> ~ In dot (tl r) -> (hd dot r = dot \/ ~ In dot r) ->
  is_stem_ext (st ++ dotted r) st (dotted r).
Proof.
  intros st r H1 H2 H3 H4 H5. split; auto. right. unfold dotted. destruct r as [|c r]; [congruence|].
  cbn in H4, H5.
  assert (Hne : forall x, st ++ dot :: x <> lit "..").
  { intros x Hx. destruct st as [|a [|b st]]; [congruence| |destruct st; discriminate].
    cbn in Hx. injection Hx as -> _. apply H2. reflexivity. }
  destruct (Ascii.eqb c dot) eqn:Hc.
  - apply Ascii.eqb_eq in Hc. subst c. exists r. repeat split; auto.
  - exists (c :: r). repeat split; auto. intros Hin. destruct H5 as [->|H5]; [discriminate|]. auto.
Qed.

Lemma ext_text_dotted : forall f, dotted (ext_text f) = ext_text f.
Proof.
  intros. destruct (stem_ext_ok f) as [_ [[-> _]|(x & -> & _)]]; reflexivity.
Qed.

Lemma stem_ext_app : forall f, stem_text f ++ ext_text f = f.
Proof. intros. destruct (stem_ext_ok f) as [H _]. auto. Qed.
