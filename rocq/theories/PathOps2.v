(** Constructed POSIX paths, continued: parent, stem, extension, comparison, iteration,
    generic format, streams. *)
From Coq Require Import Ascii String Bool Arith NArith ZArith Lia List.
From Verif Require Import Str PathModel PathSpec StrProofs PathProofs PathOps.
Import ListNotations.

Definition goodname (n : str) : Prop := noslash n /\ n <> [].

(** * Joined names *)

Lemma join_cons : forall x r, r <> [] -> join (x :: r) = x ++ slash :: join r.
Proof. intros. destruct r; [congruence|reflexivity]. Qed.

Lemma join_snoc : forall l x, l <> [] -> join (l ++ [x]) = join l ++ slash :: x.
Proof.
  induction l as [|y l IH]; intros; [congruence|].
  destruct l as [|z l].
  - reflexivity.
  - cbn [app]. rewrite !(join_cons y) by (destruct l; discriminate).
    change (z :: l ++ [x]) with ((z :: l) ++ [x]). rewrite IH by congruence.
    rewrite <- app_assoc. reflexivity.
Qed.

Lemma join_app : forall l m, l <> [] -> m <> [] -> join (l ++ m) = join l ++ slash :: join m.
Proof.
  induction l as [|y l IH]; intros; [congruence|].
  destruct l as [|z l].
  - cbn [app]. rewrite join_cons by auto. reflexivity.
  - cbn [app]. rewrite !(join_cons y) by discriminate.
    change (z :: l ++ m) with ((z :: l) ++ m). rewrite IH by congruence.
    rewrite <- app_assoc. reflexivity.
Qed.

Lemma names_join : forall l, Forall goodname l -> names (join l) = l.
Proof.
  induction 1 as [|x r [H1 H2] H IH]; [reflexivity|].
  destruct r.
  - apply names_noslash; auto.
  - rewrite join_cons by congruence. rewrite names_app_slash, IH, names_noslash by auto. reflexivity.
Qed.

Lemma starts_join : forall l, Forall goodname l -> starts_slash (join l) = false.
Proof.
  destruct 1 as [|x r [H1 H2] H]; [reflexivity|].
  assert (starts_slash x = false) by (destruct x; auto; apply noslash_cons in H1; cbn; tauto).
  destruct r; auto. rewrite join_cons by congruence. destruct x; [congruence|]. auto.
Qed.

Lemma ends_join : forall l, Forall goodname l -> ends_slash (join l) = false.
Proof.
  intros l H. destruct l as [|y m _] using rev_ind; [reflexivity|].
  apply Forall_app in H as [H1 H2]. inversion H2 as [|? ? [Hy1 Hy2] _]; subst.
  destruct m.
  - apply noslash_ends. auto.
  - rewrite join_snoc by congruence. change (slash :: y) with ([slash] ++ y).
    rewrite app_assoc, ends_slash_app by auto. apply noslash_ends. auto.
Qed.

Lemma join_ne : forall l, Forall goodname l -> l <> [] -> join l <> [].
Proof.
  intros l H Hl Hj. apply names_join in H. rewrite Hj in H. apply Hl. symmetry. exact H.
Qed.

Lemma after_join : forall l n, Forall goodname (l ++ [n]) -> after_last_slash (join (l ++ [n])) = n.
Proof.
  intros. apply Forall_app in H as [H1 H2]. inversion H2 as [|? ? [Hy1 Hy2] _]; subst.
  destruct l.
  - apply after_last_slash_noslash. auto.
  - rewrite join_snoc by congruence. apply after_last_slash_app. auto.
Qed.

Lemma upto_join : forall l n, Forall goodname (l ++ [n]) ->
  upto_last_slash (join (l ++ [n])) = match l with [] => [] | _ => join l ++ [slash] end.
Proof.
  intros. apply Forall_app in H as [H1 H2]. inversion H2 as [|? ? [Hy1 Hy2] _]; subst.
  destruct l.
  - apply upto_last_slash_noslash. auto.
  - rewrite join_snoc by congruence. apply upto_last_slash_app. auto.
Qed.

Lemma removelast_Forall : forall A (P : A -> Prop) l, Forall P l -> Forall P (removelast l).
Proof.
  induction 1; cbn; auto. destruct l; auto.
Qed.

(** * parent_path *)

Definition root_text (s : str) : str := if starts_slash s then [slash] else [].

Definition parent_text (s : str) : str :=
  if is_nil (names s) then s else root_text s ++ join (removelast (names s)).

Lemma append_sep_eq : forall t, append_sep_if_needed Posix t =
  if is_nil t || ends_slash t then t else t ++ [slash].
Proof.
  intros. unfold append_sep_if_needed. pose proof (last_sep t) as H.
  destruct t as [|c t]; [reflexivity|]. cbn [is_nil orb].
  destruct (last (map Some (c :: t)) None) eqn:Hl.
  - cbn [orb]. rewrite H. reflexivity.
  - exfalso. assert (Hne : c :: t <> []) by congruence. destruct (exists_last Hne) as (l & x & Hx).
    rewrite Hx, last_map_Some in Hl. discriminate.
Qed.

Lemma rebuild_names : forall l acc, l <> [] -> Forall goodname (map c_str l) ->
  rebuild Posix l acc = acc ++ join (map c_str l).
Proof.
  induction l as [|c l IH]; intros acc Hne HF; [congruence|].
  cbn [map] in *. inversion HF as [|? ? [H1 H2] HF']; subst.
  destruct l as [|d r].
  - reflexivity.
  - change (rebuild Posix (c :: d :: r) acc) with (rebuild Posix (d :: r) (append_sep_if_needed Posix (acc ++ c_str c))).
    rewrite IH by (auto; congruence). rewrite append_sep_eq.
    rewrite ends_slash_app by auto. rewrite noslash_ends by auto.
    destruct (acc ++ c_str c) eqn:Ha.
    { apply app_eq_nil in Ha as [_ Ha]. congruence. }
    cbn [is_nil orb map]. rewrite <- Ha. rewrite (join_cons (c_str c)) by discriminate.
    rewrite <- !app_assoc. reflexivity.
Qed.

Lemma rebuild_root : forall l, Forall goodname (map c_str l) ->
  rebuild Posix (Comp [slash] ROOT_DIR 0 :: l) [] = [slash] ++ join (map c_str l).
Proof.
  intros. destruct l as [|c l].
  - reflexivity.
  - change (rebuild Posix (Comp [slash] ROOT_DIR 0 :: c :: l) [])
      with (rebuild Posix (c :: l) [slash]).
    apply rebuild_names; auto. congruence.
Qed.

Lemma drop_end_mkcomps : forall s, names s <> [] ->
  drop_end (mkcomps s) = Ok (rootc s ++ removelast (tok 0 [] s)).
Proof.
  intros. unfold mkcomps, trailc.
  assert (Ht : tok 0 [] s <> []) by (intros Hx; apply tok_nil_names in Hx; congruence).
  pose proof (tok_names0 s) as HN. pose proof (names_all s) as HF.
  destruct (exists_last Ht) as (t & c & Hc). rewrite Hc in *. rewrite removelast_last.
  destruct (ends_slash s).
  - cbn [andb]. destruct (names s); [congruence|]. cbn [is_nil negb].
    unfold drop_end. rewrite !app_assoc, !rev_snoc. cbn [is_nil c_str].
    rewrite rev_involutive. reflexivity.
  - cbn [andb]. rewrite app_nil_r. unfold drop_end. rewrite app_assoc, rev_snoc.
    assert (c_str c <> []) as Hcs.
    { rewrite map_app in HN. rewrite <- HN in HF. apply Forall_app in HF as [_ HF].
      inversion HF as [|? ? [_ Hx] _]. auto. }
    destruct (c_str c); [congruence|]. cbn [is_nil]. rewrite rev_involutive. reflexivity.
Qed.

Lemma removelast_map : forall A B (f : A -> B) l, map f (removelast l) = removelast (map f l).
Proof.
  induction l as [|x l IH]; auto. cbn [removelast map]. destruct l as [|y l]; auto.
  change (map f (x :: removelast (y :: l)) = f x :: removelast (map f (y :: l))). cbn [map]. rewrite IH. reflexivity.
Qed.

Lemma elements_root_join : forall (b : bool) l, Forall goodname l ->
  elements ((if b then [slash] else []) ++ join l) = (if b then [[slash]] else []) ++ l.
Proof.
  intros b l H. pose proof (names_join l H) as Hn. pose proof (ends_join l H) as He.
  pose proof (starts_join l H) as Hs. unfold elements.
  destruct b; cbn [app].
  - rewrite names_cons_slash, Hn. cbn [starts_slash]. rewrite is_slash_slash.
    destruct l as [|x l].
    + reflexivity.
    + change (slash :: join (x :: l)) with ([slash] ++ join (x :: l)).
      rewrite ends_slash_app by (apply join_ne; auto; congruence). rewrite He. cbn. rewrite app_nil_r. reflexivity.
  - rewrite Hs, Hn, He. cbn. apply app_nil_r.
Qed.

Lemma parent_elements_eq : forall s, names s <> [] ->
  parent_elements (elements s) = (if starts_slash s then [[slash]] else []) ++ removelast (names s).
Proof.
  intros. unfold elements. pose proof (names_all s) as HF.
  destruct (exists_last H) as (l & n & Hn). rewrite Hn in *. rewrite removelast_last.
  apply Forall_app in HF as [_ HF]. inversion HF as [|? ? [_ Hx] _]; subst.
  unfold parent_elements. destruct (ends_slash s); cbn [andb].
  - destruct (l ++ [n]) eqn:Hl; [destruct l; discriminate|]. cbn [is_nil negb]. rewrite <- Hl.
    rewrite !app_assoc, !rev_snoc. cbn [is_nil tl]. rewrite rev_involutive. reflexivity.
  - rewrite app_nil_r, app_assoc, rev_snoc. destruct n; [congruence|]. cbn [is_nil].
    rewrite rev_involutive. reflexivity.
Qed.

Lemma elements_parent_text : forall s, names s <> [] ->
  elements (parent_text s) = parent_elements (elements s).
Proof.
  intros. rewrite parent_elements_eq by auto. unfold parent_text, root_text.
  destruct (names s) eqn:Hn; [congruence|]. cbn [is_nil]. rewrite <- Hn.
  apply elements_root_join. apply removelast_Forall, names_all.
Qed.

(** The result before the [return] of the MULTI case. *)
Lemma parent_path_mkpath_multi : forall E s, names s <> [] -> ptyp (mkpath s) = MULTI ->
  parent_path Posix E (mkpath s) =
  Ok (fin Posix (el_parent E) (Path (parent_text s) (rootc s ++ removelast (tok 0 [] s)) MULTI)).
Proof.
  intros E s Hn Hm. unfold parent_path. rewrite has_relative_path_mkpath. cbn [bind].
  destruct (names s) eqn:Hnn; [congruence|]. cbn [is_nil negb].
  destruct (mkpath_shape s) as [->|H1 H2|H1 H2|H1 H2 H3]; try discriminate.
  cbn [ptyp comps]. rewrite drop_end_mkcomps by auto. cbn [bind]. f_equal. f_equal. f_equal.
  unfold parent_text, root_text. rewrite Hnn. cbn [is_nil].
  rewrite <- Hnn, <- tok_names0, <- removelast_map.
  assert (HF : Forall goodname (map c_str (removelast (tok 0 [] s)))).
  { rewrite removelast_map, tok_names0. apply removelast_Forall, names_all. }
  destruct (rootc_cases s) as [[Hs Hr]|[Hs Hr]]; rewrite Hs, Hr; cbn [app].
  - apply rebuild_root. auto.
  - destruct (removelast (tok 0 [] s)) eqn:Hrl; [reflexivity|].
    rewrite rebuild_names; auto. congruence.
Qed.

Lemma parent_comps : forall s,
  map c_str (rootc s ++ removelast (tok 0 [] s)) =
  (if starts_slash s then [[slash]] else []) ++ removelast (names s).
Proof.
  intros. rewrite map_app, removelast_map, tok_names0. unfold rootc. destruct (starts_slash s); reflexivity.
Qed.

Lemma elems_multi : forall t l, map native (elems (Path t l MULTI)) = map c_str l.
Proof. intros. cbn. rewrite map_map. reflexivity. Qed.

Lemma parent_text_is_text : forall s, is_text s -> is_text (parent_text s).
Proof.
  intros. unfold parent_text. destruct (names s) eqn:Hn; cbn [is_nil]; auto. rewrite <- Hn.
  destruct (removelast (names s)) eqn:Hr.
  - cbn [join]. rewrite app_nil_r. unfold root_text. destruct (starts_slash s); reflexivity.
  - apply names_is_text. rewrite <- Hr. unfold root_text.
    assert (Hj : names (join (removelast (names s))) = removelast (names s)).
    { apply names_join, removelast_Forall, names_all. }
    destruct (starts_slash s); cbn [app]; rewrite ?names_cons_slash, Hj; congruence.
Qed.

Lemma parent_path_mkpath : forall E s, exists q,
  parent_path Posix E (mkpath s) = Ok q /\ native q = parent_text (reported_text s) /\
  map native (elems q) = elements (parent_text (reported_text s)) /\
  (el_parent E = false -> canon q).
Proof.
  intros. rewrite <- (mkpath_reported s).
  assert (Hs : is_text (reported_text s)) by apply reported_is_text.
  revert Hs. generalize (reported_text s). clear s. intros s Hs.
  assert (Hdone : names s = [] -> exists q,
    parent_path Posix E (mkpath s) = Ok q /\ native q = parent_text s /\
    map native (elems q) = elements (parent_text s) /\ (el_parent E = false -> canon q)).
  { intros Hn. unfold parent_path. rewrite has_relative_path_mkpath. rewrite Hn. cbn [bind is_nil negb].
    eexists. split; [reflexivity|]. unfold parent_text. rewrite Hn. cbn [is_nil].
    rewrite elems_mkpath, native_is_text by auto. auto using canon_mkpath. }
  destruct (is_text_cases s Hs) as [->|[->|Hn]]; [auto|auto|].
  destruct (ptyp (mkpath s)) eqn:Hp.
  - rewrite parent_path_mkpath_multi by auto. eexists. split; [reflexivity|].
    rewrite elements_parent_text, parent_elements_eq by auto.
    unfold fin. destruct (el_parent E) eqn:He.
    + rewrite elems_multi, parent_comps. repeat split; auto. congruence.
    + cbn [pathname]. rewrite native_is_text by (apply parent_text_is_text; auto).
      rewrite elems_mkpath, elements_parent_text, parent_elements_eq by auto. auto using canon_mkpath.
  - destruct (mkpath_shape s); discriminate.
  - destruct (mkpath_shape s) as [->|H1 H2|H1 H2|H1 H2 H3]; try discriminate.
    apply only_slashes_names in H2. congruence.
  - assert (Hno : noslash s).
    { destruct (mkpath_shape s) as [->|H1 H2|H1 H2|H1 H2 H3]; try discriminate; auto. reflexivity. }
    unfold parent_path. rewrite has_relative_path_mkpath. rewrite Hp.
    destruct (names s) eqn:Hnn; [congruence|]. cbn [bind is_nil negb].
    eexists. split; [reflexivity|]. unfold parent_text. rewrite Hnn. cbn [is_nil].
    assert (s <> []) by (intros ->; discriminate).
    rewrite names_noslash in Hnn by auto. injection Hnn as <- <-. cbn [removelast join].
    rewrite app_nil_r. unfold root_text.
    assert (starts_slash s = false) as -> by (destruct s; auto; apply noslash_cons in Hno; cbn; tauto).
    auto using canon_default.
Qed.

(** * Stem and extension *)

Definition ext_pos (f : str) : option nat :=
  match f with
  | [] => None
  | c0 :: _ => if (length f <=? 2) && Ascii.eqb c0 dot then None
               else match rfind dot f with Some 0 => None | o => o end
  end.
Definition stem_text (f : str) : str := match ext_pos f with Some n => firstn n f | None => f end.
Definition ext_text (f : str) : str := match ext_pos f with Some n => skipn n f | None => [] end.

Lemma ext_pos_pos : forall f, ext_pos f <> Some 0.
Proof.
  intros. unfold ext_pos. destruct f; [discriminate|]. destruct (_ && _); [discriminate|].
  destruct (rfind dot (a :: f)) as [[|n]|]; discriminate.
Qed.

Lemma find_extension_mkpath : forall s,
  (after_last_slash s = [] -> find_extension (mkpath s) = None) /\
  (after_last_slash s <> [] -> exists x, find_extension (mkpath s) = Some (x, ext_pos (after_last_slash s)) /\
     ext_str x = after_last_slash s /\
     (x = ExtSelf (after_last_slash s) /\ upto_last_slash s = [] \/
      x = ExtBack (Comp (after_last_slash s) FILENAME (length (upto_last_slash s))))).
Proof.
  assert (FE : forall x, ext_str x <> [] ->
    match ext_str x with
    | [] => None
    | c0 :: _ =>
        if (length (ext_str x) <=? 2) && Ascii.eqb c0 dot then Some (x, None)
        else match rfind dot (ext_str x) with Some 0 => Some (x, None) | o => Some (x, o) end
    end = Some (x, ext_pos (ext_str x))).
  { intros x Hx. unfold ext_pos. destruct (ext_str x) as [|c f]; [congruence|].
    destruct (_ && _); auto. destruct (rfind dot (c :: f)) as [[|n]|]; auto. }
  intros s. unfold find_extension.
  destruct (mkpath_shape s) as [->|H1 H2|H1 H2|H1 H2 H3]; cbn [ptyp comps pathname].
  - split; [reflexivity|]. intros H. exfalso. apply H. reflexivity.
  - rewrite ends_after by (apply only_slashes_ends; auto). split; [reflexivity|congruence].
  - rewrite after_last_slash_noslash by auto. split; [congruence|]. intros _.
    exists (ExtSelf s). rewrite FE by auto. rewrite upto_last_slash_noslash by auto. auto.
  - destruct (mkcomps_last s H2) as (l & -> & _ & _). rewrite last_map_Some. cbn [c_type ptype_eqb].
    split; intros Hf.
    + rewrite Hf. reflexivity.
    + exists (ExtBack (Comp (after_last_slash s) FILENAME (length (upto_last_slash s)))).
      rewrite FE by auto. auto.
Qed.

Lemma noslash_firstn : forall n f, noslash f -> noslash (firstn n f).
Proof. intros. rewrite <- (firstn_skipn n f) in H. apply noslash_app in H. tauto. Qed.
Lemma noslash_skipn : forall n f, noslash f -> noslash (skipn n f).
Proof. intros. rewrite <- (firstn_skipn n f) in H. apply noslash_app in H. tauto. Qed.

Lemma stem_text_noslash : forall f, noslash f -> noslash (stem_text f).
Proof. intros. unfold stem_text. destruct (ext_pos f); auto. apply noslash_firstn. auto. Qed.
Lemma ext_text_noslash : forall f, noslash f -> noslash (ext_text f).
Proof. intros. unfold ext_text. destruct (ext_pos f); [|reflexivity]. apply noslash_skipn. auto. Qed.

Lemma stem_mkpath : forall s, native (stem Posix (mkpath s)) = stem_text (after_last_slash s) /\
  canon (stem Posix (mkpath s)).
Proof.
  intros. unfold stem. destruct (find_extension_mkpath s) as [H1 H2].
  pose proof (noslash_after s) as Hno.
  destruct (after_last_slash s) as [|c f] eqn:Hf.
  - rewrite H1 by auto. split; [reflexivity|apply canon_default].
  - destruct H2 as (x & -> & Hx & _); [congruence|]. rewrite Hx.
    unfold stem_text. pose proof (ext_pos_pos (c :: f)).
    destruct (ext_pos (c :: f)) as [[|n]|] eqn:Hp; [congruence| |].
    + split; [|apply canon_mkpath]. apply native_is_text, noslash_text.
      apply (noslash_firstn (S n) (c :: f)). auto.
    + split; [|apply canon_mkpath]. apply native_is_text, noslash_text. auto.
Qed.

Lemma extension_mkpath : forall s, native (extension Posix (mkpath s)) = ext_text (after_last_slash s) /\
  canon (extension Posix (mkpath s)).
Proof.
  intros. unfold extension. destruct (find_extension_mkpath s) as [H1 H2].
  pose proof (noslash_after s) as Hno.
  destruct (after_last_slash s) as [|c f] eqn:Hf.
  - rewrite H1 by auto. split; [reflexivity|apply canon_default].
  - destruct H2 as (x & -> & Hx & _); [congruence|]. rewrite Hx.
    unfold ext_text. pose proof (ext_pos_pos (c :: f)).
    destruct (ext_pos (c :: f)) as [[|n]|] eqn:Hp; [congruence| |].
    + split; [|apply canon_mkpath]. apply native_is_text, noslash_text.
      apply noslash_skipn. auto.
    + split; [reflexivity|apply canon_default].
Qed.

Lemma has_stem_mkpath : forall s, has_stem (mkpath s) = negb (is_nil (after_last_slash s)).
Proof.
  intros. unfold has_stem. destruct (find_extension_mkpath s) as [H1 H2].
  destruct (after_last_slash s) as [|c f] eqn:Hf.
  - rewrite H1 by auto. reflexivity.
  - destruct H2 as (x & -> & Hx & _); [congruence|]. reflexivity.
Qed.

Lemma ext_text_nil : forall f, ext_text f = [] <-> ext_pos f = None.
Proof.
  intros. unfold ext_text. destruct (ext_pos f) eqn:Hp; [|tauto]. split; [|discriminate].
  intros Hs. exfalso. unfold ext_pos in Hp. destruct f; [discriminate|].
  destruct (_ && _); [discriminate|].
  destruct (rfind dot (a :: f)) as [[|m]|] eqn:Hr; try discriminate. injection Hp as <-.
  apply rfind_Some in Hr as (x & y & Hxy & Hl & _). rewrite Hxy in Hs.
  rewrite skipn_exact in Hs by auto. discriminate.
Qed.

Lemma has_extension_mkpath : forall s, has_extension (mkpath s) = negb (is_nil (ext_text (after_last_slash s))).
Proof.
  intros. unfold has_extension. destruct (find_extension_mkpath s) as [H1 H2].
  destruct (after_last_slash s) as [|c f] eqn:Hf.
  - rewrite H1 by auto. reflexivity.
  - destruct H2 as (x & -> & Hx & _); [congruence|].
    pose proof (ext_text_nil (c :: f)) as Hn. pose proof (ext_pos_pos (c :: f)).
    destruct (ext_pos (c :: f)) as [[|n]|] eqn:Hp; [congruence| |].
    + destruct (ext_text (c :: f)); [|reflexivity]. destruct Hn as [Hn _]. discriminate Hn; auto.
    + destruct Hn as [_ Hn]. rewrite Hn; reflexivity.
Qed.

(** Agreement with the specification of stems and extensions. *)
Lemma stem_ext_ok : forall f, is_stem_ext f (stem_text f) (ext_text f).
Proof.
  intros f. unfold is_stem_ext, stem_text, ext_text. destruct (ext_pos f) eqn:Hp.
  - split; [rewrite firstn_skipn; reflexivity|]. right.
    unfold ext_pos in Hp. destruct f as [|c f]; [discriminate|].
    destruct (_ && _) eqn:Hc; [discriminate|].
    destruct (rfind dot (c :: f)) as [[|m]|] eqn:Hr; try discriminate. injection Hp as <-.
    apply rfind_Some in Hr as (x & y & Hxy & Hl & Hn).
    rewrite Hxy. rewrite skipn_exact, firstn_exact by auto.
    exists y. repeat split; auto.
    + destruct x; cbn in Hl; congruence.
    + intros Heq. rewrite Heq in Hxy. change (lit "..") with [dot; dot] in Hxy.
      injection Hxy as -> ->. discriminate Hc.
  - split; [rewrite app_nil_r; reflexivity|]. left. split; auto.
    unfold ext_pos in Hp. destruct f as [|c f]; [right; right; intros []|].
    destruct (_ && _) eqn:Hc.
    + apply andb_true_iff in Hc as [Hl Hc]. apply Ascii.eqb_eq in Hc. subst c.
      apply Nat.leb_le in Hl. destruct f as [|d [|e f]]; cbn in Hl; try lia.
      * left. reflexivity.
      * destruct (ascii_dec d dot) as [->|Hd]; [right; left; reflexivity|].
        right; right. cbn. intros [H|[]]. congruence.
    + destruct (rfind dot (c :: f)) as [[|m]|] eqn:Hr; try discriminate.
      * apply rfind_Some in Hr as (x & y & Hxy & Hl & Hn). destruct x; [|discriminate].
        injection Hxy as -> ->. right; right. exact Hn.
      * apply rfind_None in Hr. right; right. cbn in *. tauto.
Qed.

Lemma stem_ext_unique : forall f s1 e1 s2 e2, is_stem_ext f s1 e1 -> is_stem_ext f s2 e2 -> s1 = s2 /\ e1 = e2.
Proof.
  assert (L : forall a x b y, ~ In dot x -> ~ In dot y -> a ++ dot :: x = b ++ dot :: y -> a = b /\ x = y).
  { induction a as [|c a IH]; intros x b y Hx Hy Heq; destruct b as [|d b]; cbn in Heq.
    - injection Heq as ->. auto.
    - injection Heq as _ Ht. exfalso. apply Hx. rewrite Ht. apply in_or_app. right. left. reflexivity.
    - injection Heq as _ Ht. exfalso. apply Hy. rewrite <- Ht. apply in_or_app. right. left. reflexivity.
    - injection Heq as -> Heq. apply IH in Heq as [-> ->]; auto. }
  assert (X : forall f s x, f = s ++ dot :: x -> ~ In dot x -> s <> [] -> f <> lit ".." ->
     ~ (f = lit "." \/ f = lit ".." \/ ~ In dot (tl f))).
  { intros f s x -> Hx Hs Hd [H|[H|H]].
    - destruct s as [|? [|? ?]]; cbn in H; congruence.
    - congruence.
    - apply H. destruct s; [congruence|]. cbn. apply in_or_app. right. left. reflexivity. }
  intros f s1 e1 s2 e2 [H1 [[E1 C1]|(x1 & E1 & N1 & S1 & D1)]] [H2 [[E2 C2]|(x2 & E2 & N2 & S2 & D2)]];
    subst e1 e2.
  - rewrite app_nil_r in *. subst. auto.
  - exfalso. eapply X; eauto.
  - exfalso. eapply X; eauto.
  - rewrite H1 in H2. apply L in H2 as [-> ->]; auto.
Qed.

(** * replace_extension and replace_filename *)

Definition dotted (r : str) : str :=
  match r with [] => [] | c :: _ => if Ascii.eqb c dot then r else dot :: r end.

Lemma replace_extension_canon : forall s r, is_text s ->
  replace_extension Posix (mkpath s) r =
  Ok (mkpath (upto_last_slash s ++ stem_text (after_last_slash s) ++ dotted (native r))).
Proof.
  intros s r Hs. unfold replace_extension.
  assert (Hd : forall t, (match pathname r with
            | c :: _ => if Ascii.eqb c dot then t else t ++ [dot]
            | [] => t end) ++ pathname r = t ++ dotted (native r)).
  { intros t. unfold native, dotted. destruct (pathname r) as [|c q]; auto.
    destruct (Ascii.eqb c dot); auto. rewrite <- app_assoc. reflexivity. }
  assert (Ht : forall t, bind (Ok t) (fun t => Ok (mkpath (match pathname r with
            | c :: _ => if Ascii.eqb c dot then t else t ++ [dot]
            | [] => t end ++ pathname r))) = Ok (mkpath (t ++ dotted (native r)))).
  { intros. cbn [bind]. rewrite Hd. reflexivity. }
  destruct (find_extension_mkpath s) as [H1 H2].
  assert (Hnat : pathname (mkpath s) = s) by (apply native_is_text; auto).
  destruct (after_last_slash s) as [|c f] eqn:Hf.
  - rewrite H1 by auto. rewrite Hnat, Ht. f_equal. f_equal.
    rewrite <- (upto_after s) at 1. rewrite Hf. cbn [stem_text ext_pos]. rewrite app_nil_r. reflexivity.
  - destruct H2 as (x & -> & Hx & Hsrc); [congruence|].
    assert (Hpos : forall n, ext_pos (c :: f) = Some n -> n <= length (c :: f)).
    { intros n Hn. unfold ext_pos in Hn. destruct (_ && _); [discriminate|].
      destruct (rfind dot (c :: f)) as [[|m]|] eqn:Hr; try discriminate. injection Hn as <-.
      apply rfind_Some in Hr as (a & b & -> & Hl & _). rewrite app_length. lia. }
    assert (He : forall n, ext_pos (c :: f) = Some n ->
       str_erase s (length (upto_last_slash s) + n) = Ok (upto_last_slash s ++ stem_text (c :: f))).
    { intros n Hn. unfold str_erase, stem_text. rewrite Hn. pose proof (Hpos n Hn).
      pose proof (upto_after s) as Hu. rewrite Hf in Hu.
      rewrite (proj2 (Nat.leb_le _ _)).
      2:{ rewrite <- Hu at 2. rewrite app_length. lia. }
      f_equal. rewrite <- Hu at 2. rewrite firstn_app_2. reflexivity. }
    assert (Hnone : ext_pos (c :: f) = None -> s = upto_last_slash s ++ stem_text (c :: f)).
    { intros Hn. unfold stem_text. rewrite Hn, <- Hf. symmetry. apply upto_after. }
    rewrite Hnat.
    destruct Hsrc as [[-> Hup]| ->]; destruct (ext_pos (c :: f)) as [n|] eqn:Hp.
    + specialize (He n eq_refl). rewrite Hup in He. cbn [length Nat.add] in He.
      rewrite He, Ht, Hup. rewrite <- app_assoc. reflexivity.
    + rewrite Ht, app_assoc. rewrite <- Hnone by auto. reflexivity.
    + cbn [c_pos]. rewrite He, Ht, app_assoc by auto. reflexivity.
    + rewrite Ht, app_assoc. rewrite <- Hnone by auto. reflexivity.
Qed.

(** * Comparison *)

(** What a path shows through iteration, with the facts comparison relies on. *)
Definition shows (p : path) (e : list str) : Prop :=
  map native (elems p) = e /\ (e = [] <-> empty p = true) /\ (forall x r, e = x :: r -> x <> []).

Lemma elements_head : forall s x r, elements s = x :: r -> x <> [].
Proof.
  intros s x r H. unfold elements in H. pose proof (names_all s) as HF.
  destruct (starts_slash s); cbn [app] in H; [injection H as <- _; congruence|].
  destruct (names s) as [|n l].
  - rewrite andb_false_r in H. discriminate.
  - cbn in H. injection H as <- _. inversion HF as [|? ? [_ Hx] _]. auto.
Qed.

Lemma elements_nil : forall s, elements s = [] <-> s = [].
Proof.
  intros. split; [|intros ->; reflexivity]. intros H. unfold elements in H.
  apply app_eq_nil in H as [H1 H2]. apply app_eq_nil in H2 as [H2 H3].
  apply only_slashes_names in H2. destruct s; auto. cbn in H1, H2.
  destruct (is_slash a); discriminate.
Qed.

Lemma shows_mkpath : forall s, shows (mkpath s) (elements s).
Proof.
  intros. split; [apply elems_mkpath|]. split; [|intros; eapply elements_head; eauto].
  rewrite elements_nil. unfold empty. change (pathname ?p) with (native p). rewrite native_mkpath.
  unfold reported_text. destruct s; [tauto|]. cbn [is_nil negb andb].
  destruct (only_slashes (a :: s)); cbn; split; discriminate.
Qed.

Lemma shows_default : shows path_default [].
Proof. repeat split; auto; discriminate. Qed.

Lemma shows_canon : forall p, canon p -> shows p (elements (native p)).
Proof.
  intros p [->|[s ->]].
  - apply shows_default.
  - rewrite native_mkpath, elements_reported. apply shows_mkpath.
Qed.

Lemma do_compare_lex : forall a b k, (0 < k)%Z -> Z.sgn (do_compare a b k) = cmp_sign (lex_compare a b).
Proof.
  induction a as [|x a IH]; destruct b as [|y b]; intros k Hk; cbn [do_compare lex_compare]; auto.
  - cbn [cmp_sign]. lia.
  - cbn [cmp_sign]. lia.
  - destruct (str_compare x y); cbn [cmp_sign]; try lia. apply IH. lia.
Qed.

Lemma compare_shows : forall p q e f, shows p e -> shows q f ->
  Z.sgn (compare p q) = cmp_sign (lex_compare e f).
Proof.
  intros p q e f Hp Hq.
  destruct (empty p && empty q) eqn:Hpq.
  { unfold compare. rewrite Hpq. apply andb_true_iff in Hpq as [Ep Eq].
    destruct Hp as [_ [Hpe _]], Hq as [_ [Hqf _]].
    rewrite (proj2 Hpe Ep), (proj2 Hqf Eq). reflexivity. }
  set (ce := fun r => match ptyp r with MULTI => map c_str (comps r) | _ => [pathname r] end).
  assert (Hc : Z.sgn (compare p q) = cmp_sign (lex_compare (ce p) (ce q))).
  { unfold compare, ce. rewrite Hpq.
    destruct (ptyp p), (ptyp q); try (apply do_compare_lex; lia);
      cbn [lex_compare]; destruct (str_compare (pathname p) (pathname q)); reflexivity. }
  assert (Hce : forall r g, shows r g -> ce r = g \/ (g = [] /\ ce r = [[]])).
  { intros r g [Hg [Hgn _]]. unfold ce, elems in *.
    destruct (ptyp r); [left; rewrite <- Hg, map_map; reflexivity| | | ];
      (destruct (empty r) eqn:Er; [right|left];
       [apply is_nil_true in Er; rewrite Er; auto | rewrite <- Hg; reflexivity]). }
  rewrite Hc. f_equal.
  destruct (Hce p e Hp) as [Ep|[Ee Ep]], (Hce q f Hq) as [Eq|[Ef Eq]]; rewrite Ep, Eq; auto.
  - subst f. destruct e as [|x e].
    + exfalso. destruct Hp as [_ [[Hpe _] _]], Hq as [_ [[Hqf _] _]].
      rewrite Hpe, Hqf in Hpq by auto. discriminate.
    + destruct Hp as [_ [_ Hph]]. specialize (Hph x e eq_refl). destruct x; [congruence|]. reflexivity.
  - subst e. destruct f as [|x f].
    + exfalso. destruct Hp as [_ [[Hpe _] _]], Hq as [_ [[Hqf _] _]].
      rewrite Hpe, Hqf in Hpq by auto. discriminate.
    + destruct Hq as [_ [_ Hqh]]. specialize (Hqh x f eq_refl). destruct x; [congruence|]. reflexivity.
  - subst. reflexivity.
Qed.

Lemma path_lt_shows : forall p q e f, shows p e -> shows q f ->
  path_lt p q = match lex_compare e f with Lt => true | _ => false end.
Proof.
  intros. pose proof (compare_shows p q e f H H0) as Hc. unfold path_lt.
  destruct (lex_compare e f), (compare p q); cbn in *; congruence.
Qed.

Lemma path_eq_shows : forall p q e f, shows p e -> shows q f ->
  path_eq p q = true <-> e = f.
Proof.
  intros. pose proof (compare_shows p q e f H H0) as Hc. unfold path_eq.
  rewrite <- lex_compare_eq. destruct (lex_compare e f), (compare p q); cbn in *; try congruence; split; congruence.
Qed.

Lemma hash_shows : forall h p e, map native (elems p) = e ->
  hash_value h p = fold_left (fun seed x => N.lxor seed
    ((h x + 0x9e3779b9 + N.shiftl seed 6 mod 2^64 + N.shiftr seed 2) mod 2^64)%N) e 0%N.
Proof.
  intros h p e <-. unfold hash_value. generalize 0%N. induction (elems p); intros; cbn [fold_left map]; auto.
Qed.
