(** Recursive copy of a directory, on the file system of FS.v. *)
From Coq Require Import Ascii String Bool Arith NArith ZArith Lia.
From Verif Require Import Str PathModel PathSpec StrProofs PathProofs PathOps PathOps2 PathReach PathLaws ArithProps
  FlagsModel TimeModel Prog DirModel OpsModel OpsProps FS FSProofs FSSpec FSOps FSPlace FSProps FSProps2 IterProps FSIter FSRemove FSCopy FSDispatch.
From Coq Require Import List.
Import ListNotations.

(** * Vocabulary *)

(** The object [b] of [s'] is a copy of the object [a] of [s]: a directory with the same permissions, a regular file with the same content and
    permissions, a symlink with the same text; and nothing is the copy of nothing. *)
Definition same_object (s s' : fs) (a b : option node) : Prop :=
  match a, b with
  | None, None => True
  | Some (NDir i), Some (NDir j) => m_perm (f_meta s' j) = mode_bits (m_perm (f_meta s i))
  | Some (NLeaf i), Some (NLeaf j) =>
      (exists d, f_body s i = BReg d /\ f_body s' j = BReg d /\ m_perm (f_meta s' j) = mode_bits (m_perm (f_meta s i))) \/
      (exists x, f_body s i = BLink x /\ f_body s' j = BLink (reported_text x))
  | _, _ => False
  end.

(** What can be copied: regular files whose transfer is not cut, and symlinks if they are to be copied as such. *)
Definition copyable (cf : config) (k : choices) (s : fs) (l : list copt_name) (i : N) : Prop :=
  (exists d, f_body s i = BReg d /\ safe_transfer cf k d) \/
  (exists x, f_body s i = BLink x /\ In co_copy_symlinks l /\ x <> [] /\ (Z.of_nat (length x) <= k_path_max k)%Z).

(** Options for a recursive copy of the files themselves. *)
Definition copying_tree (l : list copt_name) : Prop :=
  (In co_recursive l \/ l = []) /\ ~ In co_create_symlinks l /\ ~ In co_skip_symlinks l /\ ~ In co_create_hard_links l /\ ~ In co_directories_only l.

(** * Trees *)

Definition mirrors (s s' : fs) (c c' : tree) : Prop := forall r, same_object s s' (look c r) (look c' r).

Lemma update_snoc : forall A n (f : A -> A) l x, assoc n l = None -> update n f (l ++ [(n, x)]) = l ++ [(n, f x)].
Proof.
  intros A n f l x. induction l as [|[m y] l IH]; cbn; intros H.
  - rewrite str_eqb_refl. reflexivity.
  - destruct (str_eqb m n); [discriminate|]. rewrite IH; auto.
Qed.

Lemma insert_child : forall p m n c j dl t i l, get t p = Some (Dir i l) -> assoc m l = None ->
  insert_at (p ++ [m]) n c (insert_at p m (Dir j dl) t) = insert_at p m (Dir j (dl ++ [(n, c)])) t.
Proof.
  unfold insert_at. induction p as [|a p IH]; intros m n c j dl t i l Hg Ha.
  - cbn in Hg. inversion Hg; subst t. cbn [app alter]. rewrite update_snoc by auto. reflexivity.
  - destruct t as [|ti tl]; [discriminate|]. cbn [app alter]. f_equal. rewrite update_update. apply update_ext. intros x Hx.
    cbn in Hg. rewrite Hx in Hg. eapply IH; eauto.
Qed.

Lemma present_not_below : forall t r D c, get t r = Some c -> get t D = None -> below D r = false.
Proof.
  intros t r D c Hr HD. destruct (below D r) eqn:E; auto. apply below_spec in E as [u ->]. rewrite get_app, HD in Hr. discriminate.
Qed.
Lemma below_snoc_false : forall q p n, below q (p ++ [n]) = false -> below q p = false.
Proof.
  intros q p n H. destruct (below q p) eqn:E; auto. apply below_spec in E as [u ->]. rewrite <- app_assoc, below_app in H. discriminate.
Qed.
Lemma below_cut : forall q n D, below q D = false -> below (q ++ [n]) D = false.
Proof.
  intros q n D H. destruct (below (q ++ [n]) D) eqn:E; auto. apply below_spec in E as [u ->]. rewrite <- app_assoc, below_app in H. discriminate.
Qed.

(** * Names of the destination *)

Lemma steps_missing_last : forall lk tg links cs cur p n, steps lk tg false links cur cs = Missing p n -> steps lk tg true links cur cs = Missing p n.
Proof.
  intros lk tg. induction links as [|links IHl]; (induction cs as [|x r IHr]; intros cur p n; [rewrite !steps_nil; auto|]);
  rewrite !steps_cons; destruct (lk cur) as [[i|i]|]; try discriminate;
  (destruct (str_eqb x (lit ".")); [apply IHr|]); (destruct (str_eqb x (lit "..")); [apply IHr|]);
  (destruct (lk (cur ++ [x])) as [[j|j]|]; [|apply IHr|destruct (is_nil r); auto]);
  (destruct (tg j) as [t|]; [|destruct (is_nil r); discriminate]); destruct (is_nil r); cbn [andb negb]; try discriminate.
  apply IHl.
Qed.

Lemma dot_step : forall lk tg last l q i, lk q = Some (NDir i) -> steps lk tg last l q [lit "."] = Found l q.
Proof. intros lk tg last l q i H. rewrite steps_cons, H. change (str_eqb (lit ".") (lit ".")) with true. cbn iota. apply steps_nil. Qed.

Lemma entry_absent : forall k s t p m, find_entry k s t = Missing p m -> node_at s (find_at k s true t) = Err ENOENT.
Proof.
  intros k s t p m H. unfold find_entry, find_at, resolve_comps in *. destruct (is_nil t); [discriminate|]. apply steps_missing_last in H. unfold FS.comps.
  destruct (ends_slash t && negb (is_nil (names t))).
  - rewrite steps_app by discriminate. rewrite H. reflexivity.
  - rewrite app_nil_r, H. reflexivity.
Qed.

Lemma entry_filled : forall k s u t p m j, find_entry k s t = Missing p m -> extends s u -> look (f_root u) (p ++ [m]) = Some (NDir j) ->
  exists l, find_at k u true t = Found l (p ++ [m]).
Proof.
  intros k s u t p m j H He Hj.
  assert (H2 : resolve_comps k s true t (names t) = Missing p m).
  { unfold find_entry, resolve_comps in *. destruct (is_nil t); [discriminate|]. apply steps_missing_last. auto. }
  destruct (resolve_fill k s u true t (names t) p m _ He H2 Hj) as [l Hl]; [intros; discriminate|]. exists l.
  unfold find_at, resolve_comps in *. destruct (is_nil t); [discriminate|]. unfold FS.comps.
  destruct (ends_slash t && negb (is_nil (names t))); [|rewrite app_nil_r; auto].
  rewrite steps_app by discriminate. rewrite Hl. eapply dot_step; eauto.
Qed.

(** * The copy of a tree *)

Fixpoint size (t : tree) : nat :=
  match t with Leaf _ => 2 | Dir _ l => 5 + length l + list_sum (map (fun e => size (snd e)) l) end.

Lemma size_in : forall e (l : list (str * tree)), In e l -> size (snd e) <= list_sum (map (fun e => size (snd e)) l).
Proof.
  intros e l. induction l as [|x l IH]; intros []; cbn.
  - subst. lia.
  - apply IH in H. unfold list_sum in H. lia.
Qed.

(** The result of a copy, in terms of trees. *)
Definition planted (s s' : fs) (p : loc) (m : str) (c c' : tree) : Prop :=
  f_root s' = insert_at p m c' (f_root s) /\ mirrors s s' c c' /\ same_bodies s s' /\ same_metas s s' /\ same_process s s' /\ (f_next s < f_next s')%N /\
  (forall r x, look c' r = Some x -> (f_next s <= number x)%N).

Definition short (s : fs) (B : nat) (i : N) : Prop := forall d, f_body s i = BReg d -> length d < B.

Definition copies_tree (cf : config) (k : choices) (l : list copt_name) (c : tree) : Prop :=
  forall s n has from to q p m (b : bool) lk B, wf s -> canon from -> canon to -> (if b then from_follows l else ~ from_follows l) ->
  find_at k s b (native from) = Found lk q -> get (f_root s) q = Some c ->
  find_entry k s (native to) = Missing p m -> (forall i, c = Leaf i -> find_at k s false (native from) = Found lk q /\ forall last, find_at k s last (native to) = Missing p m) ->
  below q (p ++ [m]) = false ->
  (forall r i, look c r = Some (NLeaf i) -> copyable cf k s l i /\ short s B i) ->
  size c + B <= n ->
  exists s' c', run (fsk k) (copy_impl cf n has from to (options l)) s = Done (tt, None) s' /\ planted s s' p m c c'.

Lemma insert_extends : forall s u p m c i l, wf s -> get (f_root s) p = Some (Dir i l) -> assoc m l = None ->
  f_root u = insert_at p m c (f_root s) -> same_bodies s u -> f_cwd u = f_cwd s -> extends s u.
Proof.
  intros s u p m c i l Hw Hg Ha Hr Hb Hc. split; [|split]; auto.
  - intros q x Hx. rewrite Hr. eapply look_insert; eauto.
  - intros q j Hj. unfold link_text. rewrite Hb; auto. eapply look_fresh; eauto.
Qed.

Lemma copies_leaf : forall cf k l i, copying_tree l -> copies_tree cf k l (Leaf i).
Proof.
  intros cf k l i (Hrec & Hcs & Hsk & Hhl & Hdo) s n has from to q p m b lk B Hw Cf Ct Hb Hf Hg Hm Hm2 Hbel Hok Hn.
  destruct n as [|n]; [cbn in Hn; lia|]. destruct (Hm2 i eq_refl) as [Hf2 Hm3].
  destruct (Hok [] i eq_refl) as [Hc Hsh].
  pose proof Hg as Hl. apply look_leaf in Hl.
  assert (Hs : sees k s (native from) (from_follows l) (Val (NLeaf i))).
  { destruct b; [left|right]; auto; rewrite Hf; cbn; rewrite Hl; reflexivity. }
  assert (Ht : sees k s (native to) (to_follows l) (Err ENOENT)) by (left; [split; auto|]; rewrite (proj2 (Hm2 i eq_refl) true); reflexivity).
  pose proof (find_missing _ _ _ _ _ _ (proj2 (Hm2 i eq_refl) true)) as (di & dl & G1 & G2 & G3).
  assert (Hi : (i < f_next s)%N) by (eapply look_fresh; eauto).
  destruct Hc as [(d & Bd & Sd)|(x & Bx & Cx & Nx & Lx)].
  - destruct (C33_file_copied cf k s n has from to l (NLeaf i) (Err ENOENT) Cf Ct Hs) as (to2 & -> & Hr); auto.
    { cbn. rewrite Bd. auto. }
    { left; auto. }
    assert (Hfile : is_file k s (native from) q i d) by (exists lk; auto).
    destruct (run_copy_new_root cf k s n has from to (options l) q i d p m Hw Hfile) as (s' & d' & R & C & Ld & No & Hd & Hroot & Hnext); auto.
    { specialize (Hsh d Bd). cbn in Hn. lia. }
    rewrite R in Hr. exists s', (Leaf (f_next s)). split; [exact Hr|].
    destruct C as (q2 & j & C1 & C2 & C3 & C4 & C5 & C6 & C7 & C8 & C9).
    assert (Hj : j = f_next s).
    { destruct C1 as (l1 & E1 & E2), Ld as (l2 & F1 & F2). rewrite E1 in F1. injection F1 as _ Hq2. rewrite Hq2 in E2. rewrite E2 in F2. congruence. }
    subst j. split; [auto|]. split; [|split; [|split; [|split; [auto|split; [lia|intros [|? ?] ? Hy; [injection Hy as <-; cbn; lia|discriminate]]]]]].
    + intros [|a r]; cbn; [|auto]. left. exists d. rewrite (Hd Sd) in C3. auto.
    + intros x Hx. apply C5. lia.
    + intros x Hx. apply C6. lia.
  - rewrite (run_symlink_copied cf k s n has from to l i x ENOENT p m); auto; [|left; auto].
    eexists. exists (Leaf (f_next s)). split; [reflexivity|].
    destruct (make_leaf_look k s p m (BLink (reported_text x)) 511 1 di dl Hw G1 G2) as (K1 & K2 & K3 & K4 & K5 & K6 & K7 & K8).
    split; [reflexivity|]. split; [|split; [auto|split; [auto|split; [auto|split; [cbn; lia|intros [|? ?] ? Hy; [injection Hy as <-; cbn; lia|discriminate]]]]]].
    intros [|a r]; cbn [look get option_map node_of]; [|cbn; auto]. right. exists x. auto.
Qed.

Lemma same_object_later : forall s u u1 a b, (forall x, b = Some x -> (number x < f_next u)%N) -> same_bodies u u1 -> same_metas u u1 ->
  same_object s u a b -> same_object s u1 a b.
Proof.
  intros s u u1 a b Hb H1 H2. unfold same_object. destruct a as [[i|i]|], b as [[j|j]|]; auto.
  - specialize (Hb _ eq_refl). cbn in Hb. rewrite (H1 j Hb), (H2 j Hb). auto.
  - specialize (Hb _ eq_refl). cbn in Hb. rewrite (H2 j Hb). auto.
Qed.
Lemma same_object_before : forall s u u1 a b, (forall x, a = Some x -> (number x < f_next s)%N) -> same_bodies s u -> same_metas s u ->
  same_object u u1 a b -> same_object s u1 a b.
Proof.
  intros s u u1 a b Hb H1 H2. unfold same_object. destruct a as [[i|i]|], b as [[j|j]|]; auto.
  - specialize (Hb _ eq_refl). cbn in Hb. rewrite (H1 i Hb), (H2 i Hb). auto.
  - specialize (Hb _ eq_refl). cbn in Hb. rewrite (H2 i Hb). auto.
Qed.

Lemma mirrors_snoc : forall s u i j l l' n c c', mirrors s u (Dir i l) (Dir j l') -> mirrors s u c c' -> assoc n l = None ->
  mirrors s u (Dir i (l ++ [(n, c)])) (Dir j (l' ++ [(n, c')])).
Proof.
  intros s u i j l l' n c c' H Hc Hn. assert (Hn' : assoc n l' = None).
  { specialize (H [n]). unfold look in H. cbn in H. rewrite Hn in H. cbn in H. destruct (assoc n l') as [[]|]; [destruct H|destruct H|auto]. }
  intros [|a r]; [apply (H [])|]. specialize (H (a :: r)). unfold look in *. cbn [get] in *. rewrite !assoc_app.
  destruct (str_eqb n a) eqn:E.
  - apply str_eqb_spec in E. subst a. rewrite Hn, Hn'. cbn [assoc]. rewrite str_eqb_refl. apply Hc.
  - destruct (assoc a l) eqn:A1; destruct (assoc a l') eqn:A2; auto; cbn [assoc]; rewrite ?E; auto.
Qed.

Lemma child_found : forall k s (b : bool) t n lk q i c, wf s -> find_at k s true t = Found lk q -> look (f_root s) q = Some (NDir i) -> good_name n = true ->
  get (f_root s) (q ++ [n]) = Some c -> (forall j, c = Leaf j -> link_text s j = None \/ b = false) ->
  find_at k s b (append_text t n) = Found lk (q ++ [n]).
Proof.
  intros k s b t n lk q i c Hw Hf Hq Hn Hg Hl. rewrite (find_child k s b t n lk q i Hw Hf Hq Hn), (steps_child _ _ _ _ _ _ i Hq Hn).
  unfold look. rewrite Hg. cbn [option_map]. destruct c as [j|j es]; cbn [node_of]; auto. destruct (Hl j eq_refl) as [->| ->]; auto. destruct (link_text s j); auto.
Qed.

Lemma filename_child : forall p t n, canon p -> native p = append_text t n -> good_name n = true ->
  exists f, filename Posix p = Ok f /\ canon f /\ native f = n.
Proof.
  intros p t n Hp Hn Hg. destruct (gives_filename p Hp) as (f & E & Cf & Nf). exists f. split; auto. split; auto. rewrite Nf, Hn.
  pose proof (good_plain _ Hg) as (_ & Hns & Hne & _).
  assert (Hs : starts_slash n = false) by (destruct n; [congruence|apply noslash_cons in Hns; cbn; tauto]).
  rewrite append_text_before by auto. rewrite after_before by auto. apply after_last_slash_noslash; auto.
Qed.

Section Directory.
Context (cf : config) (k : choices) (l : list copt_name) (has : bool) (from to : path) (q p : loc) (m : str) (i di : N) (dl : list (str * tree))
  (s : fs) (b : bool) (lk : nat) (B n : nat) (j : N).
Hypothesis (Hw : wf s) (Cf : canon from) (Ct : canon to) (Hl : copying_tree l) (Hb : if b then from_follows l else ~ from_follows l)
  (Hf : find_at k s true (native from) = Found lk q) (Hp : get (f_root s) p = Some (Dir di dl)) (Ha : assoc m dl = None)
  (Hm : find_entry k s (native to) = Missing p m)
  (Hok : forall r x, look (f_root s) (q ++ r) = Some (NLeaf x) -> copyable cf k s l x /\ short s B x).

Lemma dest_none : get (f_root s) (p ++ [m]) = None.
Proof. rewrite get_snoc, Hp. exact Ha. Qed.

(** The rest of the tree, apart from the directories above the destination. *)
Lemma kept_source : forall u c r d, below r (p ++ [m]) = false -> f_root u = insert_at p m c (f_root s) -> get (f_root s) r = Some d -> get (f_root u) r = Some d.
Proof.
  intros u c r d Hbel Hu Hg. rewrite Hu. rewrite (get_insert_out p m c (f_root s) di dl); auto.
  - eapply present_not_below; eauto using dest_none.
  - destruct (below r p) eqn:E; auto. apply below_spec in E as [v E]. rewrite E in Hbel. rewrite <- !app_assoc, below_app in Hbel. discriminate.
Qed.

Lemma run_copy_entry : forall l1 l1' name c rest u p' d h, wf u ->
  get (f_root s) q = Some (Dir i (l1 ++ (name, c) :: rest)) -> copies_tree cf k l c -> size c + B <= n -> below (q ++ [name]) (p ++ [m]) = false ->
  planted (set_dirs s (f_dirs u)) u p m (Dir i l1) (Dir j l1') -> canon p' -> native p' = append_text (native from) name ->
  exists u1 c', run (fsk k) (let! e := dir_iter_deref cf (Some (Stream (Some h) from (Entry p' d))) in
             let! fn := lift (filename Posix (de_path e)) in
             let! to2 := lift (path_div Posix (cf_el cf) to fn) in
             copy_impl cf n has (de_path e) to2 (options l)) u = Done (tt, None) u1 /\ wf u1 /\
    planted (set_dirs s (f_dirs u)) u1 p m (Dir i (l1 ++ [(name, c)])) (Dir j (l1' ++ [(name, c')])).
Proof.
  intros l1 l1' name c rest u p' d h Hwu Hg Hc Hsz Hbel (R1 & R2 & R3 & R4 & R5 & R6 & R7) Cp' Np'. cbn [f_root set_dirs] in R1.
  change (mirrors s u (Dir i l1) (Dir j l1')) in R2. change (same_bodies s u) in R3. change (same_metas s u) in R4. change (f_next s < f_next u)%N in R6.
  pose proof (wf_get _ _ _ (wf_root s Hw) Hg) as Hwt. apply wf_tree_dir in Hwt as (Hnd & Hgn & _).
  assert (Hname : good_name name = true) by (rewrite Forall_app in Hgn; destruct Hgn as [_ Hgn]; inversion Hgn; auto).
  assert (Hfresh : assoc name l1 = None).
  { apply assoc_None. rewrite map_app in Hnd. cbn in Hnd. apply NoDup_remove_2 in Hnd. intros H. apply Hnd. apply in_or_app. auto. }
  assert (Hgc : get (f_root s) (q ++ [name]) = Some c).
  { rewrite get_snoc, Hg, assoc_app, Hfresh. cbn. rewrite str_eqb_refl. reflexivity. }
  assert (He : extends s u) by (apply (insert_extends s u p m (Dir j l1') di dl); auto; apply R5).
  assert (Hgu : get (f_root u) (q ++ [name]) = Some c) by (eapply kept_source; eauto).
  assert (Hqu : look (f_root u) q = Some (NDir i)).
  { apply He. apply look_dir. eauto. }
  assert (Hfu : find_at k u true (native from) = Found lk q) by (eapply find_extends; eauto).
  assert (Hdest : get (f_root u) (p ++ [m]) = Some (Dir j l1')).
  { rewrite R1. replace (p ++ [m]) with (p ++ m :: []) by reflexivity. rewrite (get_insert_new p m _ _ di dl [] Hp Ha). reflexivity. }
  assert (Hdl : look (f_root u) (p ++ [m]) = Some (NDir j)) by (apply look_dir; eauto).
  destruct (entry_filled k s u (native to) p m j Hm He Hdl) as [lk' Hto].
  assert (Hfresh' : assoc name l1' = None).
  { specialize (R2 [name]). unfold look in R2. cbn in R2. rewrite Hfresh in R2. cbn in R2. destruct (assoc name l1') as [[]|]; [destruct R2|destruct R2|auto]. }
  assert (Hnone : look (f_root u) ((p ++ [m]) ++ [name]) = None) by (apply look_None; rewrite get_snoc, Hdest; auto).
  destruct (filename_child p' _ name Cp' Np' Hname) as (fn & Ef & Cfn & Nfn).
  destruct (gives_div (cf_el cf) to fn Ct Cfn) as (to2 & Eto & Cto & Nto).
  rewrite Nfn in Nto. rewrite append_collapse in Nto; [|apply canon_native; auto|rewrite <- Nfn; apply canon_native; auto].
  assert (Hvac : forall last, find_at k u last (native to2) = Missing (p ++ [m]) name).
  { intros last. rewrite Nto, (find_child k u last (native to) name lk' (p ++ [m]) j Hwu Hto Hdl Hname), (steps_child _ _ _ _ _ _ j Hdl Hname), Hnone. reflexivity. }
  assert (Hvace : find_entry k u (native to2) = Missing (p ++ [m]) name).
  { rewrite Nto, (entry_child k u (native to) name lk' (p ++ [m]) j Hwu Hto Hdl Hname), (steps_child _ _ _ _ _ _ j Hdl Hname), Hnone. reflexivity. }
  assert (Hlt : forall r x, look (f_root s) r = Some x -> (number x < f_next s)%N) by (intros r [x|x] Hx; eapply look_fresh; eauto).
  assert (Hsrc : forall b', (forall x, c = Leaf x -> link_text s x = None \/ b' = false) -> find_at k u b' (native p') = Found lk (q ++ [name])).
  { intros b' Hb'. rewrite Np'. eapply child_found; eauto. intros x ->. destruct (Hb' x eq_refl) as [H|H]; auto. left. unfold link_text. rewrite R3; auto.
    apply (Hlt (q ++ [name]) (NLeaf x)). apply look_leaf. auto. }
  assert (Hokc : forall r x, look c r = Some (NLeaf x) -> copyable cf k s l x /\ short s B x).
  { intros r x Hx. apply (Hok (name :: r)). unfold look in *. change (q ++ name :: r) with (q ++ [name] ++ r). rewrite app_assoc, get_app, Hgc. auto. }
  destruct (Hc u n has p' to2 (q ++ [name]) (p ++ [m]) name b lk B) as (u1 & c' & Hr & (P1 & P2 & P3 & P4 & P5 & P6 & P7)); auto.
  - apply Hsrc. intros x ->. destruct (Hokc [] x eq_refl) as [[(e & Be & _)|(e & Be & Ce & _)] _].
    + left. unfold link_text. rewrite Be. auto.
    + right. destruct b; auto. destruct Hb as (_ & _ & Hb3). contradiction.
  - destruct (below (q ++ [name]) ((p ++ [m]) ++ [name])) eqn:E; auto. exfalso.
    apply below_snoc_parent in E as [E|E]; [congruence|]. apply app_inj_tail in E as [E _].
    assert (below (p ++ [m]) q = false) by (eapply present_not_below; eauto using dest_none). rewrite E, below_refl in H. discriminate.
  - intros r x Hx. destruct (Hokc r x Hx) as [H1 H2].
    assert (Hxl : (x < f_next s)%N). { apply (Hlt (q ++ name :: r) (NLeaf x)). unfold look in *. change (q ++ name :: r) with (q ++ [name] ++ r). rewrite app_assoc, get_app, Hgc. auto. }
    unfold copyable, short in *. rewrite R3 by auto. auto.
  - exists u1, c'. split.
    { cbn [dir_iter_deref ds_entry]. rewrite run_bind. cbn [run de_path]. rewrite run_bind, Ef. cbn [lift run]. rewrite run_bind, Eto. cbn [lift run]. exact Hr. }
    split.
    { pose proof (wf_run _ k (copy_impl cf n has p' to2 (options l)) u Hwu) as H. rewrite Hr in H. exact H. }
    split; [|split; [|split; [|split; [|split; [|split]]]]].
    + cbn [f_root set_dirs]. rewrite P1, R1. eapply insert_child; eauto.
    + change (mirrors s u1 (Dir i (l1 ++ [(name, c)])) (Dir j (l1' ++ [(name, c')]))). apply mirrors_snoc; auto.
      * intros r. apply same_object_later with u; auto. intros x Hx.
        assert (look (f_root u) ((p ++ [m]) ++ r) = Some x) by (unfold look in *; rewrite get_app, Hdest; auto). destruct x; eapply look_fresh; eauto.
      * intros r. apply same_object_before with u; auto. intros x Hx. apply (Hlt (q ++ name :: r)). unfold look in *. change (q ++ name :: r) with (q ++ [name] ++ r).
        rewrite app_assoc, get_app, Hgc. auto.
    + intros x Hx. change (x < f_next s)%N in Hx. rewrite P3 by lia. apply R3. auto.
    + intros x Hx. change (x < f_next s)%N in Hx. rewrite P4 by lia. apply R4. auto.
    + destruct R5 as (X1 & X2 & X3 & X4), P5 as (Y1 & Y2 & Y3 & Y4). repeat split; congruence.
    + change (f_next s < f_next u1)%N. lia.
    + intros [|a r] x Hx; [apply (R7 [] x Hx)|]. change (f_next s <= number x)%N. unfold look in Hx. cbn [get] in Hx. rewrite assoc_app in Hx.
      destruct (assoc a l1') as [t|] eqn:Ea.
      * apply (R7 (a :: r) x). unfold look. cbn [get]. rewrite Ea. exact Hx.
      * cbn [assoc] in Hx. destruct (str_eqb name a); [|discriminate]. specialize (P7 r x Hx). lia.
Qed.

Lemma run_copy_rest : forall s0 h ds rest l1 l1' name c u p' d kf, wf u ->
  get (f_root s) q = Some (Dir i (l1 ++ (name, c) :: rest)) -> Forall (fun e => copies_tree cf k l (snd e) /\ size (snd e) + B <= n) ((name, c) :: rest) ->
  f_dirs u = (h, listing k s0 rest) :: ds ->
  planted (set_dirs s (f_dirs u)) u p m (Dir i l1) (Dir j l1') -> canon p' -> native p' = append_text (native from) name ->
  S (length rest) < kf -> 1 <= n -> below q (p ++ [m]) = false ->
  exists s' l', run (fsk k) (copy_loop cf (fun a b => copy_impl cf n has a b (options l)) n has from to kf (Some (Stream (Some h) from (Entry p' d))) None) u = Done (tt, None) s' /\
    planted (set_dirs s ds) s' p m (Dir i (l1 ++ (name, c) :: rest)) (Dir j l').
Proof.
  intros s0 h ds. induction rest as [|[name2 c2] rest IH]; intros l1 l1' name c u p' d kf Hwu Hg HF Hd Hpl Cp' Np' Hk Hn Hbel;
    (destruct kf as [|kf]; [cbn in Hk; lia|]); (assert (En : exists n', n = S n') by (destruct n; [lia|eauto])); destruct En as [n' En];
    inversion HF as [|? ? [Hc Hsz] HF']; subst x l0; cbn [snd] in Hc, Hsz;
    destruct (run_copy_entry l1 l1' name c _ u p' d h Hwu Hg Hc Hsz (below_cut _ _ _ Hbel) Hpl Cp' Np') as (u1 & c' & Hr & Hwu1 & Hpl1);
    assert (Hd1 : f_dirs u1 = f_dirs u) by (destruct Hpl1 as (_ & _ & _ & _ & (_ & _ & H & _) & _); exact H).
  - exists (set_dirs u1 ds), (l1' ++ [(name, c')]). split.
    + cbn [copy_loop is_end failed]. rewrite run_bind, run_unwinding, Hr. cbn [failed snd]. rewrite run_bind. unfold dir_iter_increment. replace (advance cf n) with (advance cf (S n')) by (rewrite En; reflexivity). rewrite run_bind.
      rewrite (fs_advance_end cf k n' u1 h ds) by (rewrite Hd1; exact Hd). cbn iota. cbn [failed run fst snd]. destruct kf; [cbn in Hk; lia|]. reflexivity.
    + destruct Hpl1 as (P1 & P2 & P3 & P4 & (P5 & P6 & P7 & P8) & P9). split; [exact P1|]. split; [exact P2|]. split; [exact P3|]. split; [exact P4|].
      split; [split; [exact P5|split; [exact P6|split; [reflexivity|exact P8]]]|exact P9].
  - pose proof (wf_get _ _ _ (wf_root s Hw) Hg) as Hwt. apply wf_tree_dir in Hwt as (_ & Hgn & _).
    assert (Hname2 : good_name name2 = true).
    { rewrite Forall_forall in Hgn. apply (Hgn (name2, c2)). apply in_or_app. right. right. left. auto. }
    assert (Hd1' : f_dirs u1 = (h, (name2, dtype_of k s0 c2) :: listing k s0 rest) :: ds) by (rewrite Hd1; exact Hd).
    destruct (fs_advance cf k n' u1 h name2 (dtype_of k s0 c2) (listing k s0 rest) ds from (Entry p' d) Hd1' Hname2 (dtype_of_ok _ _ _) Cf) as (p2 & Hadv & Cp2 & Np2).
    set (u2 := set_dirs u1 ((h, listing k s0 rest) :: ds)) in *.
    assert (Hwu2 : wf u2) by (eapply wf_unchanged; [exact Hwu1|reflexivity|reflexivity]).
    destruct (IH (l1 ++ [(name, c)]) (l1' ++ [(name, c')]) name2 c2 u2 p2 (iter_data d (told (dtype_of k s0 c2))) kf) as (s' & l' & Hrun & Hfin); auto.
    + rewrite <- app_assoc. exact Hg.
    + destruct Hpl1 as (P1 & P2 & P3 & P4 & (P5 & P6 & P7 & P8) & P9). split; [exact P1|]. split; [exact P2|]. split; [exact P3|]. split; [exact P4|].
      split; [split; [exact P5|split; [exact P6|split; [reflexivity|exact P8]]]|exact P9].
    + cbn in Hk |- *. lia.
    + exists s', l'. split.
      * cbn [copy_loop is_end failed]. rewrite run_bind, run_unwinding, Hr. cbn [failed snd]. rewrite run_bind. unfold dir_iter_increment. replace (advance cf n) with (advance cf (S n')) by (rewrite En; reflexivity). rewrite run_bind, Hadv.
        cbn iota. cbn [run fst snd de_data]. exact Hrun.
      * rewrite <- app_assoc in Hfin. exact Hfin.
Qed.
End Directory.

Lemma run_like : forall k s has to from lk q i p m, find_at k s true (native from) = Found lk q -> look (f_root s) q = Some (NDir i) ->
  find_entry k s (native to) = Missing p m ->
  run (fsk k) (create_directory_like_impl has to from) s =
  Done (true, None) (make k s p m (Dir (f_next s) []) (mode_bits (m_perm (f_meta s i))) 2).
Proof.
  intros k s has to from lk q i p m Hf Hq Hm. unfold create_directory_like_impl. rewrite run_bind, run_GetFileStatus, Hf. cbn [node_at]. rewrite Hq.
  cbn [stat_result]. cbn iota. destruct (status_of_exists s (NDir i)) as [_ ->]. change (st_is_directory (status_of s (NDir i))) with true. cbn [negb].
  rewrite run_sys. cbn [fsk]. unfold sys_mkdir. rewrite Hm. cbn [fst snd run]. do 2 f_equal.
  rewrite stat_of_mode. cbn [number]. rewrite (mode_bits_mod (_ + _)). rewrite (proj2 (div_mode _ _ (mode_bits_lt (m_perm (f_meta s i))))). reflexivity.
Qed.

Lemma copies_any : forall cf k l c, copying_tree l -> copies_tree cf k l c.
Proof.
  intros cf k l c Hl. induction c as [i|i es IH] using tree_ind'; [apply copies_leaf; auto|].
  intros s n has from to q p m b lk B Hw Cf Ct Hb Hf Hg Hm _ Hbel Hok Hn.
  destruct n as [|n]; [cbn in Hn; lia|].
  assert (Hq : look (f_root s) q = Some (NDir i)) by (apply look_dir; eauto).
  assert (Hft : find_at k s true (native from) = Found lk q) by (destruct b; auto; eapply find_dir_true; eauto).
  assert (Hs : sees k s (native from) (from_follows l) (Val (NDir i))).
  { destruct b; [left|right]; auto; rewrite Hf; cbn; rewrite Hq; reflexivity. }
  destruct Hl as (Hrec & Hcs & Hsk & Hhl & Hdo).
  assert (Ht : sees k s (native to) (to_follows l) (Err ENOENT)) by (left; [split; auto|]; eapply entry_absent; eauto).
  pose proof (entry_missing _ _ _ _ _ Hm) as (di & dl & G1 & G2 & G3).
  set (s1 := make k s p m (Dir (f_next s) []) (mode_bits (m_perm (f_meta s i))) 2).
  destruct (make_look k s p m (Dir (f_next s) []) (mode_bits (m_perm (f_meta s i))) 2 di dl G1 G2) as (K1 & K2 & K3 & K4 & K5 & K6 & K7). fold s1 in K1, K2, K3, K4, K5, K6, K7.
  assert (Hw1 : wf s1).
  { apply (wf_make s Hw p m (Dir (f_next s) []) _ 2 k di dl); auto; [apply wf_tree_dir; repeat constructor|]. intros x [<-|[]]. auto. }
  assert (Hrun : run (fsk k) (copy_impl cf (S n) has from to (options l)) s =
    run (fsk k) (let! i := dir_iter_ctor cf n has from 0 in if failed (snd i) then Ret (tt, snd i)
      else copy_loop cf (fun a b => copy_impl cf n has a b (options l)) n has from to n (fst i) None) s1).
  { rewrite (run_copy_suits cf k s n has from to l (NDir i) (Err ENOENT) Hs Ht); [|right; left; auto|left; auto].
    unfold copy_tail. destruct (type_tests s (NDir i)) as (-> & -> & ->). cbn [type_of]. change (file_type_eqb ft_directory ft_symlink) with false.
    change (file_type_eqb ft_directory ft_regular) with false. change (file_type_eqb ft_directory ft_directory) with true. cbv iota. cbn [andb].
    apply options_unset in Hcs. rewrite Hcs.
    assert (Hr : co_set co_recursive (options l) || (options l =? 0)%N = true).
    { destruct Hrec as [H| ->]; [|reflexivity]. apply options_set in H. rewrite H. reflexivity. }
    rewrite Hr. cbn [to_status]. rewrite missing_not_exists. cbn [negb]. rewrite run_bind, (run_like k s has to from lk q i p m Hft Hq Hm). reflexivity. }
  rewrite Hrun. rewrite run_bind.
  assert (Hg1 : get (f_root s1) q = Some (Dir i es)).
  { apply (kept_source p m di dl s G1 G2 s1 (Dir (f_next s) []) q (Dir i es) Hbel eq_refl). auto. }
  assert (Hf1 : find_at k s1 true (native from) = Found lk q) by (eapply find_extends; eauto).
  assert (Hpl0 : planted s s1 p m (Dir i []) (Dir (f_next s) [])).
  { split; [reflexivity|]. split; [|split; [|split; [|split]]]; auto.
    - intros [|a r]; cbn; auto. unfold upd. rewrite N.eqb_refl. reflexivity.
    - intros x _. rewrite K4. auto.
    - split; [cbn; lia|]. intros [|a r] x Hx; [injection Hx as <-; cbn; lia|discriminate]. }
  assert (Hlen : length es + 3 < n) by (cbn in Hn; lia).
  destruct es as [|[name c] rest].
  - rewrite (fs_ctor_empty cf k n s1 has from lk q i Hf1 Hg1) by lia. cbn [failed snd fst]. destruct n as [|n]; [lia|].
    cbn [copy_loop is_end run]. exists (new_handle s1), (Dir (f_next s) []). split; [reflexivity|exact Hpl0].
  - destruct (fs_ctor_cons cf k n s1 has from lk q i name c rest Hw1 Cf Hf1 Hg1) as (p' & Cp' & Np' & Hctor); [lia|]. rewrite Hctor. cbn [failed snd fst].
    set (u := opened s1 (listing k s1 rest)) in *.
    assert (Hwu : wf u) by (eapply wf_unchanged; [exact Hw1|reflexivity|reflexivity]).
    destruct (run_copy_rest cf k l has from to q p m i di dl s b lk B n (f_next s) Hw Cf Ct Hb Hft G1 G2 Hm) with
      (s0 := s1) (h := f_handle s1) (ds := f_dirs s1) (rest := rest) (l1 := @nil (str * tree)) (l1' := @nil (str * tree)) (name := name) (c := c) (u := u) (p' := p')
      (d := iter_data cache_reset (told (dtype_of k s1 c))) (kf := n) as (s' & l' & Hfin & Hpl); auto.
    + intros r x Hx. apply (Hok r). unfold look in *. rewrite get_app, Hg in Hx. exact Hx.
    + rewrite Forall_forall in IH |- *. intros e He. split; [apply IH; auto|]. pose proof (size_in _ _ He). cbn [size length] in Hn. unfold list_sum in *. lia.
    + destruct Hpl0 as (P1 & P2 & P3 & P4 & (P5 & P6 & P7 & P8) & P9). split; [exact P1|]. split; [exact P2|]. split; [exact P3|]. split; [exact P4|].
      split; [split; [exact P5|split; [exact P6|split; [reflexivity|exact P8]]]|exact P9].
    + cbn [length] in Hlen. lia.
    + lia.
    + exists s', (Dir (f_next s) l'). split; [exact Hfin|]. cbn [app] in Hpl. destruct Hpl as (P1 & P2 & P3 & P4 & (P5 & P6 & P7 & P8) & P9).
      split; [exact P1|]. split; [exact P2|]. split; [exact P3|]. split; [exact P4|].
      split; [split; [exact P5|split; [exact P6|split; [rewrite P7; reflexivity|exact P8]]]|exact P9].
Qed.

Lemma bound_exists : forall s c, exists B, forall r i, look c r = Some (NLeaf i) -> short s B i.
Proof.
  intros s c. induction c as [i|i es IH] using tree_ind'.
  - destruct (f_body s i) as [d| |] eqn:E.
    + exists (S (length d)). intros [|a r] j Hj; cbn in Hj; [|discriminate]. injection Hj as <-. intros d' Hd. rewrite E in Hd. injection Hd as <-. lia.
    + exists 0. intros [|a r] j Hj; cbn in Hj; [|discriminate]. injection Hj as <-. intros d' Hd. congruence.
    + exists 0. intros [|a r] j Hj; cbn in Hj; [|discriminate]. injection Hj as <-. intros d' Hd. congruence.
  - assert (H : exists B, forall e, In e es -> forall r j, look (snd e) r = Some (NLeaf j) -> short s B j).
    { induction es as [|e es IHes]; [exists 0; intros e []|]. inversion IH as [|? ? [B1 H1] H2]; subst. destruct (IHes H2) as [B2 H3]. exists (B1 + B2).
      intros e' [<-|He] r j Hj d Hd; [specialize (H1 r j Hj d Hd)|specialize (H3 e' He r j Hj d Hd)]; lia. }
    destruct H as [B H]. exists B. intros [|a r] j Hj; [discriminate|]. unfold look in Hj. cbn in Hj. destruct (assoc a es) as [c|] eqn:E; [|discriminate].
    apply assoc_In in E. apply (H _ E r j Hj).
Qed.

(** * C34 *)

(** The copy of a directory of files and directories (and of symlinks, with copy_symlinks) to a missing place outside it: at every place below the destination is a
    copy of what is at the same place below the source, everything else is unchanged, and no error is reported. *)
Theorem C34_copy_tree_partial : forall cf k s l has from to q i p m, wf s -> canon from -> canon to -> copying_tree l ->
  sees k s (native from) (from_follows l) (Val (NDir i)) -> leads_to k s (native from) q (NDir i) ->
  names_missing k s (native to) p m -> below q p = false ->
  (forall r x, look (f_root s) (q ++ r) = Some (NLeaf x) -> copyable cf k s l x) ->
  exists N, forall n, N <= n -> exists s', run (fsk k) (copy_impl cf n has from to (options l)) s = Done (tt, None) s' /\
    (forall r, same_object s s' (look (f_root s) (q ++ r)) (look (f_root s') ((p ++ [m]) ++ r))) /\
    same_outside s s' (p ++ [m]) /\ (forall r, look (f_root s') (q ++ r) = look (f_root s) (q ++ r)) /\
    same_bodies s s' /\ same_metas s s' /\ same_process s s'.
Proof.
  intros cf k s l has from to q i p m Hw Cf Ct Hl Hs (lk & Hf & Hq) Hm Hbel Hok.
  pose proof Hq as Hq'. apply look_dir in Hq' as (es & Hg).
  pose proof (entry_missing _ _ _ _ _ Hm) as (di & dl & G1 & G2 & G3).
  assert (Hnone : get (f_root s) (p ++ [m]) = None) by (rewrite get_snoc, G1; auto).
  assert (Hbel' : below q (p ++ [m]) = false).
  { destruct (below q (p ++ [m])) eqn:E; auto. apply below_snoc_parent in E as [E|E]; [congruence|]. subst q. rewrite Hnone in Hg. discriminate. }
  destruct (bound_exists s (Dir i es)) as [B HB]. exists (size (Dir i es) + B). intros n Hn.
  assert (Hsrc : exists (b : bool) lk, (if b then from_follows l else ~ from_follows l) /\ find_at k s b (native from) = Found lk q).
  { inversion Hs as [H1 H2|H1 H2]; [exists true, lk; auto|]. exists false. destruct (find_at k s false (native from)) as [l2 q2| |] eqn:F; try discriminate.
    cbn [node_at] in H2. destruct (look (f_root s) q2) eqn:L; [|discriminate]. injection H2 as ->. pose proof (find_dir_true _ _ _ _ _ _ F L) as F2. rewrite Hf in F2. injection F2 as <- <-. eauto. }
  destruct Hsrc as (b & lk' & Hb & Hf').
  destruct (copies_any cf k l (Dir i es) Hl s n has from to q p m b lk' B) as (s' & c' & Hr & (P1 & P2 & P3 & P4 & P5 & P6)); auto.
  - intros x Hx. discriminate.
  - intros r x Hx. split; [|apply (HB r x Hx)]. apply (Hok r). unfold look in *. rewrite get_app, Hg. exact Hx.
  - exists s'. split; [auto|].
    assert (Hout : same_outside s s' (p ++ [m])).
    { intros r Hr'. rewrite P1. eapply look_insert_out; eauto. }
    split; [|split; [auto|split; [|auto]]].
    + intros r. specialize (P2 r). assert (E1 : look (f_root s) (q ++ r) = look (Dir i es) r) by (unfold look; rewrite get_app, Hg; auto). rewrite E1.
      assert (E2 : look (f_root s') ((p ++ [m]) ++ r) = look c' r).
      { unfold look. rewrite P1. rewrite <- app_assoc. cbn [app]. rewrite (get_insert_new p m c' _ di dl r G1 G2). reflexivity. }
      rewrite E2. auto.
    + intros r. apply Hout. destruct (below (p ++ [m]) (q ++ r)) eqn:E; auto. exfalso. apply below_spec in E as [v E].
      destruct (below (p ++ [m]) q) eqn:E2; [erewrite present_not_below in E2; eauto; discriminate|].
      assert (E3 : below q (p ++ [m]) = true \/ below (p ++ [m]) q = true); [|destruct E3; congruence].
      clear - E. revert q E. generalize (p ++ [m]) as D. induction D as [|a D IH]; intros [|b q] E; cbn; auto.
      cbn in E. injection E as -> E. rewrite str_eqb_refl. cbn. apply (IH q E).
Qed.

(** The directory /a holds a file, a symlink and a directory with a file. *)
Example C34_example : let k := demo_choices in let s := demo in let l := [co_recursive; co_copy_symlinks] in
  copying_tree l /\ sees k s (lit "/a") (from_follows l) (Val (NDir 2)) /\ leads_to k s (lit "/a") [lit "a"] (NDir 2) /\
  names_missing k s (lit "/b/new") [lit "b"] (lit "new") /\ below [lit "a"] [lit "b"] = false /\
  (forall r x, look (f_root s) ([lit "a"] ++ r) = Some (NLeaf x) -> copyable plain_config k s l x) /\
  match run (fsk k) (copy_impl plain_config 40 true (topath (lit "/a")) (topath (lit "/b/new")) (options l)) s with
  | Done (_, None) s' => look (f_root s') [lit "b"; lit "new"; lit "d"; lit "g"] <> None /\ get (f_root s') [lit "a"] = get (f_root s) [lit "a"] /\
      (exists j, look (f_root s') [lit "b"; lit "new"; lit "f"] = Some (NLeaf j) /\ f_body s' j = BReg (lit "hello")) /\
      (exists j, look (f_root s') [lit "b"; lit "new"; lit "l"] = Some (NLeaf j) /\ f_body s' j = BLink (lit "../b"))
  | _ => False
  end.
Proof.
  intros k s l. split; [repeat split; cbn; intuition discriminate|].
  split; [right; [unfold from_follows; cbn; tauto|vm_compute; reflexivity]|].
  split; [exists 40; split; vm_compute; reflexivity|]. split; [vm_compute; reflexivity|]. split; [reflexivity|]. split.
  - intros r x Hx. unfold look in Hx. 
    destruct r as [|a r]; [vm_compute in Hx; discriminate|].
    assert (Hreg : forall y, (y = 3 \/ y = 6)%N -> copyable plain_config k s l y).
    { intros y [-> | ->]; left; eexists; (split; [reflexivity|]); left; split; vm_compute; auto; discriminate. }
    change (option_map node_of (get (Dir 2 [(lit "f", Leaf 3); (lit "l", Leaf 4); (lit "d", Dir 5 [(lit "g", Leaf 6)])]) (a :: r)) = Some (NLeaf x)) in Hx.
    cbn [get assoc] in Hx. destruct (str_eqb (lit "f") a); [|destruct (str_eqb (lit "l") a); [|destruct (str_eqb (lit "d") a)]].
    + destruct r; cbn in Hx; [|discriminate]. injection Hx as <-. apply Hreg. auto.
    + destruct r; cbn in Hx; [|discriminate]. injection Hx as <-. right. exists (lit "../b"). split; [reflexivity|]. split; [right; left; auto|]. split; [discriminate|vm_compute; discriminate].
    + destruct r as [|a2 r]; cbn in Hx; [discriminate|]. cbn [assoc] in Hx. destruct (str_eqb _ a2); [|discriminate]. destruct r; cbn in Hx; [|discriminate]. injection Hx as <-. apply Hreg. auto.
    + discriminate.
  - vm_compute. split; [discriminate|]. split; [reflexivity|]. split; eexists; split; reflexivity.
Qed.

(** Without copy_symlinks, a symlink to a regular file in the source stops the copy with an error; the rest of the tree is not copied. *)
Theorem C34_symlink_refuted : exists k s from to, wf s /\
  (exists q i, leads_to k s from q (NDir i) /\ below q [lit "a"] = false) /\ names_missing k s to [lit "a"] (lit "new") /\
  forall has, match run (fsk k) (copy_impl plain_config 40 has (topath from) (topath to) (options [co_recursive])) s with
    | Done (_, e) s' => e = Some ENOTSUP /\ exists j, get (f_root s') [lit "a"; lit "new"] = Some (Dir j [])
    | Failed f s' => f = FThrow (Some ENOTSUP) [topath (to ++ lit "/k"); topath (from ++ lit "/k")]
    end.
Proof.
  exists demo_choices, demo_filelink, (lit "/b"), (lit "/a/new").
  split; [|split; [exists [lit "b"], 7%N; split; [exists 40; split; vm_compute; reflexivity|reflexivity]|split; [vm_compute; reflexivity|]]].
  - constructor.
    + cbn. repeat match goal with
        | |- _ /\ _ => split
        | |- NoDup _ => constructor
        | |- Forall _ _ => constructor
        | |- ~ In _ _ => cbn; intuition discriminate
        | |- True => exact Logic.I
        | |- _ => reflexivity
        end.
    + cbn. eauto.
    + cbn. intros i Hi. repeat destruct Hi as [<-|Hi]; try reflexivity. destruct Hi.
  - intros []; vm_compute; eauto.
Qed.

(** An error while the source is being read is lost: readdir fails before the entry [name], and copy returns without error although the rest is not copied. *)
Definition damaged (k : choices) (name : str) : kernel fs := fun c =>
  match c as c return fs -> answer c * fs with
  | c_readdir d => fun s =>
      match fst (sys_readdir s d) with
      | Val (Some (x, _)) => if str_eqb x name then (Err (EOther 5), s) else fsk k (c_readdir d) s
      | _ => fsk k (c_readdir d) s
      end
  | c => fsk k c
  end.
Theorem C34_read_error_refuted : exists k s name from to, wf s /\
  (exists q i, leads_to k s from q (NDir i) /\ below q [lit "b"] = false /\ look (f_root s) (q ++ [lit "d"]) <> None) /\
  names_missing k s to [lit "b"] (lit "new") /\
  forall has, match run (damaged k name) (copy_impl plain_config 40 has (topath from) (topath to) (options [co_recursive; co_copy_symlinks])) s with
    | Done (_, e) s' => e = None /\ (exists j, look (f_root s') [lit "b"; lit "new"] = Some (NDir j)) /\ look (f_root s') [lit "b"; lit "new"; lit "d"] = None
    | Failed f s' => False
    end.
Proof.
  exists demo_choices, demo, (lit "l"), (lit "/a"), (lit "/b/new"). split; [apply demo_wf|].
  split; [exists [lit "a"], 2%N; split; [exists 40; split; vm_compute; reflexivity|split; [reflexivity|vm_compute; discriminate]]|].
  split; [vm_compute; reflexivity|]. intros []; vm_compute; eauto.
Qed.

Print Assumptions C34_copy_tree_partial.
Print Assumptions C34_symlink_refuted.
Print Assumptions C34_read_error_refuted.
