(** Properties of remove_all on the file system of FS.v. *)
From Coq Require Import Ascii String Bool Arith NArith ZArith Lia.
From Verif Require Import Str PathModel PathSpec StrProofs PathProofs PathOps PathOps2 PathReach PathLaws
  FlagsModel TimeModel Prog DirModel OpsModel OpsProps FS FSProofs FSSpec FSOps FSPlace FSProps IterProps FSIter.
From Coq Require Import List.
Import ListNotations.

(** * Vocabulary *)

(** The number of entries of a tree, itself included. *)
Fixpoint entries (t : tree) : nat :=
  match t with Leaf _ => 1 | Dir _ l => S (list_sum (map (fun e => entries (snd e)) l)) end.

(** The number of names of the object [i] in a tree. *)
Fixpoint names_of (i : N) (t : tree) : nat :=
  match t with
  | Leaf j => if N.eqb i j then 1 else 0
  | Dir _ l => list_sum (map (fun e => names_of i (snd e)) l)
  end.

(** The state with the directory at [q] empty. *)
Definition emptied (s : fs) (q : loc) : fs := set_root s (alter (fun _ => []) q (f_root s)).

(** [t] names the entry at [q], without a symlink followed at the end, and does so even when the directory at [q] is empty:
    the path does not lead through the inside of [q]. *)
Definition reaches (k : choices) (s : fs) (t : str) (q : loc) : Prop :=
  (exists l, find_at k (emptied s q) false t = Found l q) /\ (exists l, find_entry k (emptied s q) t = Found l q).

(** [t] leads to the directory at [q], even when that directory is empty. *)
Definition enters (k : choices) (s : fs) (t : str) (q : loc) : Prop := exists l, find_at k (emptied s q) false t = Found l q.
(** The same with a symlink followed at the end. *)
Definition opens (k : choices) (s : fs) (t : str) (q : loc) : Prop := exists l, find_at k (emptied s q) true t = Found l q.

(** The content of the directory at [q] is gone and the directory is still there; everything else is as in [subtree_gone]. *)
Definition content_gone (s s' : fs) (q : loc) (i : N) (l : list (str * tree)) : Prop :=
  get (f_root s') q = Some (Dir i []) /\
  same_outside s s' q /\ f_body s' = f_body s /\ f_next s' = f_next s /\ same_process s s' /\
  (forall j, f_meta s' j = add_link (f_meta s j) (- Z.of_nat (names_of j (Dir i l)))).

(** The subtree [c] at [q] is gone; every other place holds the same object; contents, current directory, open files and
    streams are the same; each object has as many names less as it had in the subtree, attributes are otherwise the same. *)
Definition subtree_gone (s s' : fs) (q : loc) (c : tree) : Prop :=
  (forall r, below q r = true -> look (f_root s') r = None) /\
  same_outside s s' q /\ f_body s' = f_body s /\ f_next s' = f_next s /\ same_process s s' /\
  (forall i, f_meta s' i = add_link (f_meta s i) (- Z.of_nat (names_of i c))).

(** * Auxiliary lemmas *)

Fixpoint need (t : tree) : nat :=
  match t with Leaf _ => 1 | Dir _ l => 4 + length l + list_sum (map (fun e => need (snd e)) l) end.

Definition removed (s s' : fs) (q : loc) (c : tree) : Prop :=
  f_root s' = delete_at (removelast q) (last q []) (f_root s) /\ f_body s' = f_body s /\ f_next s' = f_next s /\
  same_process s s' /\ (forall i, f_meta s' i = add_link (f_meta s i) (- Z.of_nat (names_of i c))).

Lemma emptied_extends : forall s s' q g, f_root s' = alter g q (f_root s) -> f_body s' = f_body s -> f_cwd s' = f_cwd s ->
  extends (emptied s q) s'.
Proof.
  intros s s' q g Hr Hb Hc. split; [|split; [|exact Hc]].
  - intros r x H. cbn [emptied set_root f_root] in H. rewrite Hr.
    destruct (below q r) eqn:Hq; [|rewrite look_alter_out in * by auto; auto].
    apply below_spec in Hq as [r' ->]. destruct r' as [|n r'].
    { rewrite app_nil_r in *. rewrite look_alter_out in * by auto. auto. }
    destruct (get (f_root s) q) as [[i|i l]|] eqn:Hg.
    2: { unfold look in H. rewrite (get_alter_in _ _ _ _ _ (n :: r') Hg) in H. discriminate. }
    all: rewrite alter_missing in * by (intros; congruence); auto.
  - intros r i _. unfold link_text. cbn [emptied set_root f_body]. rewrite Hb. reflexivity.
Qed.

Lemma emptied_root : forall s s' q g, f_root s' = alter g q (f_root s) -> f_root (emptied s' q) = f_root (emptied s q).
Proof. intros s s' q g H. cbn [emptied set_root f_root]. rewrite H, alter_alter. reflexivity. Qed.

Lemma reaches_same : forall k s s' t q g, f_root s' = alter g q (f_root s) -> f_body s' = f_body s -> f_cwd s' = f_cwd s ->
  reaches k s t q -> reaches k s' t q.
Proof.
  intros k s s' t q g Hr Hb Hc [[l Hl] [m Hm]].
  assert (E : extends (emptied s q) (emptied s' q)).
  { apply (emptied_extends s (emptied s' q) q (fun _ => [])); auto. cbn [emptied set_root f_root]. rewrite Hr, alter_alter. reflexivity. }
  split; [exists l; eapply find_extends; eauto|exists m; eapply entry_extends; eauto].
Qed.

Lemma enters_same : forall k s s' t q g, f_root s' = alter g q (f_root s) -> f_body s' = f_body s -> f_cwd s' = f_cwd s ->
  enters k s t q -> enters k s' t q.
Proof.
  intros k s s' t q g Hr Hb Hc [l Hl].
  assert (E : extends (emptied s q) (emptied s' q)).
  { apply (emptied_extends s (emptied s' q) q (fun _ => [])); auto. cbn [emptied set_root f_root]. rewrite Hr, alter_alter. reflexivity. }
  exists l. eapply find_extends; eauto.
Qed.
Lemma enters_find : forall k s t q, enters k s t q -> exists l, find_at k s false t = Found l q.
Proof.
  intros k s t q [l Hl].
  assert (E : extends (emptied s q) s).
  { destruct (get (f_root s) q) as [[i|i es]|] eqn:Hg.
    2: { apply (emptied_extends s s q (fun l => l)); auto. symmetry. eapply alter_id; eauto. }
    all: apply (emptied_extends s s q (fun l => l)); auto; symmetry; apply alter_missing; intros; congruence. }
  exists l. eapply find_extends; eauto.
Qed.

Lemma opens_same : forall k s s' t q g, f_root s' = alter g q (f_root s) -> f_body s' = f_body s -> f_cwd s' = f_cwd s ->
  opens k s t q -> opens k s' t q.
Proof.
  intros k s s' t q g Hr Hb Hc [l Hl].
  assert (E : extends (emptied s q) (emptied s' q)).
  { apply (emptied_extends s (emptied s' q) q (fun _ => [])); auto. cbn [emptied set_root f_root]. rewrite Hr, alter_alter. reflexivity. }
  exists l. eapply find_extends; eauto.
Qed.
Lemma opens_find : forall k s t q, opens k s t q -> exists l, find_at k s true t = Found l q.
Proof.
  intros k s t q [l Hl].
  assert (E : extends (emptied s q) s).
  { destruct (get (f_root s) q) as [[i|i es]|] eqn:Hg.
    2: { apply (emptied_extends s s q (fun l => l)); auto. symmetry. eapply alter_id; eauto. }
    all: apply (emptied_extends s s q (fun l => l)); auto; symmetry; apply alter_missing; intros; congruence. }
  exists l. eapply find_extends; eauto.
Qed.

Lemma reaches_find : forall k s t q, reaches k s t q ->
  (exists l, find_at k s false t = Found l q) /\ (exists l, find_entry k s t = Found l q).
Proof.
  intros k s t q [[l Hl] [m Hm]].
  assert (E : extends (emptied s q) s).
  { destruct (get (f_root s) q) as [[i|i es]|] eqn:Hg.
    2: { apply (emptied_extends s s q (fun l => l)); auto. symmetry. eapply alter_id; eauto. }
    all: apply (emptied_extends s s q (fun l => l)); auto; symmetry; apply alter_missing; intros; congruence. }
  split; [exists l; eapply find_extends; eauto|exists m; eapply entry_extends; eauto].
Qed.

Lemma find_dir_true : forall k s t l q i, find_at k s false t = Found l q -> look (f_root s) q = Some (NDir i) ->
  find_at k s true t = Found l q.
Proof.
  intros k s t l q i H Hq. unfold find_at, resolve_comps in *. destruct (is_nil t); [discriminate|].
  apply steps_last; auto. intros j Hj. congruence.
Qed.

Lemma enters_opens : forall k s t q i l, enters k s t q -> get (f_root s) q = Some (Dir i l) -> opens k s t q.
Proof.
  intros k s t q i l [m Hm] Hg. exists m. apply (find_dir_true _ _ _ _ _ i Hm). cbn [emptied set_root f_root]. rewrite look_alter_out by auto. apply look_dir. eauto.
Qed.

Lemma wf_emptied : forall s q, wf s -> wf (emptied s q).
Proof.
  intros s q Hw. destruct (get (f_root s) q) as [[i|i l]|] eqn:Hg.
  2: { destruct Hw as [W1 [ri [rl Hr]] W3]. constructor; cbn [emptied set_root f_root f_next].
       - eapply wf_alter; eauto. apply wf_tree_dir. repeat constructor.
       - rewrite Hr. destruct q; cbn; eauto.
       - intros x Hx. apply inodes_alter in Hx as [Hx|(i' & l' & Hg' & Hx)]; auto.
         apply W3. eapply inodes_get; eauto. cbn in *. tauto. }
  all: apply (wf_unchanged s); auto; cbn [emptied set_root f_root]; apply alter_missing; intros; congruence.
Qed.

Lemma reaches_child : forall k s t q i l n c, wf s -> opens k s t q -> get (f_root s) q = Some (Dir i l) -> assoc n l = Some c ->
  reaches k s (append_text t n) (q ++ [n]).
Proof.
  intros k s t q i l n c Hw [m Hm] Hg Hn.
  assert (Hname : good_name n = true).
  { apply (wf_name (f_root s) q n (node_of c)); [apply wf_root; auto|]. apply look_get. exists c. rewrite get_snoc, Hg. auto. }
  set (s1 := emptied s (q ++ [n])).
  assert (Hroot : f_root s1 = alter (update n (alter (fun _ => []) [])) q (f_root s)).
  { unfold s1. cbn [emptied set_root f_root].
    clear. generalize (f_root s). induction q as [|a q IH]; intros [j|j l]; cbn; auto. f_equal. 
    apply update_ext. intros. apply IH. }
  assert (Hq0 : look (f_root (emptied s q)) q = Some (NDir i)).
  { cbn [emptied set_root f_root]. rewrite look_alter_out by auto. apply look_dir. eauto. }
  pose proof Hm as Ht.
  assert (E : extends (emptied s q) s1) by (eapply emptied_extends; eauto).
  assert (Ht1 : find_at k s1 true t = Found m q) by (eapply find_extends; eauto).
  assert (Hq1 : look (f_root s1) q = Some (NDir i)) by (apply E; auto).
  assert (Hw1 : wf s1) by (apply wf_emptied; auto).
  assert (Hc1 : exists x, look (f_root s1) (q ++ [n]) = Some x).
  { unfold s1. cbn [emptied set_root f_root]. rewrite look_alter_out by auto. exists (node_of c). apply look_get. exists c. rewrite get_snoc, Hg. auto. }
  destruct Hc1 as [x Hx].
  assert (Hst : steps (look (f_root s1)) (link_text s1) false m q [n] = Found m (q ++ [n])).
  { rewrite steps_child with (i := i) by auto. rewrite Hx. destruct x as [j|j]; auto. destruct (link_text s1 j); auto. }
  split; exists m; fold s1; [rewrite (find_child k s1 false t n m q i)|rewrite (entry_child k s1 t n m q i)]; auto.
Qed.

Lemma delete_alter : forall f p n t, delete_at p n (alter f (p ++ [n]) t) = delete_at p n t.
Proof.
  intros f p n. unfold delete_at. induction p as [|a p IH]; intros [i|i l]; cbn; auto; f_equal.
  - induction l as [|[m x] l IHl]; cbn; auto. destruct (str_eqb m n) eqn:E; cbn; rewrite E; congruence.
  - rewrite update_update. apply update_ext. intros. apply IH.
Qed.

Lemma to_u64_add : forall a b, to_u64 (to_u64 a + b) = to_u64 (a + b).
Proof. intros. unfold to_u64. apply Z.add_mod_idemp_l. lia. Qed.
Lemma to_u64_add_r : forall a b, to_u64 (a + to_u64 b) = to_u64 (a + b).
Proof. intros. unfold to_u64. apply Z.add_mod_idemp_r. lia. Qed.

Lemma add_link_add : forall m a b, add_link (add_link m a) b = add_link m (a + b).
Proof. intros [] a b. unfold add_link. cbn. f_equal. lia. Qed.
Lemma add_link_0 : forall m, add_link m 0 = m.
Proof. intros []. unfold add_link. cbn. f_equal. lia. Qed.

Lemma last_name_child : forall t n, good_name n = true -> last_name (append_text t n) = n.
Proof.
  intros t n H. apply good_plain in H as (_ & Hn & Hne & _). unfold last_name.
  assert (Hs : starts_slash n = false) by (destruct n; [congruence|apply noslash_cons in Hn; cbn; tauto]).
  rewrite append_text_before by auto. rewrite names_before. rewrite (names_noslash n) by auto. apply last_snoc.
Qed.


(** The last step: remove(p) of a leaf or an emptied directory. *)
Lemma run_remove_last : forall k s p q c, find_entry k s (native p) = c -> forall l, c = Found l q -> q <> [] ->
  plain (last_name (native p)) = true ->
  forall t, get (f_root s) q = Some t ->
  match t with
  | Leaf i => ends_slash (native p) = false ->
      run (fsk k) (remove_impl true p) s = Done (true, None) (unlink s (removelast q) (last q []) i)
  | Dir _ [] => run (fsk k) (remove_impl true p) s = Done (true, None) (set_root s (delete_at (removelast q) (last q []) (f_root s)))
  | Dir _ (_ :: _) => True
  end.
Proof.
  intros k s p q c E l -> Hq Hp t Hg. unfold remove_impl, empty. fold (native p).
  assert (Hn : is_nil (native p) = false).
  { unfold find_entry, resolve_comps in E. destruct (is_nil (native p)); [discriminate|auto]. }
  rewrite Hn. unfold plain in Hp. apply andb_true_iff in Hp as [Hp Hp2]. apply andb_true_iff in Hp as [_ Hp1].
  apply negb_true_iff in Hp1, Hp2.
  assert (Hq' : is_nil q = false) by (destruct q; [congruence|reflexivity]).
  assert (Hrun : forall A (f : res unit -> prog A), run (fsk k) (Sys (c_remove (native p)) f) s = run (fsk k) (f (fst (sys_remove k s (native p)))) (snd (sys_remove k s (native p)))).
  { intros. rewrite run_sys. reflexivity. }
  rewrite Hrun. unfold sys_remove. rewrite E, Hp1, Hp2, Hq', Hg. destruct t as [i|i [|e m]]; auto. intros ->. reflexivity.
Qed.

Lemma leaf_no_slash : forall k s t l q i, wf s -> find_at k s false t = Found l q -> look (f_root s) q = Some (NLeaf i) -> ends_slash t = false.
Proof.
  intros k s t l q i Hw H Hq. destruct (ends_slash t) eqn:He; auto. exfalso.
  unfold find_at, FS.comps, resolve_comps in H. rewrite He in H. cbn [andb] in H. destruct (is_nil t) eqn:Ht; [discriminate|].
  destruct (names t) as [|a ns] eqn:Hn.
  - cbn [is_nil negb app] in H. rewrite steps_nil in H. injection H as <- <-.
    assert (Hs : starts_slash t = true).
    { apply only_slashes_names in Hn. destruct t as [|x t]; [discriminate|]. cbn in *. apply andb_true_iff in Hn. tauto. }
    rewrite Hs in Hq. destruct (look_root s Hw) as [j Hj]. congruence.
  - cbn [is_nil negb] in H. rewrite steps_app in H by discriminate.
    destruct (steps (look (f_root s)) (link_text s) true (k_links k) (if starts_slash t then [] else f_cwd s) (a :: ns)) as [m r| |]; try discriminate.
    rewrite steps_cons in H. destruct (look (f_root s) r) as [[j|j]|] eqn:Hr; try discriminate.
    change (str_eqb (lit ".") (lit ".")) with true in H. cbn iota in H. rewrite steps_nil in H. injection H as <- <-. congruence.
Qed.

Definition removes (cf : config) (k : choices) (c : tree) : Prop :=
  forall s p q n, wf s -> canon p -> get (f_root s) q = Some c -> q <> [] -> reaches k s (native p) q ->
    plain (last_name (native p)) = true -> need c <= n ->
    exists s', run (fsk k) (do_remove_all_impl cf n p) s = Done (to_u64 (Z.of_nat (entries c)), None) s' /\ removed s s' q c.

Lemma run_remove_loop : forall cf k p q i h ds n r name c, Forall (fun e => removes cf k (snd e)) ((name, c) :: r) -> canon p -> 
  (forall e, In e ((name, c) :: r) -> need (snd e) <= n) -> 1 <= n ->
  forall s p' d kf count, wf s -> opens k s (native p) q -> get (f_root s) q = Some (Dir i ((name, c) :: r)) ->
  f_dirs s = (h, listing k s r) :: ds -> canon p' -> native p' = append_text (native p) name -> S (length r) < kf ->
  exists s', run (fsk k) (remove_loop cf (do_remove_all_impl cf n) n kf (Some (Stream (Some h) p (Entry p' d))) None count) s =
      Done (to_u64 (count + Z.of_nat (list_sum (map (fun e => entries (snd e)) ((name, c) :: r)))), None) s' /\
    f_root s' = alter (fun _ => []) q (f_root s) /\ f_body s' = f_body s /\ f_next s' = f_next s /\
    f_cwd s' = f_cwd s /\ f_fds s' = f_fds s /\ f_dirs s' = ds /\ f_env s' = f_env s /\
    (forall j, f_meta s' j = add_link (f_meta s j) (- Z.of_nat (list_sum (map (fun e => names_of j (snd e)) ((name, c) :: r))))).
Proof.
  intros cf k p q i h ds n. induction r as [|[name2 c2] r IH]; intros name c HF Hp Hneed Hn s p' d kf count Hw Hr Hg Hd Hp' Hnp Hk;
    (destruct kf as [|kf]; [cbn in Hk; lia|]).
  - inversion HF as [|? ? Hc _]; subst. cbn [snd] in Hc.
    assert (Hgn : good_name name = true).
    { pose proof (wf_get _ _ _ (wf_root s Hw) Hg) as Hwt. apply wf_tree_dir in Hwt as (_ & Hgn & _). inversion Hgn. auto. }
    assert (Ha : assoc name [(name, c)] = Some c) by (cbn; rewrite str_eqb_refl; reflexivity).
    destruct (Hc s p' (q ++ [name]) n) as (s1 & Hrun & R1 & R2 & R3 & (R4 & R5 & R6 & R7) & R8); auto.
    { rewrite get_snoc, Hg. auto. }
    { destruct q; discriminate. }
    { rewrite Hnp. eapply reaches_child; eauto. }
    { rewrite Hnp, last_name_child by auto. apply good_plain in Hgn. tauto. }
    { apply (Hneed (name, c)). left. reflexivity. }
    rewrite removelast_snoc, last_snoc in R1.
    destruct n as [|n]; [lia|]. destruct kf as [|kf]; [cbn in Hk; lia|].
    exists (set_dirs s1 ds). split.
    { change (remove_loop cf (do_remove_all_impl cf (S n)) (S n) (S (S kf)) (Some (Stream (Some h) p (Entry p' d))) None count) with
        (let! r := unwinding (let! e := Ret (Entry p' d) in do_remove_all_impl cf (S n) (de_path e)) (dir_iter_destroy (Some (Stream (Some h) p (Entry p' d)))) in
         if failed (snd r) then let! _ := dir_iter_destroy (Some (Stream (Some h) p (Entry p' d))) in Ret (u64_max, snd r)
         else let! j := dir_iter_increment cf (S n) true (Some (Stream (Some h) p (Entry p' d))) in
              remove_loop cf (do_remove_all_impl cf (S n)) (S n) (S kf) (fst j) (snd j) (to_u64 (count + fst r))).
      rewrite run_bind, run_unwinding, run_bind. cbn [run de_path]. rewrite Hrun. cbn [failed snd fst].
      rewrite run_bind. unfold dir_iter_increment. rewrite run_bind.
      rewrite (fs_advance_end cf k n s1 h ds) by (rewrite R6; exact Hd). cbn [failed]. cbn [run fst snd remove_loop is_end failed orb].
      f_equal. f_equal. cbn [map list_sum fold_right snd]. rewrite to_u64_add_r. f_equal. lia. }
    cbn [set_dirs f_root f_body f_next f_cwd f_fds f_dirs f_env f_meta]. repeat split; auto.
    + rewrite R1. unfold delete_at. apply (alter_ext _ _ _ _ _ _ Hg). cbn. rewrite str_eqb_refl. reflexivity.
    + intros j. rewrite R8. cbn [map list_sum fold_right snd]. f_equal. lia.
  - inversion HF as [|? ? Hc HF']; subst. cbn [snd] in Hc.
    pose proof (wf_get _ _ _ (wf_root s Hw) Hg) as Hwt. apply wf_tree_dir in Hwt as (_ & Hgn & _).
    inversion Hgn as [|? ? Hname Hgn']; subst. inversion Hgn' as [|? ? Hname2 _]; subst. cbn [fst] in *.
    assert (Ha : assoc name ((name, c) :: (name2, c2) :: r) = Some c) by (cbn; rewrite str_eqb_refl; reflexivity).
    destruct (Hc s p' (q ++ [name]) n) as (s1 & Hrun & R1 & R2 & R3 & (R4 & R5 & R6 & R7) & R8); auto.
    { rewrite get_snoc, Hg. auto. }
    { destruct q; discriminate. }
    { rewrite Hnp. eapply reaches_child; eauto. }
    { rewrite Hnp, last_name_child by auto. apply good_plain in Hname. tauto. }
    { apply (Hneed (name, c)). left. reflexivity. }
    rewrite removelast_snoc, last_snoc in R1.
    destruct n as [|n]; [lia|].
    assert (Hg1 : get (f_root s1) q = Some (Dir i ((name2, c2) :: r))).
    { rewrite R1. unfold delete_at. rewrite (get_alter_at _ _ _ _ _ Hg). cbn. rewrite str_eqb_refl. reflexivity. }
    assert (Hdt : forall x, dtype_of k s1 x = dtype_of k s x) by (intros; unfold dtype_of; rewrite R2; reflexivity).
    assert (Hlist : listing k s1 r = listing k s r) by (unfold listing; apply map_ext; intros; rewrite Hdt; reflexivity).
    destruct (fs_advance cf k n s1 h name2 (dtype_of k s c2) (listing k s r) ds p (Entry p' d)) as (p2 & Hadv & Hc2 & Hn2); auto.
    { rewrite R6. exact Hd. }
    { apply dtype_of_ok. }
    set (s2 := set_dirs s1 ((h, listing k s r) :: ds)) in *.
    destruct (IH name2 c2 HF' Hp) with (s := s2) (p' := p2) (d := iter_data d (told (dtype_of k s c2))) (kf := kf)
      (count := to_u64 (count + to_u64 (Z.of_nat (entries c)))) as (s3 & J1 & J2 & J3 & J4 & J5 & J6 & J7 & J8 & J9); auto.
    { intros e He. apply Hneed. right. auto. }
    { apply (wf_deleted s s2 q name); auto. }
    { apply (opens_same k s s2 _ q (delete name)); auto. }
    { change (listing k s2 r) with (listing k s1 r). rewrite Hlist. reflexivity. }
    { cbn [length] in Hk. lia. }
    exists s3. split.
    { change (remove_loop cf (do_remove_all_impl cf (S n)) (S n) (S kf) (Some (Stream (Some h) p (Entry p' d))) None count) with
        (let! r := unwinding (let! e := Ret (Entry p' d) in do_remove_all_impl cf (S n) (de_path e)) (dir_iter_destroy (Some (Stream (Some h) p (Entry p' d)))) in
         if failed (snd r) then let! _ := dir_iter_destroy (Some (Stream (Some h) p (Entry p' d))) in Ret (u64_max, snd r)
         else let! j := dir_iter_increment cf (S n) true (Some (Stream (Some h) p (Entry p' d))) in
              remove_loop cf (do_remove_all_impl cf (S n)) (S n) kf (fst j) (snd j) (to_u64 (count + fst r))).
      rewrite run_bind, run_unwinding, run_bind. cbn [run de_path]. rewrite Hrun. cbn [failed snd fst].
      rewrite run_bind. unfold dir_iter_increment. rewrite run_bind, Hadv. cbn iota. cbn [run fst snd de_data]. rewrite J1.
      f_equal. f_equal. rewrite to_u64_add_r, to_u64_add. f_equal. cbn [map list_sum fold_right snd]. lia. }
    split; [|split; [|split; [|split; [|split; [|split; [|split]]]]]].
    + rewrite J2. change (f_root s2) with (f_root s1). rewrite R1. unfold delete_at. rewrite alter_alter. reflexivity.
    + rewrite J3. exact R2.
    + rewrite J4. exact R3.
    + rewrite J5. exact R4.
    + rewrite J6. exact R5.
    + exact J7.
    + rewrite J8. exact R7.
    + intros j. rewrite J9. change (f_meta s2 j) with (f_meta s1 j). rewrite R8, add_link_add. cbn [map list_sum fold_right snd]. f_equal. lia.
Qed.

Lemma need_in : forall e (l : list (str * tree)), In e l -> need (snd e) <= list_sum (map (fun e => need (snd e)) l).
Proof.
  induction l as [|x l IH]; intros H; [destruct H|]. change (list_sum (map (fun e => need (snd e)) (x :: l))) with
    (need (snd x) + list_sum (map (fun e => need (snd e)) l)). destruct H as [->|H]; [lia|]. apply IH in H. lia.
Qed.

Lemma run_contents : forall cf k s p q i l n, Forall (fun e => removes cf k (snd e)) l -> wf s -> canon p ->
  get (f_root s) q = Some (Dir i l) -> opens k s (native p) q -> need (Dir i l) <= S n ->
  exists s1, run (fsk k) (let! j := dir_iter_ctor cf n true p 0 in remove_loop cf (do_remove_all_impl cf n) n n (fst j) (snd j) 1%Z) s =
    Done (to_u64 (Z.of_nat (entries (Dir i l))), None) s1 /\
  f_root s1 = alter (fun _ => []) q (f_root s) /\ f_body s1 = f_body s /\ f_next s1 = f_next s /\
  f_cwd s1 = f_cwd s /\ f_fds s1 = f_fds s /\ f_dirs s1 = f_dirs s /\ f_env s1 = f_env s /\
  (forall j, f_meta s1 j = add_link (f_meta s j) (- Z.of_nat (names_of j (Dir i l)))).
Proof.
  intros cf k s p q i l n IH Hw Hp Hg Hr Hn. destruct (opens_find _ _ _ _ Hr) as [m Ht].
  assert (Hq' : look (f_root s) q = Some (NDir i)) by (apply look_dir; eauto).
  cbn [need] in Hn. destruct l as [|[name c] l].
  - exists (new_handle s). split.
    + rewrite run_bind, (fs_ctor_empty cf k n s true p m q i Ht Hg) by (cbn in Hn; lia).
      destruct n as [|n]; [lia|]. reflexivity.
    + cbn [new_handle f_root f_body f_next f_cwd f_fds f_dirs f_env f_meta]. repeat split; auto.
      * symmetry. eapply alter_id; eauto.
      * intros j. cbn. symmetry. apply add_link_0.
  - cbn [length] in Hn. destruct (fs_ctor_cons cf k n s true p m q i name c l Hw Hp Ht Hg ltac:(lia)) as (p' & Hp' & Hnp & Hctor).
    rewrite run_bind, Hctor. cbn [fst snd].
    destruct (run_remove_loop cf k p q i (f_handle s) (f_dirs s) n l name c IH Hp) with
      (s := opened s (listing k s l)) (p' := p') (d := iter_data cache_reset (told (dtype_of k s c))) (kf := n) (count := 1%Z)
      as (s1 & J1 & J2 & J3 & J4 & J5 & J6 & J7 & J8 & J9); auto.
    + intros e He'. assert (H : need (snd e) <= list_sum (map (fun e => need (snd e)) ((name, c) :: l))).
      { apply need_in. auto. }
      lia.
    + lia.
    + apply (wf_unchanged s); auto.
    + lia.
    + exists s1. split; [rewrite J1; f_equal; f_equal; f_equal; cbn [entries]; lia|]. repeat split; auto.
Qed.

Lemma run_removes : forall cf k c, removes cf k c.
Proof.
  intros cf k. induction c as [i|i l IH] using tree_ind'; intros s p q n Hw Hp Hg Hq Hr Hl Hn; (destruct n as [|n]; [cbn in Hn; lia|]);
    destruct (reaches_find _ _ _ _ Hr) as [[m Hf] [m' He]].
  - assert (Hq' : look (f_root s) q = Some (NLeaf i)) by (apply look_leaf; auto).
    pose proof (leaf_no_slash _ _ _ _ _ _ Hw Hf Hq') as Hsl.
    cbn [do_remove_all_impl]. rewrite run_bind, run_symlink_status, Hf. cbn [node_at]. rewrite Hq'. cbn [stat_result fst snd failed].
    assert (Hd : st_is_directory (status_of s (NLeaf i)) = false).
    { unfold st_is_directory, has_type, status_of. cbn [st_type type_of]. destruct (f_body s i) as [| |[]]; reflexivity. }
    rewrite Hd. rewrite run_bind. cbn [run fst snd failed]. rewrite run_bind.
    rewrite (run_remove_last k s p q _ He _ eq_refl Hq Hl _ Hg Hsl). cbn [run fst snd].
    eexists. split; [reflexivity|]. unfold removed, unlink, same_process. cbn. repeat split; auto.
    intros j. unfold upd. destruct (N.eqb_spec j i); [subst; reflexivity|]. cbn. symmetry. apply add_link_0.
  - assert (Hq' : look (f_root s) q = Some (NDir i)) by (apply look_dir; eauto).
    pose proof (find_dir_true _ _ _ _ _ _ Hf Hq') as Ht.
    cbn [do_remove_all_impl]. rewrite run_bind, run_symlink_status, Hf. cbn [node_at]. rewrite Hq'. cbn [stat_result fst snd failed].
    change (st_is_directory (status_of s (NDir i))) with true. cbn iota.
    pose proof (run_contents cf k s p q i l n IH Hw Hp Hg (enters_opens _ _ _ _ _ _ (proj1 Hr) Hg) Hn) as Hloop.
    destruct Hloop as (s1 & L1 & L2 & L3 & L4 & L5 & L6 & L7 & L8 & L9).
    rewrite run_bind, L1. cbn [fst snd failed]. rewrite run_bind.
    assert (Hg1 : get (f_root s1) q = Some (Dir i [])).
    { rewrite L2. apply (get_alter_at _ _ _ _ _ Hg). }
    destruct (reaches_find k s1 (native p) q) as [_ [m2 He2]].
    { eapply (reaches_same k s s1); eauto. }
    rewrite (run_remove_last k s1 p q _ He2 _ eq_refl Hq Hl _ Hg1). cbn [run fst snd].
    eexists. split; [reflexivity|]. unfold removed, same_process. cbn [set_root f_root f_body f_next f_cwd f_fds f_dirs f_env f_meta].
    repeat split; auto. rewrite L2. rewrite (snoc_removelast q Hq) at 3. apply delete_alter.
Qed.

Lemma removed_gone : forall s s' q c, wf s -> get (f_root s) q = Some c -> q <> [] -> removed s s' q c -> subtree_gone s s' q c.
Proof.
  intros s s' q c Hw Hg Hq (R1 & R2 & R3 & R4 & R5). split; [|split; [|repeat split; auto; apply R4]].
  - intros r Hr. apply below_spec in Hr as [r' ->]. rewrite (snoc_removelast q Hq) at 1. rewrite R1, <- app_assoc. cbn [app].
    assert (Hx : look (f_root s) q = Some (node_of c)) by (apply look_get; eauto).
    destruct (look_removelast _ _ _ Hx Hq) as [i Hi]. apply look_dir in Hi as [l Hl].
    apply look_None. eapply get_delete_same; eauto. apply wf_root; auto.
  - intros r Hr. rewrite R1. apply look_delete_out. rewrite <- (snoc_removelast q Hq). auto.
Qed.

(** * C28 remove_all *)

(** remove_all(p) of an entry removes its whole subtree and nothing else and returns the number of entries. A symlink in it, or
    named by p, is removed and what it leads to stays. [n] bounds the depth of the recursion and the length of the loops of the
    model; any large enough one gives the result. *)
Theorem C28_remove_all_partial : forall cf k s has p q c, wf s -> canon p ->
  get (f_root s) q = Some c -> q <> [] -> reaches k s (native p) q -> plain (last_name (native p)) = true ->
  (Z.of_nat (entries c) < 2 ^ 64)%Z ->
  exists N, forall n, N <= n -> exists s',
    run (fsk k) (remove_all_impl cf n has p) s = Done (Z.of_nat (entries c), None) s' /\ subtree_gone s s' q c.
Proof.
  intros cf k s has p q c Hw Hp Hg Hq Hr Hl Hc. exists (need c). intros n Hn.
  destruct (run_removes cf k c s p q n Hw Hp Hg Hq Hr Hl Hn) as (s' & Hrun & Hrem). exists s'.
  split; [|apply removed_gone; auto]. unfold remove_all_impl, empty. fold (native p).
  assert (He : is_nil (native p) = false).
  { destruct Hr as [_ [l E]]. unfold find_entry, resolve_comps in E. destruct (is_nil (native p)); [discriminate|auto]. }
  rewrite He, run_bind, Hrun. cbn [snd fst run]. unfold to_u64. rewrite Z.mod_small by lia. reflexivity.
Qed.

(** The absolute name of any entry will do. *)
Theorem C28_any_entry : forall cf k s has q c, wf s -> get (f_root s) q = Some c -> q <> [] -> (Z.of_nat (entries c) < 2 ^ 64)%Z ->
  exists N, forall n, N <= n -> exists s',
    run (fsk k) (remove_all_impl cf n has (topath (place_text q))) s = Done (Z.of_nat (entries c), None) s' /\ subtree_gone s s' q c.
Proof.
  intros cf k s has q c Hw Hg Hq Hc.
  assert (Hx : look (f_root s) q = Some (node_of c)) by (apply look_get; eauto).
  pose proof (wf_place _ _ _ (wf_root s Hw) Hx) as Hgp.
  assert (Hx' : look (f_root (emptied s q)) q = Some (node_of c)).
  { cbn [emptied set_root f_root]. rewrite look_alter_out by auto. auto. }
  apply C28_remove_all_partial; auto; change (native (topath (place_text q))) with (native (mkpath (place_text q))) || idtac.
  - apply canon_mkpath.
  - rewrite text_place by auto. split; exists (k_links k); [eapply find_place|eapply entry_place]; eauto using wf_emptied.
  - rewrite text_place by auto. unfold last_name. rewrite names_place by auto.
    rewrite (snoc_removelast q Hq), last_snoc in *. apply Forall_app in Hgp as [_ Hgp]. inversion Hgp. apply good_plain. auto.
Qed.

(** Nothing there: 0, no error and no change. *)
Theorem C28_missing : forall cf k s has p n, native p = [] \/ (exists q a, find_at k s false (native p) = Missing q a) \/
    find_at k s false (native p) = Fail ENOENT ->
  run (fsk k) (remove_all_impl cf (S n) has p) s = Done (0%Z, None) s.
Proof.
  intros cf k s has p n H. unfold remove_all_impl, empty. fold (native p).
  destruct (is_nil (native p)) eqn:Hn; [reflexivity|].
  assert (He : node_at s (find_at k s false (native p)) = Err ENOENT).
  { destruct H as [H|[(q & a & ->)| ->]]; auto. rewrite H in Hn. discriminate. }
  rewrite run_bind. cbn [do_remove_all_impl]. rewrite run_bind, run_symlink_status, He. reflexivity.
Qed.

(** * Where the full statement fails *)

(** The content goes first, and the entry after it: what remove(p) says when the directory is empty decides. *)
Lemma run_content : forall cf k s p q i l n, wf s -> canon p -> get (f_root s) q = Some (Dir i l) -> enters k s (native p) q ->
  need (Dir i l) <= S n ->
  exists s1, content_gone s s1 q i l /\ f_root s1 = f_root (emptied s q) /\
    run (fsk k) (do_remove_all_impl cf (S n) p) s =
    run (fsk k) (let! r := remove_impl true p in if fst r then Ret (to_u64 (Z.of_nat (entries (Dir i l))), None) else Ret (u64_max, snd r)) s1.
Proof.
  intros cf k s p q i l n Hw Hp Hg Hr Hn.
  assert (HF : Forall (fun e => removes cf k (snd e)) l) by (apply Forall_forall; intros; apply run_removes).
  destruct (run_contents cf k s p q i l n HF Hw Hp Hg (enters_opens _ _ _ _ _ _ Hr Hg) Hn) as (s1 & L1 & L2 & L3 & L4 & L5 & L6 & L7 & L8 & L9).
  exists s1. split; [|split; [exact L2|]].
  - repeat split; auto.
    + rewrite L2. apply (get_alter_at _ _ _ _ _ Hg).
    + intros r Hb. rewrite L2. apply look_alter_out. auto.
  - destruct (enters_find _ _ _ _ Hr) as [m Hf]. assert (Hq' : look (f_root s) q = Some (NDir i)) by (apply look_dir; eauto).
    cbn [do_remove_all_impl]. rewrite run_bind, run_symlink_status, Hf. cbn [node_at]. rewrite Hq'. cbn [stat_result fst snd failed].
    change (st_is_directory (status_of s (NDir i))) with true. cbn iota. rewrite run_bind, L1. reflexivity.
Qed.

Lemma run_content_fails : forall cf k s p q i l n has e, wf s -> canon p -> get (f_root s) q = Some (Dir i l) -> enters k s (native p) q ->
  need (Dir i l) <= n -> e <> ENOENT -> (forall s1, f_root s1 = f_root (emptied s q) -> f_body s1 = f_body s -> f_cwd s1 = f_cwd s -> sys_remove k s1 (native p) = (Err e, s1)) ->
  exists s1, content_gone s s1 q i l /\
    run (fsk k) (remove_all_impl cf n has p) s = if has then Done (u64_max, Some e) s1 else Failed (FThrow (Some e) [p]) s1.
Proof.
  intros cf k s p q i l n has e Hw Hp Hg Hr Hn He Hs. destruct n as [|n]; [cbn in Hn; lia|].
  destruct (run_content cf k s p q i l n Hw Hp Hg Hr Hn) as (s1 & H1 & H2 & H3). exists s1. split; [auto|].
  assert (Hne : is_nil (native p) = false).
  { destruct Hr as [m Hm]. unfold find_at, resolve_comps in Hm. destruct (is_nil (native p)); [discriminate|auto]. }
  assert (Hse : fst (fsk k (c_remove (native p)) s1) = Err e /\ snd (fsk k (c_remove (native p)) s1) = s1).
  { cbn [fsk]. destruct H1 as (_ & _ & B & _ & (C & _) & _). rewrite (Hs s1 H2 B C). auto. }
  unfold remove_all_impl, empty. fold (native p). rewrite Hne, run_bind, H3, run_bind. unfold remove_impl, empty. fold (native p). rewrite Hne, run_sys.
  destruct (fsk k (c_remove (native p)) s1) as [a s2]. cbn [fst snd] in *. destruct Hse as [-> ->].
  assert (E : errno_eqb e ENOENT = false).
  { unfold errno_eqb. destruct (errno_eq_dec e ENOENT); congruence. }
  rewrite E. cbn. rewrite E. destruct has; reflexivity.
Qed.

(** A trailing slash after a symlink to a directory: the content of the directory it leads to is deleted, then the call fails, whatever the
    directory holds; the symlink stays. *)
Theorem C28_symlink_slash_refuted : forall cf k s has p q i l r j, wf s -> canon p ->
  get (f_root s) q = Some (Dir i l) -> enters k s (native p) q ->
  ends_slash (native p) = true -> (exists m, find_entry k (emptied s q) (native p) = Found m r) -> look (f_root (emptied s q)) r = Some (NLeaf j) ->
  plain (last_name (native p)) = true ->
  exists N, forall n, N <= n -> exists s1, content_gone s s1 q i l /\ look (f_root s1) r = Some (NLeaf j) /\
    run (fsk k) (remove_all_impl cf n has p) s = if has then Done (u64_max, Some ENOTDIR) s1 else Failed (FThrow (Some ENOTDIR) [p]) s1.
Proof.
  intros cf k s has p q i l r j Hw Hp Hg Hr Hs [m Hm] Hj Hl. exists (need (Dir i l)). intros n Hn.
  assert (Hsys : forall s1, f_root s1 = f_root (emptied s q) -> f_body s1 = f_body s -> f_cwd s1 = f_cwd s -> sys_remove k s1 (native p) = (Err ENOTDIR, s1)).
  { intros s1 R B C. unfold sys_remove.
    assert (E : extends (emptied s q) s1).
    { split; [intros; rewrite R; auto|]. split; [intros; unfold link_text; rewrite B; reflexivity|exact C]. }
    rewrite (entry_extends _ _ _ _ _ _ E Hm). unfold plain in Hl. apply andb_true_iff in Hl as [Hl H2]. apply andb_true_iff in Hl as [_ H1].
    apply negb_true_iff in H1, H2. rewrite H1, H2. destruct (is_nil r) eqn:Hnr.
    - apply is_nil_true in Hnr. subst r. exfalso. destruct (look_root (emptied s q) (wf_emptied s q Hw)) as [x Hx]. congruence.
    - apply look_leaf in Hj. rewrite R, Hj, Hs. reflexivity. }
  destruct (run_content_fails cf k s p q i l n has ENOTDIR Hw Hp Hg Hr Hn ltac:(discriminate) Hsys) as (s1 & H1 & H2).
  exists s1. split; [auto|]. split; [|auto]. destruct H1 as (A1 & A2 & _).
  assert (Hb : below q r = true -> r = q \/ False).
  { intros Hb. apply below_spec in Hb as [r' ->]. destruct r' as [|x r']; [left; apply app_nil_r|]. exfalso.
    unfold look in Hj. cbn [emptied set_root f_root] in Hj. rewrite (get_alter_in _ _ _ _ _ (x :: r') Hg) in Hj. discriminate. }
  destruct (below q r) eqn:Ebr.
  - destruct (Hb eq_refl) as [->|[]]. exfalso. cbn [emptied set_root f_root] in Hj. rewrite look_alter_out in Hj by auto.
    apply look_leaf in Hj. congruence.
  - rewrite A2 by auto. cbn [emptied set_root f_root] in Hj. rewrite look_alter_out in Hj by auto. exact Hj.
Qed.
Example C28_symlink_slash_example : exists s',
  names_entry demo_choices demo (native (topath (lit "l"))) [lit "a"; lit "l"] (NLeaf 4) /\ f_body demo 4 = BLink (lit "../b") /\
  enters demo_choices demo (lit "l/") [lit "b"] /\ find_entry demo_choices (emptied demo [lit "b"]) (lit "l/") = Found 40 [lit "a"; lit "l"] /\
  run (fsk demo_choices) (remove_all_impl plain_config 9 true (topath (lit "l/"))) demo = Done (u64_max, Some ENOTDIR) s' /\
  look (f_root demo) [lit "b"; lit "h"] = Some (NLeaf 3) /\
  look (f_root s') [lit "b"; lit "h"] = None /\ look (f_root s') [lit "a"; lit "l"] = Some (NLeaf 4).
Proof.
  eexists. split; [exists 40; split; vm_compute; reflexivity|]. split; [reflexivity|]. split; [eexists; vm_compute; reflexivity|]. split; [vm_compute; reflexivity|].
  split; [vm_compute; reflexivity|]. split; [reflexivity|]. split; vm_compute; reflexivity.
Qed.

(** A path ending in a dot or two, or the root directory: the content is deleted, then the call fails. *)
Theorem C28_dot_refuted : forall cf k s has p q i l, wf s -> canon p -> get (f_root s) q = Some (Dir i l) -> reaches k s (native p) q ->
  q = [] \/ is_dots (last_name (native p)) = true ->
  exists N e, forall n, N <= n -> exists s1, content_gone s s1 q i l /\
    run (fsk k) (remove_all_impl cf n has p) s = if has then Done (u64_max, Some e) s1 else Failed (FThrow (Some e) [p]) s1.
Proof.
  intros cf k s has p q i l Hw Hp Hg [Hr [m Hm]] Hd. exists (need (Dir i l)).
  exists (if is_nil q then EBUSY else if str_eqb (last_name (native p)) (lit ".") then EINVAL else ENOTEMPTY). intros n Hn.
  apply (run_content_fails cf k s p q i l n has); auto.
  - destruct (is_nil q), (str_eqb (last_name (native p)) (lit ".")); discriminate.
  - intros s1 R B C. unfold sys_remove.
    assert (E : extends (emptied s q) s1).
    { split; [intros; rewrite R; auto|]. split; [intros; unfold link_text; rewrite B; reflexivity|exact C]. }
    rewrite (entry_extends _ _ _ _ _ _ E Hm). destruct q as [|x q]; [reflexivity|]. cbn [is_nil].
    destruct Hd as [Hd|Hd]; [discriminate|]. unfold is_dots in Hd.
    destruct (str_eqb (last_name (native p)) (lit ".")); [reflexivity|]. cbn [orb] in Hd. rewrite Hd. reflexivity.
Qed.
Example C28_dot_example : exists s',
  reaches demo_choices demo (lit "d/.") [lit "a"; lit "d"] /\
  run (fsk demo_choices) (remove_all_impl plain_config 9 true (topath (lit "d/."))) demo = Done (u64_max, Some EINVAL) s' /\
  get (f_root s') [lit "a"; lit "d"] = Some (Dir 5 []).
Proof. eexists. split; [split; eexists; vm_compute; reflexivity|]. split; vm_compute; reflexivity. Qed.

(** A path that leads through the inside of what it names: the content is deleted, the directory stays, and the call
    reports no error and the count 2^64 - 1, which stands for failure. *)
Theorem C28_through_itself_refuted : exists s',
  leads_to demo_choices demo (lit "/a/d/../../a") [lit "a"] (NDir 2) /\
  run (fsk demo_choices) (remove_all_impl plain_config 12 true (topath (lit "/a/d/../../a"))) demo = Done (u64_max, None) s' /\
  get (f_root s') [lit "a"] = Some (Dir 2 []).
Proof. eexists. split; [exists 40; split; vm_compute; reflexivity|]. split; vm_compute; reflexivity. Qed.

(** A path through a file does not exist, yet it is an error, whatever the file; nothing has changed. *)
Theorem C28_below_file_refuted : forall cf k s has p n, native p <> [] -> find_at k s false (native p) = Fail ENOTDIR ->
  run (fsk k) (remove_all_impl cf (S n) has p) s = if has then Done (u64_max, Some ENOTDIR) s else Failed (FThrow (Some ENOTDIR) [p]) s.
Proof.
  intros cf k s has p n Hne Hf. unfold remove_all_impl, empty. fold (native p). destruct (is_nil (native p)) eqn:Hn; [apply is_nil_true in Hn; congruence|].
  rewrite run_bind. cbn [do_remove_all_impl]. rewrite run_bind, run_symlink_status, Hf. cbn. destruct has; reflexivity.
Qed.
Example C28_below_file_example : find_at demo_choices demo false (lit "f/x") = Fail ENOTDIR /\
  run (fsk demo_choices) (remove_all_impl plain_config 9 true (topath (lit "f/x"))) demo = Done (u64_max, Some ENOTDIR) demo.
Proof. split; vm_compute; reflexivity. Qed.

(** A non-trivial case: /a holds a file with a second name /b/h, a symlink to /b, and a directory with a file. *)
Example C28_example :
  get (f_root demo) [lit "a"] = Some (Dir 2 [(lit "f", Leaf 3); (lit "l", Leaf 4); (lit "d", Dir 5 [(lit "g", Leaf 6)])]) /\
  reaches demo_choices demo (native (topath (lit "../a"))) [lit "a"] /\
  exists s', run (fsk demo_choices) (remove_all_impl plain_config 12 true (topath (lit "../a"))) demo = Done (5%Z, None) s' /\
    f_root s' = Dir 1 [(lit "b", Dir 7 [(lit "h", Leaf 3)]); (lit "s", Leaf 8)] /\ f_body s' 3 = BReg (lit "hello") /\
    m_nlink (f_meta s' 3) = 1%Z.
Proof.
  split; [reflexivity|]. split; [split; eexists; vm_compute; reflexivity|].
  eexists. split; [vm_compute; reflexivity|]. split; [vm_compute; reflexivity|]. split; vm_compute; reflexivity.
Qed.

Print Assumptions C28_remove_all_partial.
Print Assumptions C28_any_entry.
Print Assumptions C28_missing.
Print Assumptions C28_symlink_slash_refuted.
Print Assumptions C28_dot_refuted.
Print Assumptions C28_through_itself_refuted.
Print Assumptions C28_below_file_refuted.
