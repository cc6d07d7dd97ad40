(** Operations that undo each other, on the file system of FS.v. *)
From Coq Require Import Ascii String Bool Arith NArith ZArith Lia.
From Verif Require Import Str PathModel PathSpec StrProofs PathProofs PathOps PathOps2 PathReach PathLaws ArithProps
  FlagsModel TimeModel Prog DirModel OpsModel OpsProps FS FSProofs FSSpec FSOps FSPlace FSProps FSProps2 FSProps3 FSLike IterProps FSIter FSRemove EntryProps FSCopy FSDispatch FSCopyTree.
From Coq Require Import List.
Import ListNotations.

(** * Vocabulary *)

(** The tree of names is the same, and so are the contents and attributes of every object that existed, the current directory, the open files and the environment. *)
Definition restored (s s2 : fs) : Prop := f_root s2 = f_root s /\ same_bodies s s2 /\ same_metas s s2 /\ same_process s s2.

(** remove(p) in the state [s1] succeeds, says that it removed something, and restores [s]. *)
Definition remove_restores (k : choices) (s : fs) (p : path) (s1 : fs) : Prop :=
  forall has, exists s2, run (fsk k) (remove_impl has p) s1 = Done (true, None) s2 /\ restored s s2.

(** * Auxiliary lemmas *)

Lemma last_app_r : forall A (a b : list A) d, b <> [] -> last (a ++ b) d = last b d.
Proof.
  induction a as [|x a IH]; intros b d H; auto. cbn [app]. destruct (a ++ b) eqn:E.
  - apply app_eq_nil in E as [_ ->]. congruence.
  - rewrite <- E. cbn [last]. rewrite E, <- E. apply IH. auto.
Qed.

Lemma steps_missing_cons : forall lk tg last links cs cur p n, steps lk tg last links cur cs = Missing p n -> cs <> [].
Proof. intros lk tg last links cs cur p n H ->. rewrite steps_nil in H. discriminate. Qed.

Lemma last_cons : forall A (x : A) r d, r <> [] -> last (x :: r) d = last r d.
Proof. intros A x [|y r] d H; [congruence|reflexivity]. Qed.

Lemma steps_missing_is_last : forall lk tg links cs cur p n, steps lk tg false links cur cs = Missing p n -> n = last cs [].
Proof.
  intros lk tg. induction links as [|links IHl]; (induction cs as [|x r IHr]; intros cur p n; [rewrite steps_nil; discriminate|]);
  rewrite steps_cons; destruct (lk cur) as [[i|i]|]; try discriminate.
  all: destruct (str_eqb x (lit ".")); [intros H; rewrite last_cons by (eapply steps_missing_cons; eauto); eapply IHr; eauto|].
  all: destruct (str_eqb x (lit "..")); [intros H; rewrite last_cons by (eapply steps_missing_cons; eauto); eapply IHr; eauto|].
  all: destruct (lk (cur ++ [x])) as [[j|j]|]; [|intros H; rewrite last_cons by (eapply steps_missing_cons; eauto); eapply IHr; eauto|].
  2,4: destruct r; cbn [is_nil]; [|discriminate]; intros H; injection H as <- <-; reflexivity.
  all: destruct (tg j) as [t|]; [|destruct (is_nil r); discriminate]; destruct r as [|y r]; cbn [is_nil andb negb]; try discriminate.
  intros H. apply IHl in H. rewrite last_app_r in H by discriminate. rewrite last_cons by discriminate. auto.
Qed.

Lemma entry_last : forall k s t p n, find_entry k s t = Missing p n -> last_name t = n.
Proof.
  intros k s t p n H. unfold find_entry, resolve_comps in H. destruct (is_nil t); [discriminate|]. apply steps_missing_is_last in H. auto.
Qed.

(** A missing last component with nothing behind it. *)
Lemma missing_entry : forall k s t p n, find_at k s false t = Missing p n -> find_entry k s t = Missing p n /\ ends_slash t = false.
Proof.
  intros k s t p n H. unfold find_at, find_entry, resolve_comps in *. destruct (is_nil t); [discriminate|]. unfold comps in H.
  destruct (ends_slash t && negb (is_nil (names t))) eqn:E.
  - exfalso. pose proof (steps_missing_is_last _ _ _ _ _ _ _ H) as Hl. rewrite last_app_r in Hl by discriminate. apply steps_missing in H as (_ & _ & H). subst n. discriminate.
  - rewrite app_nil_r in H. split; auto. apply andb_false_iff in E as [E|E]; auto. apply negb_false_iff in E. destruct (names t); [|discriminate]. rewrite steps_nil in H. discriminate.
Qed.

Lemma undo_root : forall p n c t i l, get t p = Some (Dir i l) -> assoc n l = None -> delete_at p n (insert_at p n c t) = t.
Proof.
  intros p n c t i l Hg Ha. unfold delete_at, insert_at. rewrite alter_alter. eapply alter_id; eauto. apply delete_snoc. apply assoc_None. auto.
Qed.

(** The entry [c], made at a place that was missing, is removed by its name. *)
Lemma run_undo : forall k s s1 p q n c has, wf s -> find_entry k s (native p) = Missing q n -> extends s s1 ->
  f_root s1 = insert_at q n c (f_root s) -> (match c with Leaf _ => ends_slash (native p) = false | Dir _ l => l = [] end) ->
  exists s2, run (fsk k) (remove_impl has p) s1 = Done (true, None) s2 /\ f_root s2 = f_root s /\ f_body s2 = f_body s1 /\ same_process s1 s2 /\
    (forall i, f_meta s2 i = match c with Leaf j => if (i =? j)%N then add_link (f_meta s1 i) (-1) else f_meta s1 i | Dir _ _ => f_meta s1 i end).
Proof.
  intros k s s1 p q n c has Hw Hm He Hr Hc. pose proof (entry_missing _ _ _ _ _ Hm) as (i & l & G1 & G2 & G3).
  assert (Hget : get (f_root s1) (q ++ [n]) = Some c) by (rewrite Hr; erewrite get_insert_new; eauto).
  assert (Hf : exists lk, find_entry k s1 (native p) = Found lk (q ++ [n])).
  { eapply resolve_fill; [exact He|exact Hm| |]; [apply look_get; eauto|auto]. }
  destruct Hf as [lk Hf]. pose proof (entry_last _ _ _ _ _ Hm) as Hlast.
  assert (Hd : is_dots n = false).
  { unfold find_entry, resolve_comps in Hm. destruct (is_nil (native p)); [discriminate|]. apply steps_missing in Hm. tauto. }
  unfold is_dots in Hd. apply orb_false_iff in Hd as [Hd1 Hd2].
  assert (Hn : is_nil (native p) = false).
  { unfold find_entry, resolve_comps in Hm. destruct (is_nil (native p)); [discriminate|auto]. }
  assert (Hq : is_nil (q ++ [n]) = false) by (destruct q; reflexivity).
  assert (Hrun : forall A (f : res unit -> prog A), run (fsk k) (Sys (c_remove (native p)) f) s1 = run (fsk k) (f (fst (sys_remove k s1 (native p)))) (snd (sys_remove k s1 (native p)))).
  { intros. rewrite run_sys. reflexivity. }
  unfold remove_impl, empty. fold (native p). rewrite Hn, Hrun. unfold sys_remove. rewrite Hf, Hq, Hlast, Hd1, Hd2, Hget.
  destruct c as [j|j es].
  - rewrite Hc. cbn [fst snd run]. eexists. split; [reflexivity|]. unfold unlink. rewrite removelast_snoc, last_last. cbn. rewrite Hr.
    split; [eapply undo_root; eauto|]. split; [reflexivity|]. split; [repeat split|]. intros v. unfold upd. rewrite N.eqb_sym. destruct (j =? v)%N eqn:E; auto. apply N.eqb_eq in E. subst. auto.
  - subst es. cbn [fst snd run is_nil]. eexists. split; [reflexivity|]. rewrite removelast_snoc, last_last. cbn. rewrite Hr.
    split; [eapply undo_root; eauto|]. split; [reflexivity|]. split; [repeat split|]. auto.
Qed.

Lemma process_trans : forall a b c, same_process a b -> same_process b c -> same_process a c.
Proof. intros a b c (A1 & A2 & A3 & A4) (B1 & B2 & B3 & B4). repeat split; congruence. Qed.

(** * C101 *)

Lemma undo_dir : forall k s p q n perm, wf s -> find_entry k s (native p) = Missing q n -> remove_restores k s p (make k s q n (Dir (f_next s) []) perm 2).
Proof.
  intros k s p q n perm Hw E has. pose proof (entry_missing _ _ _ _ _ E) as (i & m & H1 & H2 & H3).
  destruct (make_look k s q n (Dir (f_next s) []) perm 2 i m H1 H2) as (G1 & G2 & G3 & G4 & G5 & G6 & G7). cbv zeta in *.
  destruct (run_undo k s _ p q n (Dir (f_next s) []) has Hw E G3 eq_refl eq_refl) as (s2 & R1 & R2 & R3 & R4 & R5). exists s2. split; auto.
  split; [auto|]. split; [intros v Hv; rewrite R3, G4; auto|]. split; [intros v Hv; rewrite R5; auto|exact (process_trans _ _ _ G7 R4)].
Qed.

(** create_directory, with or without a directory to take the permissions from, when it made the directory. *)
Theorem C101_create_directory : forall k s has p e s1, wf s ->
  (run (fsk k) (create_directory_impl has p) s = Done (true, e) s1 \/
   exists tmpl, run (fsk k) (create_directory_like_impl has p tmpl) s = Done (true, e) s1) -> remove_restores k s p s1.
Proof.
  intros k s has p e s1 Hw [H|[tmpl H]].
  - unfold create_directory_impl in H. rewrite run_sys in H. cbn [fsk] in H. unfold sys_mkdir in H.
    destruct (find_entry k s (native p)) as [l q|q n|x] eqn:E; cbn [fst snd] in H.
    + cbn in H. discriminate.
    + cbn [run] in H. injection H as <- <-. apply undo_dir; auto.
    + destruct (errno_eqb x EEXIST); [cbn in H; discriminate|]. unfold report in H. destruct has; cbn in H; discriminate.
  - unfold create_directory_like_impl in H. rewrite run_bind, run_GetFileStatus in H. destruct (stat_result _ _) as [[st bu] e1]. cbn iota in H.
    destruct (negb (status_known st)); [unfold report in H; destruct has; cbn in H; discriminate|].
    destruct (negb (st_is_directory st)); [unfold report in H; destruct has; cbn in H; discriminate|].
    rewrite run_sys in H. cbn [fsk] in H. unfold sys_mkdir in H.
    destruct (find_entry k s (native p)) as [l q|q n|x] eqn:E; cbn [fst snd] in H.
    + cbn in H. discriminate.
    + cbn [run] in H. injection H as <- <-. apply undo_dir; auto.
    + destruct (errno_eqb x EEXIST); [cbn in H; discriminate|]. unfold report in H. destruct has; cbn in H; discriminate.
Qed.

(** The functions that make a link. *)
Lemma undo_leaf : forall k s p q n b perm, wf s -> find_at k s false (native p) = Missing q n ->
  remove_restores k s p (set_body (make k s q n (Leaf (f_next s)) perm 1) (f_next s) b).
Proof.
  intros k s p q n b perm Hw E has. destruct (missing_entry _ _ _ _ _ E) as [E1 E2]. pose proof (find_missing _ _ _ _ _ _ E) as (i & m & H1 & H2 & H3).
  destruct (make_leaf_look k s q n b perm 1 i m Hw H1 H2) as (G1 & G2 & G3 & G4 & G5 & G6 & G7 & G8). cbv zeta in *.
  destruct (run_undo k s _ p q n (Leaf (f_next s)) has Hw E1 G4 eq_refl E2) as (s2 & R1 & R2 & R3 & R4 & R5). exists s2. split; auto.
  split; [auto|]. split; [intros v Hv; rewrite R3; auto|]. split; [|exact (process_trans _ _ _ G8 R4)].
  intros v Hv. rewrite R5. destruct (N.eqb_spec v (f_next s)); [lia|auto].
Qed.

Theorem C101_create_symlink : forall k s has target link s1, wf s ->
  (run (fsk k) (create_symlink_impl has target link) s = Done (tt, None) s1 \/
   run (fsk k) (create_directory_symlink_impl has target link) s = Done (tt, None) s1) -> remove_restores k s link s1.
Proof.
  intros k s has target link s1 Hw H0. assert (H : run (fsk k) (create_symlink_impl has target link) s = Done (tt, None) s1) by (destruct H0; auto). clear H0.
  unfold create_symlink_impl in H. rewrite run_sys in H. cbn [fsk] in H. unfold sys_symlink in H.
  destruct (is_nil (native target)) eqn:Hnil; [cbn in H; destruct has; discriminate|].
  destruct (find_at k s false (native link)) as [l q|q n|e] eqn:E; cbn in H; try (destruct has; discriminate).
  injection H as <-. apply undo_leaf; auto.
Qed.

Theorem C101_copy_symlink : forall cf k s has from to s1, wf s ->
  run (fsk k) (copy_symlink_impl cf has from to) s = Done (tt, None) s1 -> remove_restores k s to s1.
Proof.
  intros cf k s has from to s1 Hw H.
  assert (Hread : forall r s', run (fsk k) (read_symlink_impl cf true from) s = Done r s' -> s' = s).
  { unfold read_symlink_impl, asap_assert. intros r s'. rewrite run_sys. cbn [fsk fst snd].
    destruct (cf_dbg cf && negb (0 <? k_path_max k)%Z); cbn [pbind run]; [discriminate|]. destruct (k_path_max k <? 0)%Z; [discriminate|].
    rewrite run_sys. cbn [fsk fst snd]. destruct (sys_readlink k s (native from) (k_path_max k)) as [e|x]; [cbn; intros X; inversion X; auto|].
    destruct (cf_dbg cf && negb (Z.of_nat (length x) <=? k_path_max k)%Z); cbn [pbind run]; [discriminate|].
    destruct (cf_dbg cf && negb (0 <? Z.of_nat (length x))%Z); cbn [pbind run]; [discriminate|].
    destruct (k_path_max k <? Z.of_nat (length x))%Z; cbn; [discriminate|]. intros X; inversion X; auto. }
  unfold copy_symlink_impl in H. rewrite run_bind in H. destruct (run (fsk k) (read_symlink_impl cf true from) s) as [[t e] s'|f s'] eqn:R; [|discriminate].
  specialize (Hread _ _ eq_refl). subst s'. cbn [fst snd] in H. destruct e as [e|]; cbn [failed] in H.
  - unfold report in H. destruct has; cbn in H; discriminate.
  - eapply C101_create_symlink; eauto.
Qed.

Theorem C101_create_hard_link : forall k s has target link s1, wf s ->
  run (fsk k) (create_hard_link_impl has target link) s = Done (tt, None) s1 -> remove_restores k s link s1.
Proof.
  intros k s has target link s1 Hw H has2. unfold create_hard_link_impl in H. rewrite run_sys in H. cbn [fsk] in H. unfold sys_link in H.
  destruct (node_at s (find_at k s false (native target))) as [e|x] eqn:Ex; [cbn in H; destruct has; discriminate|].
  destruct (find_at k s false (native link)) as [l q|q n|e] eqn:E; cbn [fst snd] in H; [cbn in H; destruct has; discriminate| |cbn in H; destruct has; discriminate].
  destruct x as [i|i]; [|cbn in H; destruct has; discriminate].
  cbn [simple run fst snd] in H. injection H as <-. destruct (missing_entry _ _ _ _ _ E) as [E1 E2]. pose proof (find_missing _ _ _ _ _ _ E) as (j & m & H1 & H2 & H3).
  match goal with |- context [run _ (remove_impl _ _) ?u] => set (u0 := u) end.
  assert (He : extends s u0).
  { split; [intros r x Hx; cbn; eapply look_insert; eauto|]. split; auto. }
  destruct (run_undo k s u0 link q n (Leaf i) has2 Hw E1 He eq_refl E2) as (s2 & R1 & R2 & R3 & R4 & R5). exists s2. split; auto.
  split; [auto|]. split; [intros v Hv; rewrite R3; auto|]. split; [|destruct R4 as (A1 & A2 & A3 & A4); repeat split; auto].
  intros v Hv. rewrite R5. cbn. unfold upd. rewrite N.eqb_sym. destruct (N.eqb_spec i v) as [->|Hne].
  - unfold add_link. cbn. destruct (f_meta s v) as [a b c d]. cbn. f_equal. lia.
  - reflexivity.
Qed.

(** copy_file to a name that is missing: the copy is made, and removing it restores the state. *)
Theorem C101_copy_file : forall cf k s n has from to o q i d p m, wf s -> is_file k s (native from) q i d -> length d < n ->
  find_at k s false (native to) = Missing p m ->
  exists s1, run (fsk k) (copy_file_impl cf n has from to o) s = Done (true, None) s1 /\ remove_restores k s to s1.
Proof.
  intros cf k s n has from to o q i d p m Hw Hf Hn Hm. destruct (missing_entry _ _ _ _ _ Hm) as [E1 E2].
  assert (Hm2 : find_at k s true (native to) = Missing p m).
  { unfold find_at, resolve_comps in *. destruct (is_nil (native to)); [discriminate|]. apply steps_missing_last. auto. }
  destruct (run_copy_new_root cf k s n has from to o q i d p m Hw Hf Hn Hm2) as (s1 & d' & R & C & L & No & _ & Root & Next).
  exists s1. split; [exact R|]. intros has2. pose proof (find_missing _ _ _ _ _ _ Hm) as (di & dl & G1 & G2 & G3).
  destruct C as (q' & j & Lj & Hji & Bj & Pj & Hb & Hme & Hlk & Hor & Hpr).
  assert (q' = p ++ [m] /\ j = f_next s) as [-> ->].
  { destruct L as (l1 & A1 & A2). destruct Lj as (l2 & B1 & B2). rewrite A1 in B1. injection B1 as <- <-. rewrite A2 in B2. injection B2 as <-. auto. }
  assert (Hbod : same_bodies s s1) by (intros v Hv; apply Hb; lia).
  assert (He : extends s s1) by (eapply insert_extends; eauto; apply Hpr).
  destruct (run_undo k s s1 to p m (Leaf (f_next s)) has2 Hw E1 He Root E2) as (s2 & R1 & R2 & R3 & R4 & R5). exists s2. split; auto.
  split; [auto|]. split; [intros v Hv; rewrite R3; auto|]. split; [|exact (process_trans _ _ _ Hpr R4)].
  intros v Hv. rewrite R5. destruct (N.eqb_spec v (f_next s)); [lia|]. apply Hme. auto.
Qed.

(** Through a dangling symlink the file is made where the symlink points, and remove takes the symlink: the copy stays. *)
Theorem C101_dangling_refuted : forall cf k s n has has2 from to o q i d p m r j, wf s -> is_file k s (native from) q i d -> length d < n ->
  names_entry k s (native to) r (NLeaf j) -> r <> [] -> plain (last_name (native to)) = true -> ends_slash (native to) = false ->
  find_at k s true (native to) = Missing p m ->
  exists s1 s2, run (fsk k) (copy_file_impl cf n has from to o) s = Done (true, None) s1 /\
    run (fsk k) (remove_impl has2 to) s1 = Done (true, None) s2 /\
    look (f_root s) (p ++ [m]) = None /\ look (f_root s2) (p ++ [m]) = Some (NLeaf (f_next s)) /\
    look (f_root s) r = Some (NLeaf j) /\ look (f_root s2) r = None.
Proof.
  intros cf k s n has has2 from to o q i d p m r j Hw Hf Hn (lk & Hr & Hj) Hne Hpl Hsl Hm2.
  destruct (run_copy_new_root cf k s n has from to o q i d p m Hw Hf Hn Hm2) as (s1 & d' & R & C & L & No & _ & Root & Next).
  pose proof (find_missing _ _ _ _ _ _ Hm2) as (di & dl & G1 & G2 & G3).
  destruct C as (q' & j' & Lj & Hji & Bj & Pj & Hb & Hme & Hlk & Hor & Hpr).
  assert (q' = p ++ [m] /\ j' = f_next s) as [-> ->].
  { destruct L as (l1 & A1 & A2). destruct Lj as (l2 & B1 & B2). rewrite A1 in B1. injection B1 as <- <-. rewrite A2 in B2. injection B2 as <-. auto. }
  assert (Hbod : same_bodies s s1) by (intros v Hv; apply Hb; lia).
  assert (He : extends s s1) by (eapply insert_extends; eauto; apply Hpr).
  assert (Hr1 : exists l, find_entry k s1 (native to) = Found l r).
  { exists lk. pose proof (extends_grows _ _ He) as Hg. destruct He as (_ & _ & Hcw). unfold find_entry, resolve_comps in *. destruct (is_nil (native to)); [discriminate|].
    rewrite Hcw. eapply steps_grows; eauto. }
  assert (Hj1 : look (f_root s1) r = Some (NLeaf j)) by (apply (proj1 He); auto).
  assert (Hg1 : get (f_root s1) r = Some (Leaf j)) by (apply look_leaf; auto).
  assert (Hw1 : wf s1).
  { pose proof (wf_run _ k (copy_file_impl cf n has from to o) s Hw) as W. rewrite R in W. exact W. }
  pose proof (C27_removes k s1 has2 to r (Leaf j) Hw1 Hr1 Hg1 Hne Hpl Hsl) as (s2 & R2). exists s1, s2. split; auto. split; auto.
  pose proof (C27_remove k s1 has2 to Hw1) as H27. rewrite R2 in H27. destruct H27 as (_ & q2 & x & (l2 & F2 & L2) & _ & Gone & Out & _).
  destruct Hr1 as [l1 F1]. rewrite F1 in F2. injection F2 as <- <-. split; auto. split; [|auto].
  rewrite Out; [destruct L as (l3 & _ & L); exact L|]. destruct (below r (p ++ [m])) eqn:E; auto. exfalso.
  destruct L as (l3 & _ & L). pose proof (below_leaf _ _ _ _ _ Hg1 L E) as E2. rewrite E2 in No. congruence.
Qed.

(** * Whole trees *)

Lemma sum_delete : forall n (a : tree) l, assoc n l = Some a ->
  list_sum (map (fun e => entries (snd e)) l) = entries a + list_sum (map (fun e => entries (snd e)) (delete n l)).
Proof.
  intros n a l. induction l as [|[x b] l IH]; cbn; [discriminate|]. destruct (str_eqb x n).
  - intros H. injection H as ->. reflexivity.
  - intros H. cbn. specialize (IH H). unfold list_sum in *. lia.
Qed.

Lemma same_sum : forall l l', NoDup (map fst l) -> NoDup (map fst l') -> (forall n, assoc n l = None <-> assoc n l' = None) ->
  (forall n a b, assoc n l = Some a -> assoc n l' = Some b -> entries a = entries b) ->
  list_sum (map (fun e => entries (snd e)) l) = list_sum (map (fun e => entries (snd e)) l').
Proof.
  induction l as [|[n a] l IH]; intros l' N1 N2 Hn He.
  - destruct l' as [|[m b] l']; auto. exfalso. destruct (Hn m) as [H _]. specialize (H eq_refl). cbn in H. rewrite str_eqb_refl in H. discriminate.
  - destruct (assoc n l') as [b|] eqn:E.
    + rewrite (sum_delete n b l' E). cbn [map fst] in N1. inversion N1 as [|? ? Hni N1']; subst. pose proof (proj2 (assoc_None _ n l) Hni) as Hnl.
      cbn. rewrite (He n a b); [|cbn; rewrite str_eqb_refl; auto|auto]. f_equal. apply IH; auto.
      * apply NoDup_delete. auto.
      * intros x. destruct (str_eqb n x) eqn:D.
        -- apply str_eqb_spec in D. subst x. rewrite assoc_delete_same by auto. tauto.
        -- rewrite assoc_delete_other by (intros ->; rewrite str_eqb_refl in D; discriminate). specialize (Hn x). cbn in Hn. rewrite D in Hn. auto.
      * intros x u v Hu Hv. assert (D : str_eqb n x = false). { apply str_eqb_neq. intros ->. congruence. }
        rewrite assoc_delete_other in Hv by (intros ->; rewrite str_eqb_refl in D; discriminate). apply (He x); auto. cbn. rewrite D. auto.
    + exfalso. apply (proj2 (Hn n)) in E. cbn in E. rewrite str_eqb_refl in E. discriminate.
Qed.

Lemma same_entries : forall c c', wf_tree c -> wf_tree c' -> (forall r, look c r = None <-> look c' r = None) -> entries c = entries c'.
Proof.
  induction c as [i|i l IH] using tree_ind'; intros c' W W' H.
  - destruct c' as [j|j [|[m b] l']]; auto. exfalso. specialize (H [m]). unfold look in H. cbn in H. rewrite str_eqb_refl in H. destruct H as [H _]. specialize (H eq_refl). destruct b; discriminate.
  - destruct c' as [j|j l'].
    + destruct l as [|[m b] l]; auto. exfalso. specialize (H [m]). unfold look in H. cbn in H. rewrite str_eqb_refl in H. destruct H as [_ H]. specialize (H eq_refl). destruct b; discriminate.
    + apply wf_tree_dir in W as (N1 & _ & W). apply wf_tree_dir in W' as (N2 & _ & W'). cbn [entries]. f_equal. apply same_sum; auto.
      * intros n. specialize (H [n]). unfold look in H. cbn in H. destruct (assoc n l) as [[]|], (assoc n l') as [[]|]; cbn in H; tauto || (split; intros X; try discriminate; exfalso; destruct H as [A B]; try (specialize (A eq_refl); discriminate); specialize (B eq_refl); discriminate).
      * intros n a b Ha Hb. rewrite Forall_forall in IH. pose proof (assoc_In _ _ _ _ Ha) as Ia. pose proof (assoc_In _ _ _ _ Hb) as Ib.
        apply (IH _ Ia); [rewrite Forall_forall in W; apply (W _ Ia)|rewrite Forall_forall in W'; apply (W' _ Ib)|].
        intros r. specialize (H (n :: r)). unfold look in *. cbn in H. rewrite Ha, Hb in H. exact H.
Qed.

Lemma no_names : forall i c, wf_tree c -> (forall r, look c r <> Some (NLeaf i)) -> names_of i c = 0.
Proof.
  intros i. induction c as [j|j l IH] using tree_ind'; intros W H.
  - cbn. destruct (N.eqb_spec i j) as [->|]; [exfalso; apply (H []); reflexivity|]. destruct (N.eqb_spec j i); [congruence|]. reflexivity.
  - apply wf_tree_dir in W as (N1 & _ & W). cbn [names_of]. rewrite Forall_forall in W.
    assert (Z : forall e, In e l -> names_of i (snd e) = 0).
    { intros [n c] He. rewrite Forall_forall in IH. apply (IH _ He); [apply (W _ He)|]. intros r Hr. apply (H (n :: r)). unfold look in *. cbn. rewrite (In_assoc _ n c l N1 He). exact Hr. }
    clear - Z. induction l as [|e l IHl]; auto. cbn. rewrite (Z e) by (left; auto). apply IHl. intros x Hx. apply Z. right. auto.
Qed.

(** A recursive copy to a missing place, and remove_all of the copy: as many entries as there are in the source are removed, and everything is as it was. Missing: the copies
    that C34 excludes. *)
Theorem C101_copy_tree_partial : forall cf k s l has from to q i p m c, wf s -> canon from -> canon to -> copying_tree l ->
  sees k s (native from) (from_follows l) (Val (NDir i)) -> leads_to k s (native from) q (NDir i) ->
  names_missing k s (native to) p m -> below q p = false ->
  (forall r x, look (f_root s) (q ++ r) = Some (NLeaf x) -> copyable cf k s l x) ->
  get (f_root s) q = Some c -> (Z.of_nat (entries c) < 2 ^ 64)%Z ->
  exists N, forall n, N <= n -> exists s1, run (fsk k) (copy_impl cf n has from to (options l)) s = Done (tt, None) s1 /\
    forall has2, exists N2, forall n2, N2 <= n2 -> exists s2,
      run (fsk k) (remove_all_impl cf n2 has2 to) s1 = Done (Z.of_nat (entries c), None) s2 /\ restored s s2.
Proof.
  intros cf k s l has from to q i p m c Hw Cf Ct Hl Hs (lk & Hf & Hq) Hm Hbel Hok Hc Hbig.
  pose proof Hq as Hq'. apply look_dir in Hq' as (es & Hg). rewrite Hg in Hc. injection Hc as <-.
  pose proof (entry_missing _ _ _ _ _ Hm) as (di & dl & G1 & G2 & G3).
  assert (Hnone : get (f_root s) (p ++ [m]) = None) by (rewrite get_snoc, G1; auto).
  assert (Hbel' : below q (p ++ [m]) = false).
  { destruct (below q (p ++ [m])) eqn:E; auto. apply below_snoc_parent in E as [E|E]; [congruence|]. subst q. rewrite Hnone in Hg. discriminate. }
  destruct (bound_exists s (Dir i es)) as [B HB]. exists (size (Dir i es) + B). intros n Hn.
  assert (Hsrc : exists (b : bool) lk, (if b then from_follows l else ~ from_follows l) /\ find_at k s b (native from) = Found lk q).
  { inversion Hs as [H1 H2|H1 H2]; [exists true, lk; auto|]. exists false. destruct (find_at k s false (native from)) as [l2 q2| |] eqn:F; try discriminate.
    cbn [node_at] in H2. destruct (look (f_root s) q2) eqn:L; [|discriminate]. injection H2 as ->. pose proof (find_dir_true _ _ _ _ _ _ F L) as F2. rewrite Hf in F2. injection F2 as <- <-. eauto. }
  destruct Hsrc as (b & lk' & Hb & Hf').
  destruct (copies_any cf k l (Dir i es) Hl s n has from to q p m b lk' B) as (s1 & c' & Hr & (P1 & P2 & P3 & P4 & P5 & P6 & P7)); auto.
  { intros x Hx. discriminate. }
  { intros r x Hx. split; [|apply (HB r x Hx)]. apply (Hok r). unfold look in *. rewrite get_app, Hg. exact Hx. }
  exists s1. split; [auto|]. intros has2.
  assert (Hw1 : wf s1).
  { pose proof (wf_run _ k (copy_impl cf n has from to (options l)) s Hw) as W. rewrite Hr in W. exact W. }
  assert (Hgc : get (f_root s1) (p ++ [m]) = Some c') by (rewrite P1; erewrite get_insert_new; eauto).
  assert (Hwc : wf_tree c') by (eapply wf_get; [apply (wf_root _ Hw1)|exact Hgc]).
  assert (Hwo : wf_tree (Dir i es)) by (eapply wf_get; [apply (wf_root _ Hw)|exact Hg]).
  assert (Hent : entries (Dir i es) = entries c').
  { apply same_entries; auto. intros r. specialize (P2 r). unfold same_object in P2. destruct (look (Dir i es) r) as [[]|], (look c' r) as [[]|]; split; intros X; try discriminate; try contradiction; auto. }
  assert (Hdir : exists j es', c' = Dir j es').
  { specialize (P2 []). unfold same_object, look in P2. cbn in P2. destruct c' as [j|j es']; [contradiction|eauto]. }
  destruct Hdir as (j & es' & ->).
  set (u := emptied s1 (p ++ [m])).
  assert (Hru : f_root u = insert_at p m (Dir j []) (f_root s)).
  { unfold u, emptied. cbn [f_root set_root]. rewrite P1. clear - G1 G2. revert G1. generalize (f_root s). unfold insert_at. induction p as [|a p IH]; intros t G1.
    - cbn in G1. injection G1 as ->. cbn [app alter]. f_equal. rewrite update_snoc by auto. reflexivity.
    - destruct t as [|ti tl]; [discriminate|]. cbn [app alter]. f_equal. rewrite update_update. apply update_ext. intros x Hx. cbn in G1. rewrite Hx in G1. apply IH. exact G1. }
  assert (Heu : extends s u) by (eapply insert_extends; eauto; apply P5).
  assert (Hlu : look (f_root u) (p ++ [m]) = Some (NDir j)).
  { rewrite Hru. unfold look. erewrite get_insert_new; eauto. }
  assert (Hreach : reaches k s1 (native to) (p ++ [m])).
  { split; fold u.
    - assert (F : exists l, resolve_comps k u false (native to) (names (native to)) = Found l (p ++ [m])) by (eapply resolve_fill; [exact Heu|exact Hm|exact Hlu|discriminate]).
      assert (F2 : exists l, resolve_comps k u true (native to) (names (native to)) = Found l (p ++ [m])).
      { destruct F as [l0 F]. exists l0. unfold resolve_comps in *. destruct (is_nil (native to)); [discriminate|]. apply steps_last; auto. intros v Hv. rewrite Hlu in Hv. discriminate. }
      unfold find_at, resolve_comps in *. destruct (is_nil (native to)); [destruct F; discriminate|]. unfold comps.
      destruct (ends_slash (native to) && negb (is_nil (names (native to)))); [|rewrite app_nil_r; auto].
      destruct F2 as [l2 F2]. exists l2. rewrite steps_app by discriminate. rewrite F2. eapply dot_step; eauto.
    - eapply resolve_fill; [exact Heu|exact Hm|exact Hlu|discriminate]. }
  assert (Hplain : plain (last_name (native to)) = true).
  { rewrite (entry_last _ _ _ _ _ Hm). unfold good_name in G3. destruct (plain m); auto. }
  exists (need (Dir j es')). intros n2 Hn2.
  destruct (run_removes cf k (Dir j es') s1 to (p ++ [m]) n2 Hw1 Ct Hgc ltac:(destruct p; discriminate) Hreach Hplain Hn2) as (s2 & Hrun & (D1 & D2 & D3 & D4 & D5)).
  exists s2. rewrite Hent in *. split.
  - unfold remove_all_impl, empty. fold (native to).
    assert (He : is_nil (native to) = false).
    { unfold names_missing, find_entry, resolve_comps in Hm. destruct (is_nil (native to)); [discriminate|auto]. }
    rewrite He, run_bind, Hrun. cbn [snd fst run]. unfold to_u64. rewrite Z.mod_small by lia. reflexivity.
  - split; [|split; [|split]].
    + rewrite D1, P1, removelast_snoc, last_last. eapply undo_root; eauto.
    + intros v Hv. rewrite D2. apply P3. auto.
    + intros v Hv. rewrite D5, P4 by auto. rewrite no_names; [|auto|].
      * unfold add_link. destruct (f_meta s v) as [a1 a2 a3 a4]. cbn. f_equal. lia.
      * intros r Hr'. specialize (P7 r _ Hr'). cbn in P7. lia.
    + exact (process_trans _ _ _ P5 D4).
Qed.

(** * rename *)

Lemma missing_place : forall k s p n i, wf s -> look (f_root s) p = Some (NDir i) -> look (f_root s) (p ++ [n]) = None -> good_name n = true ->
  find_entry k s (place_text (p ++ [n])) = Missing p n.
Proof.
  intros k s p n i Hw Hp Hn Hg. pose proof (wf_place _ _ _ (wf_root s Hw) Hp) as Gp.
  assert (Gq : good_place (p ++ [n])) by (apply Forall_app; auto).
  unfold find_entry. rewrite names_place by auto. unfold resolve_comps. cbn [place_text is_nil]. rewrite starts_place.
  rewrite steps_app by discriminate. rewrite (steps_place (f_root s) (link_text s) true (k_links k) p [] (NDir i)); auto; [|discriminate]. cbn [app].
  rewrite steps_cons, Hp. apply good_plain in Hg as (_ & _ & _ & Hd). unfold is_dots in Hd. apply orb_false_iff in Hd as [Hd1 Hd2]. rewrite Hd1, Hd2, Hn. reflexivity.
Qed.

Lemma run_move : forall k s has q c p n i, wf s -> get (f_root s) q = Some c -> q <> [] ->
  look (f_root s) p = Some (NDir i) -> look (f_root s) (p ++ [n]) = None -> good_name n = true -> below q p = false ->
  run (fsk k) (rename_impl has (topath (place_text q)) (topath (place_text (p ++ [n])))) s = Done (tt, None) (move_entry s q c p n) /\
  moved_to s (move_entry s q c p n) q (p ++ [n]) c.
Proof.
  intros k s has q c p n i Hw Hc Hq Hp Hn Hg Hb. split; [|apply move_spec; eauto].
  assert (Hx : look (f_root s) q = Some (node_of c)) by (apply look_get; eauto).
  pose proof (wf_place _ _ _ (wf_root s Hw) Hp) as Gp. assert (Gq : good_place (p ++ [n])) by (apply Forall_app; auto).
  pose proof (wf_place _ _ _ (wf_root s Hw) Hx) as Gq'.
  unfold rename_impl. rewrite run_sys. cbn [fsk]. unfold topath. fold mkpath. rewrite !text_place by auto.
  unfold sys_rename. rewrite (entry_place k s q _ Hw Hx), Hc, (missing_place k s p n i) by auto.
  unfold last_name. rewrite !names_place, !ends_place by auto. rewrite last_last.
  assert (Hq' : is_nil q = false) by (destruct q; [congruence|reflexivity]).
  assert (Hr' : is_nil (p ++ [n]) = false) by (destruct p; reflexivity).
  assert (Hd : is_dots n = false) by (apply good_plain in Hg; tauto).
  assert (Hd2 : is_dots (last q []) = false).
  { rewrite (snoc_removelast q Hq) in Gq'. apply Forall_app in Gq' as [_ G]. inversion G as [|? ? G1 _]; subst. apply good_plain in G1. tauto. }
  rewrite Hq', Hr', Hd, Hd2. cbn [orb]. rewrite Hb, andb_false_r. destruct c; reflexivity.
Qed.

Lemma below_trans_missing : forall t r z, look t r = None -> below r z = true -> look t z = None.
Proof. intros t r z H E. apply below_spec in E as [u ->]. apply look_None. apply look_None in H. rewrite get_app, H. reflexivity. Qed.

Lemma rebase_back : forall q r x, below r x = false -> rebase r q (rebase q r x) = x.
Proof.
  intros q r x H. unfold rebase. destruct (below q x) eqn:E.
  - rewrite below_app. apply below_spec in E as [u ->]. rewrite skipn_app, skipn_all, Nat.sub_diag. cbn. rewrite skipn_app, skipn_all, Nat.sub_diag. reflexivity.
  - rewrite H. reflexivity.
Qed.

(** An entry renamed to a free name and back: every place has the object it had, and contents, attributes and the current directory are the same. *)
Theorem C101_rename : forall k s has has2 q c p n i, wf s -> get (f_root s) q = Some c -> q <> [] ->
  look (f_root s) p = Some (NDir i) -> look (f_root s) (p ++ [n]) = None -> good_name n = true -> below q p = false ->
  (exists x, look (f_root s) (f_cwd s) = Some x) ->
  let old := topath (place_text q) in let new := topath (place_text (p ++ [n])) in
  exists s1 s2, run (fsk k) (rename_impl has old new) s = Done (tt, None) s1 /\ look (f_root s1) q = None /\ get (f_root s1) (p ++ [n]) = Some c /\
    run (fsk k) (rename_impl has2 new old) s1 = Done (tt, None) s2 /\
    (forall r, look (f_root s2) r = look (f_root s) r) /\ f_body s2 = f_body s /\ f_meta s2 = f_meta s /\ same_process s s2.
Proof.
  intros k s has has2 q c p n i Hw Hc Hq Hp Hn Hg Hb [xc Hcw] old new.
  assert (Hx : look (f_root s) q = Some (node_of c)) by (apply look_get; eauto).
  pose proof (wf_place _ _ _ (wf_root s Hw) Hx) as Gq.
  destruct (run_move k s has q c p n i Hw Hc Hq Hp Hn Hg Hb) as [R1 M1]. fold old new in R1. set (s1 := move_entry s q c p n) in *.
  destruct M1 as (A1 & A2 & A3). set (r := p ++ [n]) in *.
  destruct (look_removelast _ _ _ Hx Hq) as [j Hj].
  assert (Hnb : below r (removelast q) = false).
  { destruct (below r (removelast q)) eqn:E; auto. rewrite (below_trans_missing _ _ _ Hn E) in Hj. discriminate. }
  assert (Hself : below q (removelast q) = false) by (rewrite (snoc_removelast q Hq) at 1; apply below_not_snoc).
  assert (Hw1 : wf s1).
  { pose proof (wf_run _ k (rename_impl has old new) s Hw) as W. rewrite R1 in W. exact W. }
  assert (Hj1 : look (f_root s1) (removelast q) = Some (NDir j)) by (rewrite A3; auto).
  assert (Hgood : good_name (last q []) = true).
  { rewrite (snoc_removelast q Hq) in Gq. apply Forall_app in Gq as [_ G]. inversion G; auto. }
  destruct (run_move k s1 has2 r c (removelast q) (last q []) j Hw1 A1) as [R2 M2]; auto.
  { unfold r. destruct p; discriminate. }
  { rewrite <- snoc_removelast; auto. }
  rewrite <- (snoc_removelast q Hq) in R2, M2. change (topath (place_text r)) with new in R2. change (topath (place_text q)) with old in R2.
  set (s2 := move_entry s1 r c (removelast q) (last q [])) in *. destruct M2 as (B1 & B2 & B3).
  exists s1, s2. split; [exact R1|]. split; [auto|]. split; [auto|]. split; [exact R2|]. split; [|split; [reflexivity|split; [reflexivity|]]].
  - intros z. destruct (below q z) eqn:Ez.
    + apply below_spec in Ez as [u ->]. unfold look. rewrite !get_app, B1, Hc. reflexivity.
    + destruct (below r z) eqn:Er.
      * rewrite (below_trans_missing _ _ _ Hn Er), (below_trans_missing _ _ _ B2 Er). reflexivity.
      * rewrite B3, A3; auto.
  - repeat split. change (f_cwd s2) with (rebase r (removelast q ++ [last q []]) (rebase q r (f_cwd s))). rewrite <- (snoc_removelast q Hq). apply rebase_back.
    destruct (below r (f_cwd s)) eqn:E; auto. rewrite (below_trans_missing _ _ _ Hn E) in Hcw. discriminate.
Qed.

(** * Examples *)

Example C101_example : wf demo /\
  (exists s1, run (fsk demo_choices) (create_directory_impl true (topath (lit "l/x/"))) demo = Done (true, None) s1) /\
  (exists s1, run (fsk demo_choices) (create_symlink_impl true (topath (lit "nowhere")) (topath (lit "l/x"))) demo = Done (tt, None) s1) /\
  (exists s1, run (fsk demo_choices) (copy_symlink_impl plain_config true (topath (lit "l")) (topath (lit "d/x"))) demo = Done (tt, None) s1) /\
  (exists s1, run (fsk demo_choices) (create_hard_link_impl true (topath (lit "f")) (topath (lit "d/x"))) demo = Done (tt, None) s1) /\
  is_file demo_choices demo (native (topath (lit "f"))) [lit "a"; lit "f"] 3 (lit "hello") /\
  find_at demo_choices demo false (native (topath (lit "l/x"))) = Missing [lit "b"] (lit "x").
Proof.
  split; [apply demo_wf|]. repeat split; try (eexists; vm_compute; reflexivity); try reflexivity. exists 40. repeat split; reflexivity.
Qed.

(** The copy of /a, with a file, a symlink and a directory with a file, to /b/new (C34_example meets the other hypotheses), and its removal. *)
Example C101_tree_example : let l := [co_recursive; co_copy_symlinks] in
  (exists c, get (f_root demo) [lit "a"] = Some c /\ entries c = 5) /\
  match run (fsk demo_choices) (copy_impl plain_config 40 true (topath (lit "/a")) (topath (lit "/b/new")) (options l)) demo with
  | Done (_, None) s1 => f_root s1 <> f_root demo /\
      match run (fsk demo_choices) (remove_all_impl plain_config 40 true (topath (lit "/b/new"))) s1 with
      | Done r s2 => r = (5%Z, None) /\ f_root s2 = f_root demo
      | _ => False
      end
  | _ => False
  end.
Proof. cbv zeta. split; [eexists; split; vm_compute; reflexivity|]. vm_compute. split; [discriminate|]. split; reflexivity. Qed.

(** /a/d/x is a symlink to the missing name y of /a/d (no repository code is modelled here). *)
Definition demo_dangling : fs :=
  match run (fsk demo_choices) (create_symlink_impl true (topath (lit "y")) (topath (lit "/a/d/x"))) demo with Done _ s | Failed _ s => s end.
Example C101_dangling_example : wf demo_dangling /\
  is_file demo_choices demo_dangling (native (topath (lit "f"))) [lit "a"; lit "f"] 3 (lit "hello") /\
  names_entry demo_choices demo_dangling (native (topath (lit "d/x"))) [lit "a"; lit "d"; lit "x"] (NLeaf 10) /\
  plain (last_name (native (topath (lit "d/x")))) = true /\ ends_slash (native (topath (lit "d/x"))) = false /\
  find_at demo_choices demo_dangling true (native (topath (lit "d/x"))) = Missing [lit "a"; lit "d"] (lit "y").
Proof.
  split.
  { pose proof (wf_run _ demo_choices (create_symlink_impl true (topath (lit "y")) (topath (lit "/a/d/x"))) demo demo_wf) as W. unfold demo_dangling.
    destruct (run _ _ demo); exact W. }
  repeat split; try (vm_compute; reflexivity); exists 40; repeat split; vm_compute; reflexivity.
Qed.

(** /a/d, the directory with a file in it, goes to /b/e and back. *)
Example C101_rename_example : get (f_root demo) [lit "a"; lit "d"] = Some (Dir 5 [(lit "g", Leaf 6)]) /\ look (f_root demo) [lit "b"] = Some (NDir 7) /\
  look (f_root demo) ([lit "b"] ++ [lit "e"]) = None /\ good_name (lit "e") = true /\ below [lit "a"; lit "d"] [lit "b"] = false /\
  (exists x, look (f_root demo) (f_cwd demo) = Some x).
Proof. repeat split; try reflexivity. eexists. reflexivity. Qed.

Print Assumptions C101_create_directory.
Print Assumptions C101_create_symlink.
Print Assumptions C101_copy_symlink.
Print Assumptions C101_create_hard_link.
Print Assumptions C101_copy_file.
Print Assumptions C101_dangling_refuted.
Print Assumptions C101_copy_tree_partial.
Print Assumptions C101_rename.
