(** The operations that make one or two system calls, run on the file system of FS.v: helper lemmas. *)
From Coq Require Import Ascii String Bool Arith NArith ZArith Lia.
From Verif Require Import Str PathModel PathSpec StrProofs PathProofs PathOps PathLaws FlagsModel TimeModel Prog DirModel
  OpsModel OpsProps FS FSProofs FSSpec.
From Coq Require Import List.
Import ListNotations.

(** * Running programs *)

Lemma run_bind : forall A B S (h : kernel S) (a : prog A) (f : A -> prog B) s,
  run h (pbind a f) s = match run h a s with Done x s1 => run h (f x) s1 | Failed e s1 => Failed e s1 end.
Proof.
  intros A B S h a. induction a as [a|e|c k IH]; intros f s; cbn; auto.
  destruct (h c s) as [r s2]. apply IH.
Qed.
Lemma run_sys : forall A S (h : kernel S) c (k : answer c -> prog A) s,
  run h (Sys c k) s = run h (k (fst (h c s))) (snd (h c s)).
Proof. intros. cbn. destruct (h c s); reflexivity. Qed.
Lemma run_scoped : forall A S (h : kernel S) (p : prog A) c s,
  run h (scoped p c) s =
  match run h p s with
  | Done a s1 => match run h c s1 with Done _ s2 => Done a s2 | Failed e s2 => Failed e s2 end
  | Failed e s1 =>
      if unwinds e then match run h c s1 with Done _ s2 => Failed e s2 | Failed e2 s2 => Failed e2 s2 end
      else Failed e s1
  end.
Proof.
  intros A S h p. induction p as [a|e|q k IH]; intros c s; cbn.
  - rewrite run_bind. destruct (run h c s); reflexivity.
  - destruct (unwinds e); [|reflexivity]. rewrite run_bind. destruct (run h c s); reflexivity.
  - destruct (h q s). apply IH.
Qed.
Lemma run_unwinding : forall A S (h : kernel S) (p : prog A) c s,
  run h (unwinding p c) s =
  match run h p s with
  | Done a s1 => Done a s1
  | Failed e s1 =>
      if unwinds e then match run h c s1 with Done _ s2 => Failed e s2 | Failed e2 s2 => Failed e2 s2 end
      else Failed e s1
  end.
Proof.
  intros A S h p. induction p as [a|e|q k IH]; intros c s; cbn.
  - reflexivity.
  - destruct (unwinds e); [|reflexivity]. rewrite run_bind. destruct (run h c s); reflexivity.
  - destruct (h q s). apply IH.
Qed.

(** * What resolution finds *)

Lemma look_root : forall s, wf s -> exists i, look (f_root s) [] = Some (NDir i).
Proof. intros s Hw. destruct (wf_root_dir s Hw) as [i [l H]]. exists i. rewrite H. reflexivity. Qed.

Lemma steps_found_cons : forall lk tg last, closed lk -> forall links n r cur l q,
  steps lk tg last links cur (n :: r) = Found l q -> exists x, lk q = Some x.
Proof.
  intros lk tg last Hc links n r cur l q H. eapply steps_found; [exact Hc| |exact H].
  rewrite steps_cons in H. destruct (lk cur); [eauto|discriminate].
Qed.

Lemma resolve_found : forall k s last t cs l q, wf s -> (cs = [] -> names t = []) ->
  resolve_comps k s last t cs = Found l q -> exists x, look (f_root s) q = Some x.
Proof.
  intros k s last t cs l q Hw Hcs H. unfold resolve_comps in H. destruct (is_nil t) eqn:Ht; [discriminate|].
  destruct cs as [|n r]; [|eapply steps_found_cons; eauto; apply closed_look; auto].
  rewrite steps_nil in H. inversion H; subst.
  destruct (starts_slash t) eqn:Es.
  - apply look_root in Hw as [i Hi]. eauto.
  - exfalso. specialize (Hcs eq_refl). apply only_slashes_names in Hcs. destruct t as [|c t]; [discriminate|].
    cbn in *. destruct (is_slash c); discriminate.
Qed.

Lemma comps_nil : forall t, comps t = [] -> names t = [].
Proof. intros t H. unfold comps in H. apply app_eq_nil in H. tauto. Qed.

Lemma find_found : forall k s last t l q, wf s -> find_at k s last t = Found l q -> exists x, look (f_root s) q = Some x.
Proof. intros k s last t l q Hw H. apply (resolve_found k s last t (comps t) l q Hw); auto. apply comps_nil. Qed.
Lemma entry_found : forall k s t l q, wf s -> find_entry k s t = Found l q -> exists x, look (f_root s) q = Some x.
Proof. intros k s t l q Hw H. apply (resolve_found k s false t (names t) l q Hw); auto. Qed.

(** A path that is followed to its end does not end at a symlink. *)
Lemma steps_no_link : forall lk tg, closed lk -> forall links cs cur l q,
  (forall i, lk cur = Some (NLeaf i) -> tg i = None) -> steps lk tg true links cur cs = Found l q ->
  forall i, lk q = Some (NLeaf i) -> tg i = None.
Proof.
  intros lk tg [[ir Hroot] Hclosed]. induction links as [|links IHl];
  (induction cs as [|m r IHr]; intros cur l q Hcur; [rewrite steps_nil; intros H; inversion H; subst; auto|]).
  all: rewrite !steps_cons; destruct (lk cur) as [[i|i]|] eqn:E1; try discriminate;
    destruct (str_eqb m (lit ".")) eqn:D1; [apply IHr; congruence|];
    destruct (str_eqb m (lit "..")) eqn:D2;
    [apply IHr; destruct cur as [|c cur']; [cbn; congruence|]; destruct (Hclosed _ _ E1) as [k Hk]; [discriminate|congruence]|];
    destruct (lk (cur ++ [m])) as [[j|j]|] eqn:E2; [|apply IHr; congruence|destruct (is_nil r); discriminate].
  - destruct (tg j) eqn:Ej; [rewrite andb_false_r; discriminate|].
    destruct (is_nil r); intros H; inversion H; subst. intros i0 Hi. rewrite E2 in Hi. inversion Hi; subst. auto.
  - destruct (tg j) eqn:Ej.
    + rewrite andb_false_r. apply IHl. destruct (starts_slash s); intros; congruence.
    + destruct (is_nil r); intros H; inversion H; subst. intros i0 Hi. rewrite E2 in Hi. inversion Hi; subst. auto.
Qed.
Lemma find_no_link : forall k s t l q i, wf s -> find_at k s true t = Found l q -> look (f_root s) q = Some (NLeaf i) ->
  link_text s i = None.
Proof.
  intros k s t l q i Hw H Hi. unfold find_at, resolve_comps in H. destruct (is_nil t) eqn:Ht; [discriminate|].
  destruct (comps t) as [|n r] eqn:Ec.
  - assert (Hf : find_at k s true t = Found l q) by (unfold find_at, resolve_comps; rewrite Ht, Ec; auto).
    rewrite steps_nil in H. apply comps_nil in Ec. apply only_slashes_names in Ec. destruct t as [|c t]; [discriminate|].
    cbn in Ec, H. destruct (is_slash c); [|discriminate]. inversion H; subst.
    destruct (look_root s Hw) as [j Hj]. congruence.
  - destruct (look (f_root s) (if starts_slash t then [] else f_cwd s)) as [[j|j]|] eqn:E.
    + rewrite steps_cons, E in H. discriminate.
    + refine (steps_no_link _ _ (closed_look s Hw) _ _ _ _ _ _ H i Hi). intros i0 Hi0. rewrite E in Hi0. discriminate.
    + rewrite steps_cons, E in H. discriminate.
Qed.

Lemma node_at_Val : forall k s last t x, node_at s (find_at k s last t) = Val x ->
  exists l q, find_at k s last t = Found l q /\ look (f_root s) q = Some x.
Proof.
  intros k s last t x H. unfold node_at in H. destruct (find_at k s last t) as [l q|q n|e]; try discriminate.
  destruct (look (f_root s) q) eqn:E; inversion H; subst. eauto.
Qed.
Lemma node_at_leads : forall k s t x, node_at s (find_at k s true t) = Val x <-> exists q, leads_to k s t q x.
Proof.
  intros. split.
  - intros H. apply node_at_Val in H as (l & q & H1 & H2). exists q, l. auto.
  - intros (q & l & H1 & H2). unfold node_at. rewrite H1, H2. reflexivity.
Qed.

Lemma reported_same : forall t, is_nil (reported_text t) = is_nil t /\ starts_slash (reported_text t) = starts_slash t /\
  names (reported_text t) = names t.
Proof.
  intros t. unfold reported_text. destruct (negb (is_nil t) && only_slashes t) eqn:E; auto.
  apply andb_true_iff in E as [E1 E2]. destruct t as [|c t]; [discriminate|]. cbn in E2.
  apply andb_true_iff in E2 as [E2 E3]. repeat split; auto.
  change (names [slash]) with (@nil str). symmetry. apply only_slashes_names. cbn. rewrite E2. auto.
Qed.
Lemma find_reported : forall k s last t, find_at k s last (reported_text t) = find_at k s last t.
Proof.
  intros. destruct (reported_same t) as (H1 & H2 & H3). unfold find_at, resolve_comps, comps.
  rewrite H1, H2, H3. destruct (names t) as [|n r] eqn:E.
  - cbn [is_nil]. rewrite !andb_false_r. reflexivity.
  - replace (reported_text t) with t; auto. unfold reported_text.
    destruct (only_slashes t) eqn:Eo; [|rewrite andb_false_r; auto].
    apply only_slashes_names in Eo. congruence.
Qed.

(** * Attributes of objects *)

Lemma mode_bits_mod : forall m, mode_bits m = (m mod 4096)%N.
Proof. intros. unfold mode_bits. change 4095%N with (N.ones 12). apply N.land_ones. Qed.
Lemma mode_bits_lt : forall m, (mode_bits m < 4096)%N.
Proof. intros. rewrite mode_bits_mod. apply N.mod_lt. discriminate. Qed.
Lemma mode_bits_idem : forall m, mode_bits (mode_bits m) = mode_bits m.
Proof. intros. rewrite !mode_bits_mod. apply N.mod_mod. discriminate. Qed.

Lemma div_mode : forall c x, (x < 4096)%N -> ((c * 4096 + x) / 4096 = c /\ (c * 4096 + x) mod 4096 = x)%N.
Proof.
  intros c x H. rewrite N.add_comm. split.
  - rewrite N.div_add by discriminate. rewrite N.div_small; auto.
  - rewrite N.mod_add by discriminate. apply N.mod_small. auto.
Qed.

Definition format_of (s : fs) (x : node) : N :=
  match x with NDir _ => 4 | NLeaf i =>
    match f_body s i with
    | BReg _ => 8 | BLink _ => 10 | BSpecial SBlock => 6 | BSpecial SChar => 2 | BSpecial SFifo => 1 | BSpecial SSock => 12
    end end.
Lemma stat_of_mode : forall s x,
  st_mode (stat_of s x) = (format_of s x * 4096 + mode_bits (m_perm (f_meta s (number x))))%N.
Proof.
  intros s [i|i]; cbn [stat_of st_mode format_of number]; [|reflexivity].
  destruct (f_body s i) as [d|t|[]]; reflexivity.
Qed.

Lemma stat_of_type : forall s x, type_of_mode (st_mode (stat_of s x)) = type_of s x.
Proof.
  intros s x. rewrite type_of_mode_format, stat_of_mode. unfold format_type.
  destruct (div_mode (format_of s x) _ (mode_bits_lt (m_perm (f_meta s (number x))))) as [-> _].
  unfold format_of, type_of. destruct x as [i|i]; [|reflexivity]. destruct (f_body s i) as [d|t|[]]; reflexivity.
Qed.
Lemma stat_of_perms : forall s x,
  op_and width_perms (st_mode (stat_of s x)) perms_mask = mode_bits (m_perm (f_meta s (number x))).
Proof.
  intros s x. rewrite perm_bits, stat_of_mode.
  destruct (div_mode (format_of s x) _ (mode_bits_lt (m_perm (f_meta s (number x))))) as [_ ->]. reflexivity.
Qed.
Lemma stat_of_ino : forall s x, st_dev (stat_of s x) = 1%N /\ st_ino (stat_of s x) = number x.
Proof. intros s [i|i]; auto. Qed.

Lemma type_of_not : forall s x, type_of s x <> ft_none /\ type_of s x <> ft_not_found /\ type_of s x <> ft_unknown.
Proof.
  intros s [i|i]; cbn; [destruct (f_body s i) as [d|t|[]]|]; repeat split; discriminate.
Qed.

(** * The status calls *)

Definition status_of (s : fs) (x : node) : file_status :=
  FStatus (type_of s x) (mode_bits (m_perm (f_meta s (number x)))).
Definition missing_status (e : errno) : file_status :=
  status_of_type (if errno_eqb e ENOENT || errno_eqb e ENOTDIR then ft_not_found else ft_none).

Definition stat_result (s : fs) (r : res node) : file_status * stat_t * ecode :=
  match r with
  | Val x => (status_of s x, stat_of s x, None)
  | Err e => (missing_status e, stat_zero, Some e)
  end.

Lemma sys_stat_node : forall k s follow t,
  sys_stat k s follow t = match node_at s (find_at k s follow t) with Val x => Val (stat_of s x) | Err e => Err e end.
Proof. reflexivity. Qed.

Lemma run_GetFileStatus : forall k s p,
  run (fsk k) (GetFileStatus true p) s = Done (stat_result s (node_at s (find_at k s true (native p)))) s.
Proof.
  intros. unfold GetFileStatus. rewrite run_sys. cbn [fsk fst snd]. rewrite sys_stat_node.
  destruct (node_at s (find_at k s true (native p))) as [e|x]; rewrite run_bind; unfold CreateFileStatus.
  - unfold stat_result, missing_status. destruct (errno_eqb e ENOENT || errno_eqb e ENOTDIR); reflexivity.
  - rewrite stat_of_type, stat_of_perms. reflexivity.
Qed.
Lemma run_GetLinkStatus : forall k s p,
  run (fsk k) (GetLinkStatus true p) s = Done (stat_result s (node_at s (find_at k s false (native p)))) s.
Proof.
  intros. unfold GetLinkStatus. rewrite run_sys. cbn [fsk fst snd]. rewrite sys_stat_node.
  destruct (node_at s (find_at k s false (native p))) as [e|x]; rewrite run_bind; unfold CreateFileStatus.
  - unfold stat_result, missing_status. destruct (errno_eqb e ENOENT || errno_eqb e ENOTDIR); reflexivity.
  - rewrite stat_of_type, stat_of_perms. reflexivity.
Qed.
Lemma run_status : forall k s p,
  run (fsk k) (status_impl true p) s =
  Done (let r := stat_result s (node_at s (find_at k s true (native p))) in (fst (fst r), snd r)) s.
Proof. intros. unfold status_impl. rewrite run_bind, run_GetFileStatus. reflexivity. Qed.
Lemma run_symlink_status : forall k s p,
  run (fsk k) (symlink_status_impl true p) s =
  Done (let r := stat_result s (node_at s (find_at k s false (native p))) in (fst (fst r), snd r)) s.
Proof. intros. unfold symlink_status_impl. rewrite run_bind, run_GetLinkStatus. reflexivity. Qed.

Lemma status_of_exists : forall s x, st_exists (status_of s x) = true /\ status_known (status_of s x) = true.
Proof.
  intros s x. unfold st_exists, status_known, status_of. cbn [st_type].
  destruct x as [i|i]; cbn; [destruct (f_body s i) as [d|t|[]]|]; auto.
Qed.
Lemma missing_not_exists : forall e, st_exists (missing_status e) = false.
Proof. intros e. unfold missing_status. destruct (errno_eqb e ENOENT || errno_eqb e ENOTDIR); reflexivity. Qed.

(** * States that only grow *)

(** [s'] has all the names of [s], and the symlinks of [s] are unchanged. *)
Definition extends (s s' : fs) : Prop :=
  (forall q x, look (f_root s) q = Some x -> look (f_root s') q = Some x) /\
  (forall q i, look (f_root s) q = Some (NLeaf i) -> link_text s' i = link_text s i) /\
  f_cwd s' = f_cwd s.

Lemma extends_grows : forall s s', extends s s' ->
  grows (look (f_root s)) (link_text s) (look (f_root s')) (link_text s').
Proof.
  intros s s' (H1 & H2 & _). split; auto.
Qed.
Lemma extends_refl : forall s, extends s s.
Proof. intros s. repeat split; auto. Qed.
Lemma extends_trans : forall a b c, extends a b -> extends b c -> extends a c.
Proof.
  intros a b c (A1 & A2 & A3) (B1 & B2 & B3). repeat split; eauto; [|congruence].
  intros q i H. rewrite (B2 q), (A2 q); auto.
Qed.

Lemma resolve_extends : forall k s s' last t cs l q, extends s s' ->
  resolve_comps k s last t cs = Found l q -> resolve_comps k s' last t cs = Found l q.
Proof.
  intros k s s' last t cs l q He H. unfold resolve_comps in *. destruct (is_nil t); [discriminate|].
  pose proof (extends_grows _ _ He) as Hg. destruct He as (_ & _ & ->). eapply steps_grows; eauto.
Qed.
Lemma find_extends : forall k s s' last t l q, extends s s' ->
  find_at k s last t = Found l q -> find_at k s' last t = Found l q.
Proof. intros. eapply resolve_extends; eauto. Qed.
Lemma entry_extends : forall k s s' t l q, extends s s' ->
  find_entry k s t = Found l q -> find_entry k s' t = Found l q.
Proof. intros. eapply resolve_extends; eauto. Qed.
Lemma resolve_fill : forall k s s' last t cs p n x, extends s s' ->
  resolve_comps k s last t cs = Missing p n -> look (f_root s') (p ++ [n]) = Some x ->
  (forall i, x = NLeaf i -> link_text s' i = None \/ last = false) ->
  exists l, resolve_comps k s' last t cs = Found l (p ++ [n]).
Proof.
  intros k s s' last t cs p n x He H Hx Hl. unfold resolve_comps in *. destruct (is_nil t); [discriminate|].
  pose proof (extends_grows _ _ He) as Hg. destruct He as (_ & _ & ->). eapply steps_fill_leaf; eauto.
Qed.

Lemma upd_same : forall A (f : N -> A) i x, upd f i x i = x.
Proof. intros. unfold upd. rewrite N.eqb_refl. reflexivity. Qed.
Lemma upd_other : forall A (f : N -> A) i x j, j <> i -> upd f i x j = f j.
Proof. intros. unfold upd. apply N.eqb_neq in H. rewrite H. reflexivity. Qed.

(** What [make] does. *)
Lemma make_look : forall k s p n c perm nl i l, get (f_root s) p = Some (Dir i l) -> assoc n l = None ->
  let s' := make k s p n c perm nl in
  get (f_root s') (p ++ [n]) = Some c /\ same_outside s s' (p ++ [n]) /\ extends s s' /\
  f_body s' = f_body s /\ same_metas s s' /\ f_meta s' (f_next s) = Meta perm nl (k_now k) (k_now k) /\ same_process s s'.
Proof.
  intros k s p n c perm nl i l Hp Hn s'. subst s'. unfold make, same_process, extends. cbn.
  repeat match goal with |- _ /\ _ => split end; auto.
  - erewrite get_insert_new; eauto.
  - intros r Hr. cbn. eapply look_insert_out; eauto.
  - intros q x Hq. eapply look_insert; eauto.
  - intros j Hj. cbn. apply upd_other. lia.
  - apply upd_same.
Qed.

Lemma look_fresh : forall s q i, wf s -> look (f_root s) q = Some (NLeaf i) \/ look (f_root s) q = Some (NDir i) -> (i < f_next s)%N.
Proof.
  intros s q i Hw H. apply (wf_fresh s Hw). destruct H as [H|H].
  - apply look_leaf in H. eapply inodes_get; eauto. cbn. auto.
  - apply look_dir in H as [l H]. eapply inodes_get; eauto. cbn. auto.
Qed.

(** A new leaf with its content. *)
Lemma make_leaf_look : forall k s p n b perm nl i l, wf s -> get (f_root s) p = Some (Dir i l) -> assoc n l = None ->
  let s' := set_body (make k s p n (Leaf (f_next s)) perm nl) (f_next s) b in
  look (f_root s') (p ++ [n]) = Some (NLeaf (f_next s)) /\ f_body s' (f_next s) = b /\ same_outside s s' (p ++ [n]) /\ extends s s' /\
  same_bodies s s' /\ same_metas s s' /\ f_meta s' (f_next s) = Meta perm nl (k_now k) (k_now k) /\ same_process s s'.
Proof.
  intros k s p n b perm nl i l Hw Hp Hn s'. subst s'.
  destruct (make_look k s p n (Leaf (f_next s)) perm nl i l Hp Hn) as (H1 & H2 & H3 & H4 & H5 & H6 & H7).
  repeat match goal with |- _ /\ _ => split end; auto.
  - unfold look. cbn in *. rewrite H1. reflexivity.
  - apply upd_same.
  - destruct H3 as (E1 & E2 & E3). repeat split; auto. intros q j Hq. unfold link_text. cbn.
    rewrite upd_other; auto. pose proof (look_fresh s q j Hw (or_introl Hq)). lia.
  - intros j Hj. cbn. apply upd_other. lia.
Qed.
