(** More properties of single operations on the file system of FS.v: rename, sizes, permissions and times. *)
From Coq Require Import Ascii String Bool Arith NArith ZArith Lia.
From Verif Require Import Str PathModel PathSpec StrProofs PathProofs PathOps PathLaws FlagsModel TimeModel ArithProps Prog DirModel
  OpsModel OpsProps FS FSProofs FSSpec FSOps FSProps.
From Coq Require Import List.
Import ListNotations.

(** * C36 rename *)

(** The entry [c] went from [q] to [r]; every other place has the object it had. *)
Definition moved_to (s s' : fs) (q r : loc) (c : tree) : Prop :=
  get (f_root s') r = Some c /\ look (f_root s') q = None /\
  (forall z, below q z = false -> below r z = false -> look (f_root s') z = look (f_root s) z).

Lemma move_spec : forall s q c p n, wf s -> q <> [] -> get (f_root s) q = Some c ->
  (exists i, look (f_root s) p = Some (NDir i)) -> look (f_root s) (p ++ [n]) = None ->
  below q p = false -> moved_to s (move_entry s q c p n) q (p ++ [n]) c.
Proof.
  intros s q c p n Hw Hq Hc [i Hp] Hn Hb. pose proof Hw as [W1 _ _]. unfold moved_to, move_entry. cbn [f_root set_root set_cwd].
  assert (Hp' : look (delete_at (removelast q) (last q []) (f_root s)) p = Some (NDir i)).
  { rewrite look_delete_out; auto. rewrite <- snoc_removelast; auto. }
  apply look_dir in Hp' as [l Hl].
  assert (Hx : look (delete_at (removelast q) (last q []) (f_root s)) (p ++ [n]) = None).
  { destruct (look (delete_at _ _ _) (p ++ [n])) eqn:E; auto. apply look_delete_sub in E; auto. congruence. }
  assert (Hn' : assoc n l = None) by (apply look_None in Hx; rewrite get_snoc, Hl in Hx; auto).
  assert (Hpq : below (p ++ [n]) q = false).
  { destruct (below (p ++ [n]) q) eqn:E; auto. apply below_spec in E as [r ->]. exfalso.
    apply look_None in Hn. rewrite get_app, Hn in Hc. discriminate. }
  repeat split.
  - erewrite get_insert_new; eauto.
  - erewrite look_insert_out; eauto. apply look_None.
    assert (Hpar : exists i0 l0, get (f_root s) (removelast q) = Some (Dir i0 l0)).
    { destruct (look_removelast (f_root s) q (node_of c)) as [i0 Hi]; auto. { apply look_get. eauto. }
      apply look_dir in Hi as [l0 H0]. eauto. }
    destruct Hpar as (i0 & l0 & Hpar). rewrite (snoc_removelast q) at 3; auto. eapply get_delete_same; eauto.
  - intros z Hz1 Hz2. erewrite look_insert_out; eauto. apply look_delete_out. rewrite <- snoc_removelast; auto.
Qed.

Lemma rename_spec : forall k s old new, wf s ->
  match sys_rename k s old new with
  | (Err _, s') => s' = s
  | (Val _, s') =>
      exists q c, (exists l, find_entry k s old = Found l q) /\ get (f_root s) q = Some c /\
        ((s' = s /\ exists q2 c2, (exists l, find_entry k s new = Found l q2) /\ get (f_root s) q2 = Some c2 /\ node_of c2 = node_of c) \/
         (exists r, ((exists l, find_entry k s new = Found l r) \/ (exists p n, find_entry k s new = Missing p n /\ r = p ++ [n])) /\
            moved_to s s' q r c /\ f_body s' = f_body s /\
            (forall j, (match look (f_root s) r with Some (NLeaf i) => j <> i | _ => True end) -> f_meta s' j = f_meta s j) /\
            f_cwd s' = rebase q r (f_cwd s) /\ f_fds s' = f_fds s /\ f_dirs s' = f_dirs s /\ f_env s' = f_env s))
  end.
Proof.
  intros k s old new Hw. unfold sys_rename. destruct (find_entry k s old) as [l q|q n|e] eqn:E; auto.
  destruct (get (f_root s) q) as [c|] eqn:Hc; auto.
  destruct (is_nil q || is_dots (last_name old) || is_dots (last_name new) || is_nil (names new)) eqn:E0; auto.
  assert (Hq : q <> []) by (intros ->; discriminate).
  destruct (negb match c with Leaf _ => false | Dir _ _ => true end && (ends_slash old || ends_slash new)); auto.
  destruct (find_entry k s new) as [l2 q2|p n|e2] eqn:E2; auto.
  - destruct (get (f_root s) q2) as [c2|] eqn:Hc2; [|auto].
    destruct (snoc_cases q2) as [->|[p2 [n2 ->]]].
    { destruct (wf_root_dir s Hw) as [ri [rl Hr]]. cbn in Hc2. inversion Hc2; subst. rewrite Hr.
      destruct c; auto. assert (Hb : below q [] = false) by (destruct q; [congruence|reflexivity]).
      unfold same_loc. rewrite Hb. cbn [andb]. destruct rl as [|e rl]; [|exact eq_refl].
      destruct q as [|x q]; [congruence|]. rewrite Hr in Hc. discriminate. }
    rewrite removelast_snoc, last_snoc.
    assert (Hlook : look (f_root s) (p2 ++ [n2]) = Some (node_of c2)) by (apply look_get; eauto).
    pose proof (look_parent _ _ _ _ Hlook) as [pi Hpi]. apply look_dir in Hpi as [pl Hpl].
    assert (Hdel : forall s', f_root s' = delete_at p2 n2 (f_root s) -> f_next s' = f_next s ->
      below (p2 ++ [n2]) q = false -> below q (p2 ++ [n2]) = false -> moved_to s (move_entry s' q c p2 n2) q (p2 ++ [n2]) c).
    { intros s' Hs1 Hs2 Hb1 Hb2.
      assert (Hb3 : below q p2 = false).
      { destruct (below q p2) eqn:Hb3; auto. apply below_spec in Hb3 as [r ->]. rewrite <- app_assoc, below_app in Hb2. discriminate. }
      destruct (move_spec s' q c p2 n2) as (M1 & M2 & M3); auto.
      - eapply wf_deleted; eauto.
      - rewrite Hs1. rewrite get_delete_out; auto.
      - exists pi. rewrite Hs1, look_delete_out by apply below_not_snoc. apply look_dir. eauto.
      - rewrite Hs1. apply look_None. eapply get_delete_same; eauto. apply (wf_root s Hw).
      - split; auto. split; auto. intros z Hz1 Hz2. rewrite M3; auto. rewrite Hs1. apply look_delete_out. auto. }
    assert (Hleaf : forall i, c = Leaf i -> q <> p2 ++ [n2] -> below q (p2 ++ [n2]) = false).
    { intros i -> Hne. destruct (below q (p2 ++ [n2])) eqn:Hb; auto. destruct Hne. symmetry. eapply below_leaf; eauto. }
    destruct c2 as [j|j m], c as [i|i m']; auto.
    + destruct (N.eqb i j) eqn:Eij.
      { apply N.eqb_eq in Eij as ->. exists q, (Leaf j). split; [eauto|]. split; [auto|]. left. split; auto. exists (p2 ++ [n2]), (Leaf j). eauto. }
      apply N.eqb_neq in Eij. exists q, (Leaf i). split; [eauto|]. split; [auto|]. right. exists (p2 ++ [n2]). split; [eauto|].
      split; [|unfold unlink, move_entry; cbn; repeat match goal with |- _ /\ _ => split end; auto].
      * apply Hdel; auto.
        { destruct (below (p2 ++ [n2]) q) eqn:Hb; auto.
          assert (q = p2 ++ [n2]) by (eapply below_leaf; eauto; apply look_leaf; eauto). subst q. congruence. }
        eapply Hleaf; eauto. intros ->. congruence.
      * intros j0 Hj. rewrite Hlook in Hj. cbn in Hj. apply upd_other. auto.
    + destruct (same_loc q (p2 ++ [n2])) eqn:Es.
      { unfold same_loc in Es. apply andb_true_iff in Es as [B1 B2].
        assert (q = p2 ++ [n2]).
        { apply below_spec in B1 as [r Hr]. pose proof (below_length _ _ B2) as Hl. rewrite Hr, app_length in Hl.
          destruct r; [rewrite app_nil_r in Hr; auto|cbn in Hl; lia]. }
        subst q. exists (p2 ++ [n2]), (Dir i m'). split; [eauto|]. split; [auto|]. left. split; auto.
        exists (p2 ++ [n2]), (Dir j m). rewrite Hc in Hc2. inversion Hc2; subst. eauto. }
      destruct (below q (p2 ++ [n2])) eqn:Hb; auto.
      destruct m as [|e m]; [|reflexivity]. cbn [is_nil]. exists q, (Dir i m'). split; [eauto|]. split; [auto|]. right. exists (p2 ++ [n2]). split; [eauto|].
      split; [|unfold move_entry; cbn; repeat match goal with |- _ /\ _ => split end; auto].
      apply Hdel; auto. destruct (below (p2 ++ [n2]) q) eqn:Hb1; auto.
      apply below_spec in Hb1 as [r ->]. destruct r as [|x r].
      { rewrite app_nil_r, below_refl in Hb. discriminate. }
      rewrite get_app, Hc2 in Hc. discriminate.
  - pose proof (entry_missing _ _ _ _ _ E2) as (i & m & H1 & H2 & H3).
    assert (Hfree : look (f_root s) (p ++ [n]) = None) by (apply look_None; rewrite get_snoc, H1; auto).
    assert (Hmv : below q p = false -> exists q0 c0, (exists l, Found l q = Found l q0) /\ get (f_root s) q0 = Some c0 /\
       ((move_entry s q c p n = s /\ exists q2 c2, (exists l, Missing p n = Found l q2) /\ get (f_root s) q2 = Some c2 /\ node_of c2 = node_of c0) \/
        (exists r, ((exists l, Missing p n = Found l r) \/ (exists p0 n0, Missing p n = Missing p0 n0 /\ r = p0 ++ [n0])) /\
          moved_to s (move_entry s q c p n) q0 r c0 /\ f_body (move_entry s q c p n) = f_body s /\
          (forall j, (match look (f_root s) r with Some (NLeaf i0) => j <> i0 | _ => True end) -> f_meta (move_entry s q c p n) j = f_meta s j) /\
          f_cwd (move_entry s q c p n) = rebase q0 r (f_cwd s) /\ f_fds (move_entry s q c p n) = f_fds s /\ f_dirs (move_entry s q c p n) = f_dirs s /\ f_env (move_entry s q c p n) = f_env s))).
    { intros Hb. exists q, c. split; [exists l; reflexivity|]. split; auto. right. exists (p ++ [n]). split; [right; eauto|].
      split; [|unfold move_entry; cbn; auto 10]. apply move_spec; auto. exists i. apply look_dir. eauto. }
    assert (Hlf : forall j, c = Leaf j -> below q p = false).
    { intros j ->. destruct (below q p) eqn:Hb; auto.
      assert (p = q) by (eapply below_leaf; eauto; apply look_dir; eauto). subst. congruence. }
    destruct c as [j|j m'].
    + cbn [negb andb]. destruct (Hmv (Hlf j eq_refl)) as (q0 & c0 & [l0 Hl0] & H). exists q0, c0. split; [exists l; congruence|]. exact H.
    + cbn [negb andb]. destruct (below q p) eqn:Hb; auto. destruct (Hmv eq_refl) as (q0 & c0 & [l0 Hl0] & H). exists q0, c0. split; [exists l; congruence|]. exact H.
Qed.

(** rename(from, to): either both names already are one object and nothing changes, or afterwards the place [to] names has
    the whole of what [from] named, [from] is free, and nothing else has changed (except the link count of
    a file that was replaced). When it fails nothing has changed. *)
Theorem C36_rename : forall k s has from to, wf s ->
  match run (fsk k) (rename_impl has from to) s with
  | Done (_, None) s' =>
      exists q c, (exists l, find_entry k s (native from) = Found l q) /\ get (f_root s) q = Some c /\
        ((s' = s /\ exists q2, names_entry k s (native to) q2 (node_of c)) \/
         (exists r, ((exists l, find_entry k s (native to) = Found l r) \/
                     (exists p n, names_missing k s (native to) p n /\ r = p ++ [n])) /\
            moved_to s s' q r c /\ f_body s' = f_body s /\
            (forall j, (match look (f_root s) r with Some (NLeaf i) => j <> i | _ => True end) -> f_meta s' j = f_meta s j) /\
            f_cwd s' = rebase q r (f_cwd s) /\ f_fds s' = f_fds s /\ f_dirs s' = f_dirs s /\ f_env s' = f_env s))
  | Done (_, Some _) s' => s' = s /\ has = true
  | Failed f s' => s' = s /\ has = false /\ exists e, f = FThrow (Some e) [from; to]
  end.
Proof.
  intros k s has from to Hw. unfold rename_impl. rewrite run_sys. cbn [fsk].
  pose proof (rename_spec k s (native from) (native to) Hw) as H.
  destruct (sys_rename k s (native from) (native to)) as [[e|u] s']; cbn [fst snd].
  - subst s'. cbn. destruct has; cbn; eauto.
  - cbn. destruct H as (q & c & H1 & H2 & [(-> & q2 & c2 & [l2 G1] & G2 & G3)|(r & G)]).
    + exists q, c. split; auto. split; auto. left. split; auto. exists q2, l2. split; auto. apply look_get. eauto.
    + exists q, c. split; auto. split; auto. right. exists r. exact G.
Qed.

(** A file can be renamed to any free name, and a directory to any free name outside itself. *)
Theorem C36_renames : forall k s has from to q c p n, wf s ->
  (exists l, find_entry k s (native from) = Found l q) -> get (f_root s) q = Some c -> q <> [] ->
  plain (last_name (native from)) = true ->
  names_missing k s (native to) p n -> last_name (native to) = n -> below q p = false ->
  (match c with Leaf _ => ends_slash (native from) = false /\ ends_slash (native to) = false | Dir _ _ => True end) ->
  exists s', run (fsk k) (rename_impl has from to) s = Done (tt, None) s' /\ moved_to s s' q (p ++ [n]) c.
Proof.
  intros k s has from to q c p n Hw [l E] Hc Hq Hp Hm Hlast Hb Hs. unfold rename_impl. rewrite run_sys. cbn [fsk].
  unfold sys_rename. rewrite E, Hc. unfold plain in Hp. apply andb_true_iff in Hp as [Hp Hp2]. apply andb_true_iff in Hp as [_ Hp1].
  apply negb_true_iff in Hp1, Hp2. unfold names_missing in Hm. pose proof (entry_missing _ _ _ _ _ Hm) as (i & m & H1 & H2 & H3).
  assert (Hd1 : is_dots (last_name (native from)) = false) by (unfold is_dots; rewrite Hp1, Hp2; auto).
  assert (Hd2 : is_dots (last_name (native to)) = false).
  { rewrite Hlast. unfold find_entry, resolve_comps in Hm. destruct (is_nil (native to)); [discriminate|]. apply steps_missing in Hm. tauto. }
  assert (Hn : is_nil (names (native to)) = false).
  { unfold last_name in Hlast. destruct (names (native to)) eqn:En; auto. cbn in Hlast. subst n. discriminate. }
  assert (Hq' : is_nil q = false) by (destruct q; [congruence|reflexivity]).
  rewrite Hd1, Hd2, Hn, Hq', Hm. cbn [orb].
  assert (M : moved_to s (move_entry s q c p n) q (p ++ [n]) c).
  { apply move_spec; auto. exists i. apply look_dir. eauto. apply look_None. rewrite get_snoc, H1. auto. }
  destruct c as [j|j m'].
  - destruct Hs as [-> ->]. cbn [negb andb orb]. cbn [fst snd simple run]. eauto.
  - cbn [negb andb]. rewrite Hb. cbn. eauto.
Qed.

Example C36_example : exists s1 s2, wf demo /\
  names_missing demo_choices demo (native (topath (lit "l/e"))) [lit "b"] (lit "e") /\
  run (fsk demo_choices) (rename_impl true (topath (lit "d")) (topath (lit "l/e"))) demo = Done (tt, None) s1 /\
  moved_to demo s1 [lit "a"; lit "d"] [lit "b"; lit "e"] (Dir 5 [(lit "g", Leaf 6)]) /\
  run (fsk demo_choices) (rename_impl true (topath (lit "f")) (topath (lit "d/g"))) demo = Done (tt, None) s2 /\
  get (f_root s2) [lit "a"; lit "d"; lit "g"] = Some (Leaf 3) /\
  run (fsk demo_choices) (rename_impl true (topath (lit "f")) (topath (lit "/b/h"))) demo = Done (tt, None) demo /\
  run (fsk demo_choices) (rename_impl true (topath (lit "d")) (topath (lit "d/x"))) demo = Done (tt, Some EINVAL) demo.
Proof.
  assert (H : exists s1, run (fsk demo_choices) (rename_impl true (topath (lit "d")) (topath (lit "l/e"))) demo = Done (tt, None) s1 /\
     moved_to demo s1 [lit "a"; lit "d"] [lit "b"; lit "e"] (Dir 5 [(lit "g", Leaf 6)])).
  { apply (C36_renames demo_choices demo true _ _ _ _ [lit "b"] (lit "e")); auto; try reflexivity.
    - apply demo_wf. - exists 40. reflexivity. - discriminate. }
  destruct H as [s1 [H1 H2]]. exists s1. eexists. split; [apply demo_wf|]. split; [reflexivity|]. split; [exact H1|]. split; [exact H2|].
  split; [vm_compute; reflexivity|]. repeat split; vm_compute; reflexivity.
Qed.

(** * C37 sizes *)

Lemma run_file_size : forall k s p,
  run (fsk k) (file_size_impl true p) s =
  Done (match node_at s (find_at k s true (native p)) with
        | Val x => match type_of s x with
                   | ft_regular => (to_u64 (st_size (stat_of s x)), None)
                   | ft_directory => (u64_max, Some EISDIR)
                   | _ => (u64_max, Some ENOTSUP)
                   end
        | Err e => (u64_max, Some e) end) s.
Proof.
  intros. unfold file_size_impl. rewrite run_bind, run_GetFileStatus.
  destruct (node_at s (find_at k s true (native p))) as [e|x]; cbn [stat_result].
  - rewrite missing_not_exists. reflexivity.
  - destruct (status_of_exists s x) as [-> _]. cbn [negb orb].
    unfold st_is_regular_file, st_is_directory, has_type, status_of. cbn [st_type].
    destruct x as [i|i]; cbn [type_of]; [|reflexivity]. destruct (f_body s i) as [d|t|[]]; reflexivity.
Qed.

(** file_size: the number of bytes of a regular file; is_a_directory for a directory, not_supported for other types, the
    system's error for a path that leads nowhere. *)
Theorem C37_file_size : forall k s p,
  (forall q i d, leads_to k s (native p) q (NLeaf i) -> f_body s i = BReg d -> (Z.of_nat (length d) < 2 ^ 63)%Z ->
     run (fsk k) (file_size_impl true p) s = Done (Z.of_nat (length d), None) s) /\
  (forall q x, leads_to k s (native p) q x -> type_of s x <> ft_regular ->
     run (fsk k) (file_size_impl true p) s =
     Done (u64_max, Some (if file_type_eqb (type_of s x) ft_directory then EISDIR else ENOTSUP)) s) /\
  ((~ exists q x, leads_to k s (native p) q x) ->
     exists e, run (fsk k) (file_size_impl true p) s = Done (u64_max, Some e) s).
Proof.
  intros k s p. rewrite run_file_size. repeat split.
  - intros q i d H Hd Hl. assert (E : node_at s (find_at k s true (native p)) = Val (NLeaf i)) by (apply node_at_leads; eauto).
    rewrite E. cbn [type_of stat_of st_size]. rewrite Hd. cbn [body_size]. unfold to_u64. rewrite Z.mod_small; [reflexivity|].
    assert (2 ^ 63 < 2 ^ 64)%Z by reflexivity. lia.
  - intros q x H Ht. assert (E : node_at s (find_at k s true (native p)) = Val x) by (apply node_at_leads; eauto).
    rewrite E. destruct (type_of s x); try reflexivity. congruence.
  - intros H. destruct (node_at s (find_at k s true (native p))) as [e|x] eqn:E; [eauto|].
    exfalso. apply H. apply node_at_leads in E as [q Hq]. eauto.
Qed.

(** hard_link_count: the number of links of the object. *)
Theorem C37_hard_link_count : forall k s p,
  (forall q x, leads_to k s (native p) q x -> (0 <= m_nlink (f_meta s (number x)) < 2 ^ 64)%Z ->
     run (fsk k) (hard_link_count_impl true p) s = Done (m_nlink (f_meta s (number x)), None) s) /\
  ((~ exists q x, leads_to k s (native p) q x) ->
     exists e, run (fsk k) (hard_link_count_impl true p) s = Done (u64_max, Some e) s).
Proof.
  intros k s p. unfold hard_link_count_impl. rewrite run_bind, run_GetFileStatus. split.
  - intros q x H Hl. assert (E : node_at s (find_at k s true (native p)) = Val x) by (apply node_at_leads; eauto).
    rewrite E. cbn [stat_result fst snd failed run]. unfold to_u64.
    replace (st_nlink (stat_of s x)) with (m_nlink (f_meta s (number x))) by (destruct x; reflexivity).
    rewrite Z.mod_small; auto.
  - intros H. destruct (node_at s (find_at k s true (native p))) as [e|x] eqn:E; [exists e; reflexivity|].
    exfalso. apply H. apply node_at_leads in E as [q Hq]. eauto.
Qed.

Lemma resized_spec : forall d n, length (resized d n) = n /\
  (forall i, i < n -> i < length d -> nth_error (resized d n) i = nth_error d i) /\
  (forall i, i < n -> length d <= i -> nth_error (resized d n) i = Some zero).
Proof.
  intros d n. unfold resized. repeat split.
  - rewrite app_length, firstn_length, repeat_length. lia.
  - intros i H1 H2. rewrite nth_error_app1 by (rewrite firstn_length; lia).
    rewrite <- (firstn_skipn n d) at 2. symmetry. apply nth_error_app1. rewrite firstn_length. lia.
  - intros i H1 H2. rewrite nth_error_app2 by (rewrite firstn_length; lia).
    rewrite nth_error_repeat; auto. rewrite firstn_length. lia.
Qed.

(** resize_file(p, n): the file has n bytes, those it had before as far as they go and zeros after; file_size says so; nothing
    else changes. When it fails nothing changes. *)
Theorem C37_resize_file : forall k s has p n, (0 <= n < 2 ^ 64)%Z ->
  (forall s', run (fsk k) (resize_file_impl has p n) s = Done (tt, None) s' ->
     exists q i d d', leads_to k s (native p) q (NLeaf i) /\ f_body s i = BReg d /\ f_body s' i = BReg d' /\
       Z.of_nat (length d') = n /\
       (forall j, j < length d' -> nth_error d' j = if j <? length d then nth_error d j else Some zero) /\
       run (fsk k) (file_size_impl true p) s' = Done (n, None) s' /\
       f_root s' = f_root s /\ same_bodies_but s s' i /\ f_meta s' = f_meta s /\ same_process s s') /\
  (forall e s', run (fsk k) (resize_file_impl has p n) s = Done (tt, Some e) s' -> s' = s) /\
  (forall f s', run (fsk k) (resize_file_impl has p n) s = Failed f s' -> s' = s) /\
  ((n < 2 ^ 63)%Z -> forall q i d, leads_to k s (native p) q (NLeaf i) -> f_body s i = BReg d ->
     exists s', run (fsk k) (resize_file_impl has p n) s = Done (tt, None) s').
Proof.
  intros k s has p n Hn. unfold resize_file_impl. rewrite run_sys. cbn [fsk].
  assert (Hwrap : wrap64 n = if (n <? 2 ^ 63)%Z then n else (n - 2 ^ 64)%Z).
  { unfold wrap64. assert (P : (2 ^ 64 = 2 * 2 ^ 63)%Z) by reflexivity. destruct (n <? 2 ^ 63)%Z eqn:E.
    - apply Z.ltb_lt in E. rewrite Z.mod_small; lia.
    - apply Z.ltb_ge in E. replace (n + 2 ^ 63)%Z with ((n - 2 ^ 63) + 1 * 2 ^ 64)%Z by lia. rewrite Z.mod_add by lia.
      rewrite Z.mod_small; lia. }
  unfold sys_truncate. destruct (node_at s (find_at k s true (native p))) as [e|[i|i]] eqn:E.
  - cbn. repeat split; try (destruct has; cbn; intros; congruence).
    intros _ q i d Hl. exfalso. assert (node_at s (find_at k s true (native p)) = Val (NLeaf i)) by (apply node_at_leads; eauto). congruence.
  - unfold resize_obj. destruct (f_body s i) as [d|t|b] eqn:Eb.
    + destruct (wrap64 n <? 0)%Z eqn:Ew.
      * cbn. repeat split; try (destruct has; cbn; intros; congruence).
        intros Hlt. rewrite Hwrap in Ew. apply Z.ltb_lt in Ew. destruct (n <? 2 ^ 63)%Z eqn:E3; [lia|apply Z.ltb_ge in E3; lia].
      * assert (Hlt : (n <? 2 ^ 63)%Z = true).
        { rewrite Hwrap in Ew. destruct (n <? 2 ^ 63)%Z; auto. apply Z.ltb_ge in Ew. lia. }
        rewrite Hlt in Hwrap. apply Z.ltb_lt in Hlt. rewrite Hwrap. cbn [fst snd simple run].
        assert (G : exists q i0 d0 d', leads_to k s (native p) q (NLeaf i0) /\ f_body s i0 = BReg d0 /\
            f_body (set_body s i (BReg (resized d (Z.to_nat n)))) i0 = BReg d' /\ Z.of_nat (length d') = n /\
            (forall j, j < length d' -> nth_error d' j = if j <? length d0 then nth_error d0 j else Some zero) /\
            run (fsk k) (file_size_impl true p) (set_body s i (BReg (resized d (Z.to_nat n)))) = Done (n, None) (set_body s i (BReg (resized d (Z.to_nat n)))) /\
            f_root (set_body s i (BReg (resized d (Z.to_nat n)))) = f_root s /\
            same_bodies_but s (set_body s i (BReg (resized d (Z.to_nat n)))) i0 /\ 
            f_meta (set_body s i (BReg (resized d (Z.to_nat n)))) = f_meta s /\ same_process s (set_body s i (BReg (resized d (Z.to_nat n))))).
        { pose proof E as E'. apply node_at_leads in E' as [q Hq]. destruct (resized_spec d (Z.to_nat n)) as (R1 & R2 & R3).
          exists q, i, d, (resized d (Z.to_nat n)). split; auto. split; auto. split; [cbn; apply upd_same|].
          split; [rewrite R1; lia|]. split; [|split].
          - intros j Hj. rewrite R1 in Hj. destruct (j <? length d) eqn:Ej; [apply Nat.ltb_lt in Ej; auto|apply Nat.ltb_ge in Ej; auto].
          - set (s' := set_body _ _ _). assert (X : extends s s').
            { repeat split; auto. unfold s'. intros _ j _. unfold link_text. cbn. unfold upd. destruct (N.eqb j i) eqn:Eij; auto.
              apply N.eqb_eq in Eij as ->. rewrite Eb. reflexivity. }
            destruct Hq as (l & Hq1 & Hq2).
            assert (L : leads_to k s' (native p) q (NLeaf i)) by (exists l; split; [eapply find_extends; eauto|exact Hq2]).
            replace n with (Z.of_nat (length (resized d (Z.to_nat n)))) at 1 by (rewrite R1; lia).
            apply (proj1 (C37_file_size k s' p) q i); auto. { unfold s'. cbn. apply upd_same. } rewrite R1. lia.
          - cbn. split; auto. split; [|split; [auto|repeat split]]. intros j Hj. cbn. apply upd_other. auto. }
        split; [intros s' Hs; injection Hs as <-; exact G|].
        split; [discriminate|]. split; [discriminate|]. eauto.
    + cbn. repeat split; try (destruct has; cbn; intros; congruence).
      intros _ q i0 d Hl Hb. exfalso. assert (node_at s (find_at k s true (native p)) = Val (NLeaf i0)) by (apply node_at_leads; eauto). congruence.
    + cbn. repeat split; try (destruct has; cbn; intros; congruence).
      intros _ q i0 d Hl Hb. exfalso. assert (node_at s (find_at k s true (native p)) = Val (NLeaf i0)) by (apply node_at_leads; eauto). congruence.
  - cbn. repeat split; try (destruct has; cbn; intros; congruence).
    intros _ q i0 d Hl Hb. exfalso. assert (node_at s (find_at k s true (native p)) = Val (NLeaf i0)) by (apply node_at_leads; eauto). congruence.
Qed.

Example C37_size_example : exists s1 s2,
  leads_to demo_choices demo (native (topath (lit "l/h"))) [lit "b"; lit "h"] (NLeaf 3) /\ f_body demo 3 = BReg (lit "hello") /\
  run (fsk demo_choices) (file_size_impl true (topath (lit "l/h"))) demo = Done (5%Z, None) demo /\
  run (fsk demo_choices) (file_size_impl true (topath (lit "d"))) demo = Done (u64_max, Some EISDIR) demo /\
  run (fsk demo_choices) (file_size_impl true (topath (lit "/s"))) demo = Done (u64_max, Some ENOTSUP) demo /\
  run (fsk demo_choices) (file_size_impl true (topath (lit "x"))) demo = Done (u64_max, Some ENOENT) demo /\
  run (fsk demo_choices) (resize_file_impl true (topath (lit "f")) 2) demo = Done (tt, None) s1 /\ f_body s1 3 = BReg (lit "he") /\
  run (fsk demo_choices) (resize_file_impl true (topath (lit "f")) 7) demo = Done (tt, None) s2 /\
  f_body s2 3 = BReg (lit "hello" ++ [zero; zero]) /\
  run (fsk demo_choices) (resize_file_impl true (topath (lit "f")) (2 ^ 63)) demo = Done (tt, Some EINVAL) demo.
Proof.
  do 2 eexists. split; [exists 39; split; reflexivity|]. do 5 (split; [reflexivity|]).
  split; [vm_compute; reflexivity|]. split; [reflexivity|]. split; [vm_compute; reflexivity|]. split; reflexivity.
Qed.

(** * C39 permissions *)

(** One of the three actions, with or without nofollow. *)
Inductive action := Replace | Add | Remove.
Definition action_value (a : action) : N := match a with Replace => popt_value po_replace | Add => popt_value po_add | Remove => popt_value po_remove end.
Definition perm_opts (a : action) (nofollow : bool) : N := (action_value a + (if nofollow then popt_value po_nofollow else 0))%N.

(** The bit [i] of the new mode, from that of the old mode and that of the argument. *)
Definition new_bit (a : action) (old arg : bool) : bool :=
  match a with Replace => arg | Add => old || arg | Remove => old && negb arg end.

Lemma land_mask : forall x i, N.testbit (N.land x 4095) i = N.testbit x i && N.ltb i 12.
Proof.
  intros x i. rewrite N.land_spec. f_equal. change 4095%N with (N.ones 12). destruct (N.ltb i 12) eqn:E.
  - apply N.ltb_lt in E. apply N.ones_spec_low. auto.
  - apply N.ltb_ge in E. apply N.ones_spec_high. auto.
Qed.
Lemma trunc32 : forall x i, (i < 12)%N -> N.testbit (trunc width_perms x) i = N.testbit x i.
Proof. intros. apply trunc_bit. unfold width_perms. lia. Qed.
Lemma not_bit : forall x i, (i < 12)%N -> N.testbit (op_not width_perms x) i = negb (N.testbit x i).
Proof.
  intros x i Hi. unfold op_not. rewrite trunc32 by auto. rewrite N.lxor_spec.
  rewrite ones32 by lia. apply xorb_true_r.
Qed.

Definition new_mode (a : action) (old prms : N) : N :=
  let p1 := op_and width_perms prms perms_mask in
  mode_bits (op_and width_perms
    (match a with Replace => p1 | Add => op_or width_perms p1 old | Remove => op_and width_perms old (op_not width_perms p1) end) perms_mask).

Lemma new_mode_bit : forall a old prms i,
  N.testbit (new_mode a old prms) i = N.ltb i 12 && new_bit a (N.testbit old i) (N.testbit prms i).
Proof.
  intros a old prms i. unfold new_mode, mode_bits. rewrite land_mask. rewrite andb_comm.
  destruct (N.ltb i 12) eqn:E; [|reflexivity]. cbn [andb]. apply N.ltb_lt in E.
  assert (H : forall x, N.testbit (op_and width_perms x perms_mask) i = N.testbit x i).
  { intros. unfold op_and. rewrite trunc32 by auto. unfold perms_mask. rewrite land_mask. apply N.ltb_lt in E. rewrite E. apply andb_true_r. }
  rewrite H. destruct a; cbn [new_bit].
  - apply H.
  - unfold op_or. rewrite trunc32 by auto. rewrite N.lor_spec, H. apply orb_comm.
  - unfold op_and at 1. rewrite trunc32 by auto. rewrite N.land_spec, not_bit, H; auto.
Qed.

Lemma run_permissions : forall cf k s p prms a nf, wf s ->
  run (fsk k) (permissions_impl cf true p prms (perm_opts a nf)) s =
  match node_at s (find_at k s (negb nf) (native p)) with
  | Err e => Done (tt, Some e) s
  | Val x =>
      let sym := nf && file_type_eqb (type_of s x) ft_symlink in
      match sys_fchmodat k s (native p) (match a with
          | Replace => op_and width_perms (op_and width_perms prms perms_mask) perms_mask
          | Add => op_and width_perms (op_or width_perms (op_and width_perms prms perms_mask) (mode_bits (m_perm (f_meta s (number x))))) perms_mask
          | Remove => op_and width_perms (op_and width_perms (mode_bits (m_perm (f_meta s (number x)))) (op_not width_perms (op_and width_perms prms perms_mask))) perms_mask
          end) sym with
      | (Val _, s') => Done (tt, None) s'
      | (Err e, s') => Done (tt, Some e) s'
      end
  end.
Proof.
  intros cf k s p prms a nf Hw.
  assert (Hperm : forall x, N.eqb (mode_bits (m_perm (f_meta s (number x)))) perms_unknown = false).
  { intros x. apply N.eqb_neq. pose proof (mode_bits_lt (m_perm (f_meta s (number x)))). unfold perms_unknown. lia. }
  assert (Ha : forall c, asap_assert c true = Ret tt) by (intros []; reflexivity).
  unfold permissions_impl.
  replace (has_popt po_nofollow (perm_opts a nf)) with nf by (destruct a, nf; reflexivity).
  replace (has_popt po_add (perm_opts a nf)) with (match a with Add => true | _ => false end) by (destruct a, nf; reflexivity).
  replace (has_popt po_remove (perm_opts a nf)) with (match a with Remove => true | _ => false end) by (destruct a, nf; reflexivity).
  replace (has_popt po_replace (perm_opts a nf)) with (match a with Replace => true | _ => false end) by (destruct a, nf; reflexivity).
  replace (Nat.eqb (Nat.b2n match a with Add => true | _ => false end + Nat.b2n match a with Remove => true | _ => false end + Nat.b2n match a with Replace => true | _ => false end) 1) with true by (destruct a; reflexivity).
  rewrite Ha. cbn [pbind].
  assert (Hfin : forall m sym, run (fsk k) (Sys (c_fchmodat (native p) m sym) (fun r => simple true [p] r)) s =
     match sys_fchmodat k s (native p) m sym with (Val _, s') => Done (tt, None) s' | (Err e, s') => Done (tt, Some e) s' end).
  { intros. rewrite run_sys. cbn [fsk]. destruct (sys_fchmodat k s (native p) m sym) as [[e|u] s']; reflexivity. }
  destruct (negb (negb nf) || ((match a with Add => true | _ => false end) || (match a with Remove => true | _ => false end))) eqn:Hc.
  - rewrite run_bind.
    replace (run (fsk k) (if negb nf then status_impl true p else symlink_status_impl true p) s)
      with (Done (let r := stat_result s (node_at s (find_at k s (negb nf) (native p))) in (fst (fst r), snd r)) s)
      by (destruct nf; cbn [negb]; [rewrite run_symlink_status|rewrite run_status]; reflexivity).
    destruct (node_at s (find_at k s (negb nf) (native p))) as [e|x] eqn:E; cbn [stat_result fst snd failed].
    + reflexivity.
    + unfold status_of at 1. cbn [st_perms]. rewrite Hperm. cbn [negb]. rewrite Ha. cbn [pbind].
      cbv zeta. unfold st_is_symlink, has_type. cbn [status_of st_type st_perms].
      assert (Hs : file_type_eqb (type_of s x) ft_symlink = nf && file_type_eqb (type_of s x) ft_symlink).
      { destruct nf; auto. cbn [andb]. apply node_at_Val in E as (l & q & H1 & H2).
        destruct x as [i|i]; [|reflexivity]. cbn [type_of]. destruct (f_body s i) as [d|t|[]] eqn:Eb; try reflexivity.
        exfalso. pose proof (find_no_link _ _ _ _ _ _ Hw H1 H2) as Hl. unfold link_text in Hl. rewrite Eb in Hl. discriminate. }
      rewrite <- Hs. rewrite Hfin. destruct a; reflexivity.
  - destruct nf; [discriminate|]. destruct a; try discriminate. rewrite Hfin. cbn [negb andb].
    unfold sys_fchmodat. cbn [negb]. destruct (node_at s (find_at k s true (native p))); reflexivity.
Qed.

(** permissions(p, prms, opts) with one action: the mode of the object becomes what the action says, bit by bit, and nothing
    else changes; with nofollow the object is the one named by p itself, and a symlink is an error; any error changes nothing. *)
Theorem C39_permissions : forall cf k s p prms a nf, wf s ->
  (forall q x l, find_at k s (negb nf) (native p) = Found l q -> look (f_root s) q = Some x -> type_of s x <> ft_symlink ->
     exists s', run (fsk k) (permissions_impl cf true p prms (perm_opts a nf)) s = Done (tt, None) s' /\
       let old := m_perm (f_meta s (number x)) in let new := m_perm (f_meta s' (number x)) in
       (forall i, N.testbit new i = N.ltb i 12 && new_bit a (N.testbit old i) (N.testbit prms i)) /\
       m_nlink (f_meta s' (number x)) = m_nlink (f_meta s (number x)) /\ m_mtime (f_meta s' (number x)) = m_mtime (f_meta s (number x)) /\
       m_atime (f_meta s' (number x)) = m_atime (f_meta s (number x)) /\
       same_metas_but s s' (number x) /\ f_root s' = f_root s /\ f_body s' = f_body s /\ same_process s s') /\
  (forall q x l, nf = true -> find_at k s false (native p) = Found l q -> look (f_root s) q = Some x -> type_of s x = ft_symlink ->
     run (fsk k) (permissions_impl cf true p prms (perm_opts a nf)) s = Done (tt, Some ENOTSUP) s) /\
  ((forall q l, find_at k s (negb nf) (native p) <> Found l q) ->
     exists e, run (fsk k) (permissions_impl cf true p prms (perm_opts a nf)) s = Done (tt, Some e) s).
Proof.
  intros cf k s p prms a nf Hw. rewrite run_permissions by auto. repeat split.
  - intros q x l H1 H2 H3. assert (E : node_at s (find_at k s (negb nf) (native p)) = Val x) by (unfold node_at; rewrite H1, H2; auto).
    rewrite E.
    assert (Hs : file_type_eqb (type_of s x) ft_symlink = false).
    { unfold file_type_eqb. destruct (file_type_eq_dec (type_of s x) ft_symlink); auto. congruence. }
    assert (Hb : forall i, x = NLeaf i -> link_text s i = None).
    { intros i ->. cbn in H3. unfold link_text. destruct (f_body s i) as [d|t|b]; auto. congruence. }
    assert (E' : node_at s (find_at k s true (native p)) = Val x).
    { destruct nf; [|exact E]. cbn [negb] in *. unfold find_at, resolve_comps in *. destruct (is_nil (native p)); [discriminate|].
      erewrite steps_last; eauto. { unfold node_at. rewrite H2. auto. } intros i Hi. apply Hb. congruence. }
    rewrite Hs, andb_false_r. cbv zeta. unfold sys_fchmodat. cbn [negb]. rewrite E'.
    replace (match x with NLeaf i => match f_body s i with BLink _ => true | _ => false end | NDir _ => false end) with false.
    2: { destruct x as [i|i]; auto. specialize (Hb i eq_refl). unfold link_text in Hb. destruct (f_body s i); auto; discriminate. }
    replace (match x with NLeaf i => i | NDir i => i end) with (number x) by (destruct x; reflexivity).
    eexists. split; [reflexivity|]. cbn. rewrite upd_same. cbn [with_perm m_perm m_nlink m_mtime m_atime].
    split; [|repeat split; auto; intros j Hj; cbn; apply upd_other; auto].
    intros i. rewrite <- new_mode_bit. unfold new_mode.
    assert (Hob : forall old, N.testbit (mode_bits old) i = N.ltb i 12 && N.testbit old i).
    { intros. unfold mode_bits. rewrite land_mask. apply andb_comm. }
    destruct a; auto.
    + transitivity (N.testbit (new_mode Add (mode_bits (m_perm (f_meta s (number x)))) prms) i); [reflexivity|].
      change (N.testbit (new_mode Add (mode_bits (m_perm (f_meta s (number x)))) prms) i = N.testbit (new_mode Add (m_perm (f_meta s (number x))) prms) i).
      rewrite !new_mode_bit, Hob. destruct (N.ltb i 12); reflexivity.
    + change (N.testbit (new_mode Remove (mode_bits (m_perm (f_meta s (number x)))) prms) i = N.testbit (new_mode Remove (m_perm (f_meta s (number x))) prms) i).
      rewrite !new_mode_bit, Hob. destruct (N.ltb i 12); reflexivity.
  - intros q x l -> H1 H2 H3. assert (E : node_at s (find_at k s false (native p)) = Val x) by (unfold node_at; rewrite H1, H2; auto).
    cbn [negb]. rewrite E, H3. cbn [andb]. unfold file_type_eqb. destruct (file_type_eq_dec ft_symlink ft_symlink); [|congruence].
    cbv zeta. unfold sys_fchmodat. cbn [negb]. rewrite E. destruct x as [i|i]; [|discriminate]. cbn in H3.
    destruct (f_body s i) as [d|t|[]]; try discriminate. reflexivity.
  - intros H. destruct (find_at k s (negb nf) (native p)) as [l q|q n|e] eqn:E; [exfalso; eapply H; eauto| |]; cbn; eauto.
Qed.

(** None or several of the actions: with assertions the program stops before any change; without them it acts
    as if one had been chosen. *)
Theorem C39_option_count_partial : forall cf k s has p prms opts, cf_dbg cf = true ->
  (Nat.b2n (has_popt po_replace opts) + Nat.b2n (has_popt po_add opts) + Nat.b2n (has_popt po_remove opts) <> 1)%nat ->
  run (fsk k) (permissions_impl cf has p prms opts) s = Failed FAssert s.
Proof.
  intros cf k s has p prms opts Hd Hc. unfold permissions_impl, asap_assert. rewrite Hd.
  destruct (has_popt po_replace opts), (has_popt po_add opts), (has_popt po_remove opts); cbn in Hc; try lia; reflexivity.
Qed.
(** A build without assertions. *)
Definition release_config : config := Config (Elision false false false) false Strict true.
(** Without assertions, any number of actions is accepted: add wins over remove, which wins over replace, and none acts as replace. *)
Theorem C39_option_count_refuted : forall cf k s has p prms opts, cf_dbg cf = false ->
  let a := if has_popt po_add opts then Add else if has_popt po_remove opts then Remove else Replace in
  run (fsk k) (permissions_impl cf has p prms opts) s = run (fsk k) (permissions_impl cf has p prms (perm_opts a (has_popt po_nofollow opts))) s.
Proof.
  intros cf k s has p prms opts Hd a. unfold permissions_impl, asap_assert. rewrite Hd. cbn [andb].
  replace (has_popt po_nofollow (perm_opts a (has_popt po_nofollow opts))) with (has_popt po_nofollow opts).
  replace (has_popt po_add (perm_opts a (has_popt po_nofollow opts))) with (has_popt po_add opts).
  replace (has_popt po_remove (perm_opts a (has_popt po_nofollow opts))) with (negb (has_popt po_add opts) && has_popt po_remove opts).
  2-4: subst a; destruct (has_popt po_add opts), (has_popt po_remove opts), (has_popt po_nofollow opts); reflexivity.
  destruct (has_popt po_add opts), (has_popt po_remove opts); reflexivity.
Qed.
Example C39_option_count_example :
  leads_to demo_choices demo (lit "f") [lit "a"; lit "f"] (NLeaf 3) /\ m_perm (f_meta demo 3) = 420%N /\
  (exists s', run (fsk demo_choices) (permissions_impl release_config true (topath (lit "f")) 64 0) demo = Done (tt, None) s' /\ m_perm (f_meta s' 3) = 64%N) /\
  (exists s', run (fsk demo_choices) (permissions_impl release_config true (topath (lit "f")) 64 (popt_value po_add + popt_value po_remove)) demo = Done (tt, None) s' /\
     m_perm (f_meta s' 3) = 484%N).
Proof.
  split; [exists 40; split; reflexivity|]. split; [reflexivity|]. split; eexists; (split; [vm_compute; reflexivity|]); reflexivity.
Qed.

Example C39_example : exists s1 s2 s3, wf demo /\
  find_at demo_choices demo true (native (topath (lit "f"))) = Found 40 [lit "a"; lit "f"] /\ type_of demo (NLeaf 3) = ft_regular /\
  m_perm (f_meta demo 3) = 420%N /\
  run (fsk demo_choices) (permissions_impl plain_config true (topath (lit "f")) 448 (perm_opts Replace false)) demo = Done (tt, None) s1 /\ m_perm (f_meta s1 3) = 448%N /\
  run (fsk demo_choices) (permissions_impl plain_config true (topath (lit "f")) 73 (perm_opts Add true)) demo = Done (tt, None) s2 /\ m_perm (f_meta s2 3) = 493%N /\
  run (fsk demo_choices) (permissions_impl plain_config true (topath (lit "f")) 36 (perm_opts Remove false)) demo = Done (tt, None) s3 /\ m_perm (f_meta s3 3) = 384%N /\
  run (fsk demo_choices) (permissions_impl plain_config true (topath (lit "l")) 448 (perm_opts Replace true)) demo = Done (tt, Some ENOTSUP) demo.
Proof.
  do 3 eexists. split; [apply demo_wf|]. do 3 (split; [reflexivity|]). split; [vm_compute; reflexivity|]. split; [reflexivity|].
  split; [vm_compute; reflexivity|]. split; [reflexivity|]. split; [vm_compute; reflexivity|]. split; reflexivity.
Qed.

(** * C40 last_write_time *)

(** last_write_time(p, t) for a time since the epoch: it succeeds on every existing path, last_write_time(p) then is t to
    the nanosecond, the access time and everything else is unchanged; when it fails nothing has changed. *)
Theorem C40_round_trip : forall cf k s p t, (0 <= t < 2 ^ 63)%Z ->
  (forall q x, leads_to k s (native p) q x ->
     exists s', run (fsk k) (set_last_write_time_impl cf true p t) s = Done (tt, None) s' /\
       run (fsk k) (last_write_time_impl cf true p) s' = Done (t, None) s' /\
       m_atime (f_meta s' (number x)) = m_atime (f_meta s (number x)) /\
       m_perm (f_meta s' (number x)) = m_perm (f_meta s (number x)) /\ m_nlink (f_meta s' (number x)) = m_nlink (f_meta s (number x)) /\
       same_metas_but s s' (number x) /\ f_root s' = f_root s /\ f_body s' = f_body s /\ same_process s s') /\
  ((~ exists q x, leads_to k s (native p) q x) ->
     exists e, run (fsk k) (set_last_write_time_impl cf true p t) s = Done (tt, Some e) s).
Proof.
  intros cf k s p t Ht. unfold set_last_write_time_impl.
  rewrite timespec_of_time_ok by (unfold representable; lia).
  assert (Hneg : (t <? 0)%Z = false) by (apply Z.ltb_ge; lia). rewrite Hneg. cbn [lift pbind].
  rewrite run_sys. cbn [fsk]. unfold sys_utimensat. cbn [tv_nsec].
  assert (Hm : (0 <= t mod 1000000000 < 1000000000)%Z) by (apply Z.mod_pos_bound; lia).
  assert (Hr : ((t mod 1000000000 <? 0)%Z || (999999999 <? t mod 1000000000)%Z) = false).
  { apply orb_false_iff. split; apply Z.ltb_ge; lia. }
  split.
  - intros q x Hl. assert (E : node_at s (find_at k s true (native p)) = Val x) by (apply node_at_leads; eauto).
    rewrite E, Hr. replace (match x with NLeaf i => i | NDir i => i end) with (number x) by (destruct x; reflexivity).
    cbn [fst snd simple run]. eexists. split; [reflexivity|].
    set (s' := set_meta s _ _).
    assert (X : extends s s') by (repeat split; auto).
    destruct Hl as (l & Hl1 & Hl2).
    assert (E' : node_at s' (find_at k s' true (native p)) = Val x).
    { apply node_at_leads. exists q, l. split; [eapply find_extends; eauto|exact Hl2]. }
    split.
    + unfold last_write_time_impl. rewrite run_bind, run_GetFileStatus, E'. cbn [stat_result snd fst failed].
      replace (st_mtim (stat_of s' x)) with (TimeSpec (t / 1000000000) (t mod 1000000000)).
      2: { unfold s'. destruct x; cbn; rewrite upd_same; reflexivity. }
      assert (Hx : exact_time (TimeSpec (t / 1000000000) (t mod 1000000000)) = t).
      { unfold exact_time. cbn [tv_sec tv_nsec]. pose proof (Z.div_mod t 1000000000). lia. }
      unfold ExtractLastWriteTime.
      replace (st_mtim (stat_of s' x)) with (TimeSpec (t / 1000000000) (t mod 1000000000)).
      2: { unfold s'. destruct x; cbn; rewrite upd_same; reflexivity. }
      assert (Hd : (0 <= t / 1000000000)%Z) by (apply Z.div_pos; lia).
      assert (Hd2 : (t / 1000000000 <= t)%Z) by (apply Z.div_le_upper_bound; lia).
      rewrite C41_exact_partial; rewrite ?Hx; [reflexivity| | |].
      * unfold kernel_timespec, representable. cbn [tv_sec tv_nsec]. lia.
      * exact Hd.
      * unfold representable. lia.
    + unfold s'. cbn. rewrite upd_same. cbn. repeat split; auto. intros j Hj. cbn. apply upd_other. auto.
  - intros H. destruct (node_at s (find_at k s true (native p))) as [e|x] eqn:E; [cbn; eauto|].
    exfalso. apply H. apply node_at_leads in E as [q Hq]. eauto.
Qed.

(** A time before the epoch is refused and nothing changes. *)
Theorem C40_before_epoch : forall cf k s p t, (- 2 ^ 63 <= t < 0)%Z ->
  run (fsk k) (set_last_write_time_impl cf true p t) s = Done (tt, Some EINVAL) s.
Proof.
  intros cf k s p t Ht. unfold set_last_write_time_impl. rewrite timespec_of_time_ok by (unfold representable; lia).
  assert (Hneg : (t <? 0)%Z = true) by (apply Z.ltb_lt; lia). rewrite Hneg. reflexivity.
Qed.

Example C40_example : exists s1,
  leads_to demo_choices demo (native (topath (lit "l/h"))) [lit "b"; lit "h"] (NLeaf 3) /\
  run (fsk demo_choices) (set_last_write_time_impl plain_config true (topath (lit "l/h")) 1234567890987654321) demo = Done (tt, None) s1 /\
  f_meta s1 3 = Meta 420 2 (TimeSpec 1234567890 987654321) (TimeSpec 900 7) /\
  run (fsk demo_choices) (last_write_time_impl plain_config true (topath (lit "f"))) s1 = Done (1234567890987654321%Z, None) s1 /\
  run (fsk demo_choices) (set_last_write_time_impl plain_config true (topath (lit "f")) (-1)) demo = Done (tt, Some EINVAL) demo.
Proof.
  eexists. split; [exists 39; split; reflexivity|]. split; [vm_compute; reflexivity|]. repeat split; reflexivity.
Qed.
Print Assumptions C36_rename.
Print Assumptions C36_renames.
Print Assumptions C37_file_size.
Print Assumptions C37_hard_link_count.
Print Assumptions C37_resize_file.
Print Assumptions C39_permissions.
Print Assumptions C39_option_count_partial.
Print Assumptions C39_option_count_refuted.
Print Assumptions C40_round_trip.
Print Assumptions C40_before_epoch.
