(** When create_directories fails on the file system of FS.v, and with which error. *)
From Coq Require Import Ascii String Bool Arith NArith ZArith Lia.
From Verif Require Import Str PathModel PathSpec StrProofs PathProofs PathOps PathOps2 PathNormal PathReach PathLaws
  FlagsModel TimeModel Prog DirModel OpsModel OpsProps FS FSProofs FSSpec FSOps FSPlace FSProps FSCreate.
From Coq Require Import List.
Import ListNotations.

(** How the two overloads tell the caller about an error [e] of create_directories: no directory was made, and the code is set; or
    filesystem_error is thrown with the code and the path. The file system is [s]. *)
Definition told_of {S} (has : bool) (p : path) (e : errno) (s : S) : outcome (bool * ecode) S :=
  if has then Done (false, Some e) s else Failed (FThrow (Some e) [p]) s.

(** One turn of the loop at a prefix that cannot be there because the way to it ends before. *)
Lemma run_stopped : forall k root has p c rest top pre x s e l, is_dots x = false -> rung root (pre ++ [x]) top ->
  e = ENOENT \/ e = ENOTDIR ->
  (forall last, walk k root s last (pre ++ [x]) = Fail e) -> l = top :: rest ->
  run (fsk k) (create_missing has p l c) s = told_of has p e s.
Proof.
  intros k root has p c rest top pre x s e l Hx Hr He Hf ->. destruct (rung_walk k root s true _ _ Hr ltac:(destruct pre; discriminate)) as [F1 F2].
  cbn [create_missing]. rewrite run_bind, run_status, F1, Hf. cbn [node_at stat_result fst snd].
  assert (Hm : file_type_eqb (st_type (missing_status e)) ft_not_found = true) by (destruct He as [-> | ->]; reflexivity).
  assert (Hee : errno_eqb e EEXIST = false) by (destruct He as [-> | ->]; reflexivity).
  assert (Hen : (errno_eqb e ENOENT || errno_eqb e ENOTDIR) = true) by (destruct He as [-> | ->]; reflexivity).
  rewrite Hm. rewrite run_bind, run_bind. unfold create_directory_impl. rewrite run_sys. cbn [fsk fst snd]. unfold sys_mkdir.
  rewrite F2, Hf. cbn [fst snd]. rewrite Hee. cbn [report run snd failed]. rewrite run_bind, run_bind.
  unfold is_directory, is_type, status_impl, GetFileStatus. cbn [pbind]. rewrite run_sys. cbn [fsk fst snd].
  rewrite sys_stat_node, F1, Hf. cbn [node_at]. unfold CreateFileStatus. rewrite Hen. cbn.
  unfold report, told_of. destruct has; reflexivity.
Qed.

(** An empty path is refused, on every system, and the system is not asked anything. *)
Theorem C26_empty : forall cf n has S (h : kernel S) s,
  run h (create_directories_impl cf n has (topath [])) s = told_of has (topath []) EINVAL s.
Proof. intros. unfold create_directories_impl. change (empty (topath [])) with true. cbn iota. unfold report, told_of. destruct has; reflexivity. Qed.

(** If some prefix of the path, not the whole path, leads to a file, create_directories tells ENOTDIR. If some prefix names a symlink
    that leads nowhere, it tells ENOENT. In both cases nothing has changed. *)
Theorem C26_blocked : forall cf k s n has t i, wf s -> t <> [] -> ends_slash t = false ->
  Forall (fun x => is_dots x = false) (names t) -> (el_parent (cf_el cf) = true -> few_slashes t) -> length (names t) < n ->
  0 < i < length (names t) ->
  (forall q j, leads_to k s (prefix_text t i) q (NLeaf j) ->
     run (fsk k) (create_directories_impl cf n has (topath t)) s = told_of has (topath t) ENOTDIR s) /\
  (forall q j, names_entry k s (prefix_text t i) q (NLeaf j) -> node_at s (find_at k s true (prefix_text t i)) = Err ENOENT ->
     run (fsk k) (create_directories_impl cf n has (topath t)) s = told_of has (topath t) ENOENT s).
Proof.
  intros cf k s n has t i Hw Hne He Hd HE Hn Hi. destruct (create_loop cf n t Hne He Hd HE Hn) as (Hnn & l & Hl & Hrun). rewrite Hrun.
  assert (Hsplit : exists d y rest, names t = d ++ y :: rest /\ length d = i).
  { destruct (nth_split (names t) (n := i) [] ltac:(lia)) as (d & rest & H1 & H2). eauto. }
  destruct Hsplit as (d & y & rest & Ht & Hlen).
  assert (Hf : firstn i (names t) = d). { rewrite Ht, <- Hlen, firstn_app, firstn_all, Nat.sub_diag, app_nil_r. reflexivity. }
  split.
  - intros q j (lk & F & L). rewrite prefix_walk, Hf in F by lia. rewrite Ht in Hd, Hl. apply Forall_app in Hd as [Hd1 Hd2]. inversion Hd2 as [|? ? Hy _]; subst.
    destruct (run_skip k (root_text t) has (topath t) d (y :: rest) [] false l s Hl) as (l' & Hl' & ->).
    { intros m Hm0. cbn [app]. destruct (Nat.eq_dec m (length d)) as [->|Hmn]; [rewrite firstn_all; eauto|].
      destruct (walk_prefixes k (root_text t) s true d lk q Hd1 F m ltac:(lia)) as (lk' & q2 & d2 & W' & L'). eauto. }
    destruct l' as [|top l']; [destruct Hl'|]. destruct Hl' as [Hr _]. cbn [app] in Hr.
    eapply (run_stopped k (root_text t) has (topath t) false l' top d y s ENOTDIR); eauto.
    intros last. rewrite walk_snoc, F by auto. unfold is_dots in Hy. apply orb_false_iff in Hy as [D1 D2].
    rewrite steps_cons, D1, D2, L. reflexivity.
  - intros q j (lk & F & L) Hna. rewrite prefix_entry, Hf in F by lia. rewrite prefix_walk, Hf in Hna by lia.
    destruct (snoc_cases d) as [E|[d0 [x E]]]; [subst; cbn in Hi; lia|].
    rewrite Ht in Hd, Hl. apply Forall_app in Hd as [Hd1 Hd2]. inversion Hd2 as [|? ? Hy _]; subst.
    apply Forall_app in Hd1 as [Hd0 Hx]. inversion Hx as [|? ? Hx' _]; subst.
    destruct (walk_up k (root_text t) s false d0 x lk q Hx' F) as (l1 & q' & d' & z & W & Ld & _).
    rewrite <- app_assoc in Hl.
    destruct (run_skip k (root_text t) has (topath t) d0 ([x] ++ y :: rest) [] false l s Hl) as (l' & Hl' & ->).
    { intros m Hm0. cbn [app]. destruct (Nat.eq_dec m (length d0)) as [->|Hmn]; [rewrite firstn_all; eauto|].
      destruct (walk_prefixes k (root_text t) s true d0 l1 q' Hd0 W m ltac:(lia)) as (lk' & q2 & d2 & W' & L'). eauto. }
    destruct l' as [|top l']; [destruct Hl'|]. cbn [app rungs] in Hl'. destruct Hl' as [Hr Hl'].
    destruct l' as [|top2 l']; [destruct Hl'|]. destruct Hl' as [Hr2 _].
    destruct (rung_walk k (root_text t) s true _ _ Hr ltac:(destruct d0; discriminate)) as [F1 F2].
    cbn [create_missing]. rewrite run_bind, run_status. rewrite F1, Hna. cbn [stat_result fst snd].
    change (file_type_eqb (st_type (missing_status ENOENT)) ft_not_found) with true. cbn iota. rewrite run_bind, run_bind.
    rewrite (C25_existing_file_refuted k s true top q (NLeaf j) ltac:(exists lk; rewrite F2; auto)). cbn [run snd failed].
    rewrite run_bind. cbn [run].
    apply (run_stopped k (root_text t) has (topath t) true l' top2 (d0 ++ [x]) y s ENOENT (top2 :: l')); auto.
    intros last. rewrite walk_snoc by auto. destruct (walk k (root_text t) s true (d0 ++ [x])) as [l2 q2|? ?|e2] eqn:E2; [|reflexivity|cbn in Hna; congruence].
    cbn [node_at] in Hna. unfold is_dots in Hy. apply orb_false_iff in Hy as [D1 D2]. rewrite steps_cons, D1, D2.
    destruct (look (f_root s) q2); [discriminate|reflexivity].
Qed.
Example C26_blocked_example : wf demo_dangling /\ few_slashes (lit "/a/f/x/y") /\
  leads_to demo_choices demo_dangling (prefix_text (lit "/a/f/x/y") 2) [lit "a"; lit "f"] (NLeaf 3) /\
  names_entry demo_choices demo_dangling (prefix_text (lit "/a/l/x") 2) [lit "a"; lit "l"] (NLeaf 4) /\
  node_at demo_dangling (find_at demo_choices demo_dangling true (prefix_text (lit "/a/l/x") 2)) = Err ENOENT.
Proof.
  split; [eapply wf_unchanged; [apply demo_wf|reflexivity|reflexivity]|]. split; [left; vm_compute; lia|].
  split; [exists 40; split; vm_compute; reflexivity|]. split; [eexists; split; vm_compute; reflexivity|]. vm_compute. reflexivity.
Qed.
Print Assumptions C26_empty.
Print Assumptions C26_blocked.
