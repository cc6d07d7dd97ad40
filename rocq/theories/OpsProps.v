(** Properties of the operations that hold for every kernel: C22, C23, C24, C42, C43, C46. A kernel is any
    state machine answering system calls; it may fail any call in any way and change
    its answers from call to call, so it includes every file system and every interference by
    other processes. *)
From Coq Require Import Ascii String Bool Arith NArith ZArith Lia List.
From Verif Require Import Str PathModel PathSpec StrProofs PathProofs PathOps PathMisc FlagsModel TimeModel ArithProps Prog DirModel OpsModel OpsProofs.
Import ListNotations.

(** A kernel for the examples: stat, lstat, getcwd and realpath as given, getenv empty, every other call fails
    with [e]. *)
Definition sample (st lst : str -> res stat_t) (cwd : res str) (rp : str -> res str) (e : errno) : kernel unit :=
  fun c s =>
    (match c return answer c with
     | c_stat p => st p
     | c_lstat p => lst p
     | c_open _ _ _ => Err e | c_opendir _ => Err e
     | c_close _ => tt | c_closedir _ => tt
     | c_mkdir _ _ => Err e | c_symlink _ _ => Err e | c_link _ _ => Err e | c_remove _ => Err e | c_rename _ _ => Err e
     | c_truncate _ _ => Err e | c_ftruncate _ _ => Err e | c_fchmod _ _ => Err e | c_fchmodat _ _ _ => Err e
     | c_utimensat _ _ => Err e | c_chdir _ => Err e
     | c_readlink _ _ => Err e
     | c_getcwd _ => cwd
     | c_realpath p => rp p
     | c_statvfs _ => Err e
     | c_pathconf => 4096%Z
     | c_getenv _ => None
     | c_sendfile _ _ _ => Err e | c_write _ _ => Err e
     | c_read _ _ => Err e
     | c_readdir _ => Err e
     end, s).
Definition failing (e : errno) : kernel unit := sample (fun _ => Err e) (fun _ => Err e) (Err e) (fun _ => Err e) e.
Definition plain_config : config := Config (Elision true true true) true Strict true.

(** * C22 the two overloads *)

(** [p] is the overload with an error_code, [p'] the throwing one, started in the same state of the same kernel.
    If the first leaves the code clear, the second returns the same value; if the first sets it, it
    returns the error value [bad] and the second throws filesystem_error with the same
    code; the kernel ends in the same state, so the calls were the same. The first throws no filesystem_error. *)
Definition overloads_agree {A} (bad : A -> Prop) (p p' : prog (A * ecode)) : Prop :=
  forall S (h : kernel S) s,
  match run h p s with
  | Done (v, None) s' => run h p' s = Done (v, None) s'
  | Done (v, Some e) s' => bad v /\ exists paths, run h p' s = Failed (FThrow (Some e) paths) s'
  | Failed f s' => (forall e paths, f <> FThrow e paths) /\ run h p' s = Failed f s'
  end.

(** The same for kernels on which getcwd always succeeds, or on which stat fails only because the file or a
    directory of its path does not exist. *)
Definition overloads_agree_if {A} (K : forall S, kernel S -> Prop) (bad : A -> Prop) (p p' : prog (A * ecode)) : Prop :=
  forall S (h : kernel S) s, K S h ->
  match run h p s with
  | Done (v, None) s' => run h p' s = Done (v, None) s'
  | Done (v, Some e) s' => bad v /\ exists paths, run h p' s = Failed (FThrow (Some e) paths) s'
  | Failed f s' => (forall e paths, f <> FThrow e paths) /\ run h p' s = Failed f s'
  end.
Definition getcwd_succeeds S (h : kernel S) : Prop := forall n s, exists t, fst (h (c_getcwd n) s) = Val t.
Definition stat_only_missing S (h : kernel S) : Prop :=
  forall p s e, fst (h (c_stat p) s) = Err e -> e = ENOENT \/ e = ENOTDIR.

Lemma agree_all : forall A (bad : A -> Prop) p p', (forall ok, agree ok bad p p') -> overloads_agree bad p p'.
Proof. intros A bad p p' H S h s. apply (agree_run _ all_ok bad p p'); [apply H|exact (fun _ _ => I)]. Qed.
Lemma agree_cwd : forall A (bad : A -> Prop) p p', agree cwd_ok bad p p' -> overloads_agree_if getcwd_succeeds bad p p'.
Proof.
  intros A bad p p' H S h s K. apply (agree_run _ cwd_ok bad p p'); auto.
  intros c s0. destruct c; cbn; auto. apply K.
Qed.
Lemma agree_stat : forall A (bad : A -> Prop) p p', agree stat_ok bad p p' -> overloads_agree_if stat_only_missing bad p p'.
Proof.
  intros A bad p p' H S h s K. apply (agree_run _ stat_ok bad p p'); auto.
  intros c s0. destruct c; cbn; auto. intros e He. eapply K; eauto.
Qed.

Definition anything {A} (_ : A) : Prop := True.
(** An iterator equal to the end iterator. *)
Definition ended (it : rdir_iter) : Prop := r_impl it = None.

Theorem C22_overloads_agree_partial : forall (cf : config) (n : nat) (p q : path),
  overloads_agree (eq false) (create_directory_impl true p) (create_directory_impl false p) /\
  overloads_agree (eq false) (create_directory_like_impl true p q) (create_directory_like_impl false p q) /\
  overloads_agree anything (create_directory_symlink_impl true p q) (create_directory_symlink_impl false p q) /\
  overloads_agree anything (create_symlink_impl true p q) (create_symlink_impl false p q) /\
  overloads_agree anything (create_hard_link_impl true p q) (create_hard_link_impl false p q) /\
  overloads_agree (eq path_default) (current_path_impl cf true) (current_path_impl cf false) /\
  overloads_agree anything (set_current_path_impl true p) (set_current_path_impl false p) /\
  overloads_agree (eq path_default) (absolute_impl cf true p) (absolute_impl cf false p) /\
  overloads_agree (eq false) (equivalent_impl true p q) (equivalent_impl false p q) /\
  overloads_agree (eq (2 ^ 64 - 1)%Z) (file_size_impl true p) (file_size_impl false p) /\
  overloads_agree (eq (2 ^ 64 - 1)%Z) (hard_link_count_impl true p) (hard_link_count_impl false p) /\
  overloads_agree (eq false) (exists_ true p) (exists_ false p) /\
  overloads_agree (eq false) (is_empty_impl cf n true p) (is_empty_impl cf n false p) /\
  overloads_agree (eq (- 2 ^ 63)%Z) (last_write_time_impl cf true p) (last_write_time_impl cf false p) /\
  (forall t, overloads_agree anything (set_last_write_time_impl cf true p t) (set_last_write_time_impl cf false p t)) /\
  (forall a b, overloads_agree anything (permissions_impl cf true p a b) (permissions_impl cf false p a b)) /\
  overloads_agree (eq path_default) (read_symlink_impl cf true p) (read_symlink_impl cf false p) /\
  overloads_agree anything (copy_symlink_impl cf true p q) (copy_symlink_impl cf false p q) /\
  (forall o, overloads_agree (eq false) (copy_file_impl cf n true p q o) (copy_file_impl cf n false p q o)) /\
  (forall o, overloads_agree anything (copy_impl cf n true p q o) (copy_impl cf n false p q o)) /\
  overloads_agree (eq false) (remove_impl true p) (remove_impl false p) /\
  overloads_agree (eq (2 ^ 64 - 1)%Z) (remove_all_impl cf n true p) (remove_all_impl cf n false p) /\
  overloads_agree anything (rename_impl true p q) (rename_impl false p q) /\
  (forall z, overloads_agree anything (resize_file_impl true p z) (resize_file_impl false p z)) /\
  overloads_agree (eq (Space (2 ^ 64 - 1) (2 ^ 64 - 1) (2 ^ 64 - 1))) (space_impl true p) (space_impl false p) /\
  overloads_agree (eq path_default) (temp_directory_path_impl cf true) (temp_directory_path_impl cf false) /\
  (forall o, overloads_agree (eq None) (dir_iter_ctor cf n true p o) (dir_iter_ctor cf n false p o)) /\
  (forall it, overloads_agree (eq None) (dir_iter_increment cf n true it) (dir_iter_increment cf n false it)) /\
  (forall o, overloads_agree ended (rdir_ctor cf n true p o) (rdir_ctor cf n false p o)) /\
  (forall it, overloads_agree ended (rdir_increment cf n true it) (rdir_increment cf n false it)) /\
  (forall it, overloads_agree ended (rdir_pop cf n true it) (rdir_pop cf n false it)).
Proof.
  intros cf n p q. repeat match goal with |- _ /\ _ => split end; intros; apply agree_all; intros ok.
  - apply agree_create_directory.
  - apply agree_create_directory_like.
  - apply agree_create_directory_symlink.
  - apply agree_create_symlink.
  - apply agree_create_hard_link.
  - apply agree_current_path.
  - apply agree_set_current_path.
  - apply agree_absolute.
  - apply agree_equivalent.
  - apply agree_file_size.
  - apply agree_hard_link_count.
  - apply agree_exists.
  - apply agree_is_empty.
  - apply agree_last_write_time.
  - apply agree_set_last_write_time.
  - apply agree_permissions.
  - apply agree_read_symlink.
  - apply agree_copy_symlink.
  - apply agree_copy_file.
  - apply agree_copy.
  - apply agree_remove.
  - apply agree_remove_all.
  - apply agree_rename.
  - apply agree_resize_file.
  - apply agree_space.
  - apply agree_temp_directory_path.
  - apply agree_iter_ctor.
  - apply agree_iter_increment.
  - apply agree_rdir_ctor.
  - apply agree_rdir_increment.
  - apply agree_rdir_pop.
Qed.

(** Both behaviours occur. *)
Example C22_example_error :
  run (failing EACCES) (create_directory_impl true (topath (lit "/a"))) tt = Done (false, Some EACCES) tt /\
  run (failing EACCES) (create_directory_impl false (topath (lit "/a"))) tt
    = Failed (FThrow (Some EACCES) [topath (lit "/a")]) tt.
Proof. split; reflexivity. Qed.
Example C22_example_success :
  run (failing ENOENT) (remove_all_impl plain_config 5 true (topath (lit "/a"))) tt = Done (0%Z, None) tt /\
  run (failing ENOENT) (remove_all_impl plain_config 5 false (topath (lit "/a"))) tt = Done (0%Z, None) tt.
Proof. split; reflexivity. Qed.

Theorem C22_getcwd_succeeds_partial : forall (cf : config) (p base : path),
  overloads_agree_if getcwd_succeeds (eq path_default) (canonical_impl cf true p) (canonical_impl cf false p) /\
  overloads_agree_if getcwd_succeeds (eq path_default) (weakly_canonical_impl cf true p) (weakly_canonical_impl cf false p) /\
  overloads_agree_if getcwd_succeeds (eq path_default) (relative_impl cf true p base) (relative_impl cf false p base) /\
  overloads_agree_if getcwd_succeeds (eq path_default) (proximate_impl cf true p base) (proximate_impl cf false p base) /\
  overloads_agree_if getcwd_succeeds (eq path_default) (relative_cwd_impl cf true p) (relative_cwd_impl cf false p) /\
  overloads_agree_if getcwd_succeeds (eq path_default) (proximate_cwd_impl cf true p) (proximate_cwd_impl cf false p).
Proof.
  intros cf p base. repeat match goal with |- _ /\ _ => split end; apply agree_cwd.
  - apply agree_canonical.
  - apply agree_weakly_canonical.
  - apply agree_relative_with.
  - apply agree_relative_with.
  - apply agree_relative_cwd_with.
  - apply agree_relative_cwd_with.
Qed.
Example C22_getcwd_example :
  let h := sample (fun _ => Err ENOENT) (fun _ => Err ENOENT) (Val (lit "/home")) (fun _ => Err EACCES) EPERM in
  getcwd_succeeds unit h /\
  run h (canonical_impl plain_config true (topath (lit "a"))) tt = Done (path_default, Some EACCES) tt.
Proof. split; [intros n s; exists (lit "/home"); reflexivity|vm_compute; reflexivity]. Qed.

Theorem C22_create_directories_partial : forall (cf : config) (n : nat) (p : path),
  overloads_agree_if stat_only_missing (eq false) (create_directories_impl cf n true p) (create_directories_impl cf n false p).
Proof. intros. apply agree_stat, agree_create_directories. Qed.
Example C22_create_directories_example :
  stat_only_missing unit (failing ENOENT) /\
  run (failing ENOENT) (create_directories_impl plain_config 9 true (topath (lit "/a/b"))) tt = Done (false, Some ENOENT) tt.
Proof. split; [intros p s e H; injection H as <-; auto|vm_compute; reflexivity]. Qed.

(** status, symlink_status and the is_ functions: the overload with a code never throws and returns what the
    other returns; the other throws exactly when the status is file_type::none. *)
Definition status_overloads_agree {A} (unknown : A -> Prop) (p p' : prog (A * ecode)) : Prop :=
  forall S (h : kernel S) s, exists v e s', run h p s = Done (v, e) s' /\
  (   (run h p' s = Done (v, None) s' /\ (e = None \/ e = Some ENOENT \/ e = Some ENOTDIR))
   \/ (exists paths, run h p' s = Failed (FThrow e paths) s' /\ e <> None /\ e <> Some ENOENT /\ e <> Some ENOTDIR /\ unknown v)).

Lemma errno_eqb_eq : forall a b, errno_eqb a b = true <-> a = b.
Proof. intros. unfold errno_eqb. destruct (errno_eq_dec a b); split; congruence. Qed.

Lemma status_agree : forall A (unknown : A -> Prop) c (mk : file_status -> A) p,
  unknown (mk (status_of_type ft_none)) -> (c = c_stat (native p) \/ c = c_lstat (native p)) ->
  status_overloads_agree unknown
    (let! r := (if match c with c_stat _ => true | _ => false end then status_impl true p else symlink_status_impl true p) in Ret (mk (fst r), snd r))
    (let! r := (if match c with c_stat _ => true | _ => false end then status_impl false p else symlink_status_impl false p) in Ret (mk (fst r), snd r)).
Proof.
  intros A unk c mk p Hu Hc S h s. destruct Hc as [-> | ->]; cbn;
    (match goal with |- context [h ?c s] => destruct (h c s) as [r s1] eqn:Hh end);
    (destruct r as [e|st]; cbn;
     [destruct (errno_eqb e ENOENT || errno_eqb e ENOTDIR) eqn:He; cbn;
      [exists (mk (status_of_type ft_not_found)), (Some e), s1; split; auto; left; split; auto;
       apply orb_true_iff in He; destruct He as [He|He]; apply errno_eqb_eq in He; subst; auto
      |exists (mk (status_of_type ft_none)), (Some e), s1; split; auto; right; exists [p]; repeat split; auto; try discriminate;
       intros [= ->]; discriminate]
     |eexists _, None, s1; split; [reflexivity|left; auto]]).
Qed.

Theorem C22_status_partial : forall p,
  status_overloads_agree (fun v => st_type v = ft_none) (status_impl true p) (status_impl false p) /\
  status_overloads_agree (fun v => st_type v = ft_none) (symlink_status_impl true p) (symlink_status_impl false p) /\
  status_overloads_agree (eq false) (is_block_file true p) (is_block_file false p) /\
  status_overloads_agree (eq false) (is_character_file true p) (is_character_file false p) /\
  status_overloads_agree (eq false) (is_directory true p) (is_directory false p) /\
  status_overloads_agree (eq false) (is_fifo true p) (is_fifo false p) /\
  status_overloads_agree (eq false) (is_regular_file true p) (is_regular_file false p) /\
  status_overloads_agree (eq false) (is_socket true p) (is_socket false p) /\
  status_overloads_agree (eq false) (is_symlink true p) (is_symlink false p) /\
  status_overloads_agree (eq false) (is_other true p) (is_other false p).
Proof.
  intros p.
  assert (Hx : forall A (unk : A -> Prop) (a b a' b' : prog (A * ecode)),
    (forall S (h : kernel S) s, run h a s = run h a' s) -> (forall S (h : kernel S) s, run h b s = run h b' s) ->
    status_overloads_agree unk a' b' -> status_overloads_agree unk a b).
  { intros A unk a b a' b' Ha Hb H S h s. rewrite Ha, Hb. apply H. }
  repeat match goal with |- _ /\ _ => split end.
  1: eapply Hx; [| |apply (status_agree _ _ (c_stat (native p)) (fun x => x) p); auto].
  3: eapply Hx; [| |apply (status_agree _ _ (c_lstat (native p)) (fun x => x) p); auto].
  1-4: intros S h s; cbn; match goal with |- context [h ?c s] => destruct (h c s) as [r s1] end;
       destruct r as [e|st]; cbn; try reflexivity; destruct (errno_eqb e ENOENT || errno_eqb e ENOTDIR); reflexivity.
  - apply (status_agree _ _ (c_stat (native p)) st_is_block_file p); auto.
  - apply (status_agree _ _ (c_stat (native p)) st_is_character_file p); auto.
  - apply (status_agree _ _ (c_stat (native p)) st_is_directory p); auto.
  - apply (status_agree _ _ (c_stat (native p)) st_is_fifo p); auto.
  - apply (status_agree _ _ (c_stat (native p)) st_is_regular_file p); auto.
  - apply (status_agree _ _ (c_stat (native p)) st_is_socket p); auto.
  - apply (status_agree _ _ (c_lstat (native p)) st_is_symlink p); auto.
  - apply (status_agree _ _ (c_stat (native p)) st_is_other p); auto.
Qed.
Example C22_status_example :
  run (failing EACCES) (is_directory true (topath (lit "x"))) tt = Done (false, Some EACCES) tt /\
  run (failing EACCES) (is_directory false (topath (lit "x"))) tt = Failed (FThrow (Some EACCES) [topath (lit "x")]) tt.
Proof. split; reflexivity. Qed.

(** The code is set although the other overload does not throw: for every path that is missing, on any system. *)
Theorem C22_status_missing_refuted : forall S (h : kernel S) s p e s', (e = ENOENT \/ e = ENOTDIR) -> h (c_stat (native p)) s = (Err e, s') ->
  run h (is_directory true p) s = Done (false, Some e) s' /\ run h (is_directory false p) s = Done (false, None) s' /\
  run h (is_regular_file true p) s = Done (false, Some e) s' /\ run h (is_regular_file false p) s = Done (false, None) s' /\
  (exists x, run h (status_impl true p) s = Done (x, Some e) s' /\ run h (status_impl false p) s = Done (x, None) s').
Proof. intros S h s p e s' He H. cbn. rewrite H. destruct He; subst e; cbn; repeat split; eexists; split; reflexivity. Qed.
Example C22_status_missing_example :
  run (failing ENOENT) (is_directory true (topath (lit "x"))) tt = Done (false, Some ENOENT) tt /\
  run (failing ENOENT) (is_directory false (topath (lit "x"))) tt = Done (false, None) tt.
Proof. split; reflexivity. Qed.

(** The error of getcwd is replaced by that of realpath("") in one overload only: for every relative path, whatever the two errors are. *)
Theorem C22_canonical_code_refuted : forall cf S (h : kernel S) s p e1 e2 z s1 s2 s3, is_absolute Posix (cf_el cf) p = false ->
  h c_pathconf s = (z, s1) -> (0 < z)%Z -> h (c_getcwd z) s1 = (Err e1, s2) -> h (c_realpath []) s2 = (Err e2, s3) ->
  run h (canonical_impl cf true p) s = Done (path_default, Some e2) s3 /\
  exists paths, run h (canonical_impl cf false p) s = Failed (FThrow (Some e1) paths) s2.
Proof.
  intros cf S h s p e1 e2 z s1 s2 s3 Ha H1 Hz H2 H3. unfold canonical_impl, do_absolute_impl. rewrite Ha. cbn. rewrite H1.
  unfold asap_assert. apply Z.ltb_lt in Hz. rewrite Hz. assert (Hz' : (z <? 0)%Z = false) by (apply Z.ltb_ge; apply Z.ltb_lt in Hz; lia).
  rewrite Hz'. replace (negb true) with false by reflexivity. rewrite ?andb_false_r. cbn. rewrite H2. cbn. rewrite H3. split; [reflexivity|]. eexists. reflexivity.
Qed.
Example C22_canonical_code_example :
  let h := sample (fun _ => Err ENOENT) (fun _ => Err ENOENT) (Err EACCES) (fun _ => Err ENOENT) EPERM in
  run h (canonical_impl plain_config true (topath (lit "a"))) tt = Done (path_default, Some ENOENT) tt /\
  exists paths, run h (canonical_impl plain_config false (topath (lit "a"))) tt = Failed (FThrow (Some EACCES) paths) tt.
Proof. split; [|eexists]; vm_compute; reflexivity. Qed.

(** relative(p, ec) and proximate(p, ec) throw whenever the current directory cannot be found, for every path, absolute ones included. *)
Theorem C22_relative_throws_refuted : forall cf S (h : kernel S) s p e z s1 s2,
  h c_pathconf s = (z, s1) -> (0 < z)%Z -> h (c_getcwd z) s1 = (Err e, s2) ->
  run h (relative_cwd_impl cf true p) s = Failed (FThrow (Some e) []) s2 /\
  run h (proximate_cwd_impl cf true p) s = Failed (FThrow (Some e) []) s2.
Proof.
  intros cf S h s p e z s1 s2 H1 Hz H2. unfold relative_cwd_impl, proximate_cwd_impl, current_path_impl. cbn. rewrite H1.
  unfold asap_assert. apply Z.ltb_lt in Hz. rewrite Hz. assert (Hz' : (z <? 0)%Z = false) by (apply Z.ltb_ge; apply Z.ltb_lt in Hz; lia).
  rewrite Hz'. replace (negb true) with false by reflexivity. rewrite ?andb_false_r. cbn. rewrite H2. split; reflexivity.
Qed.
Example C22_relative_throws_example :
  let h := sample (fun _ => Val (Stat 1 2 16877 2 10 (TimeSpec 0 0) (TimeSpec 0 0))) (fun _ => Err ENOENT) (Err EACCES) (fun p => Val p) EPERM in
  run h (relative_cwd_impl plain_config true (topath (lit "/a"))) tt = Failed (FThrow (Some EACCES) []) tt.
Proof. vm_compute. reflexivity. Qed.

(** * C23 status *)

(** File types by the format bits of st_mode (POSIX sys/stat.h): bits 12 to 15. *)
Definition format_type (mode : N) : file_type :=
  match ((mode / 4096) mod 16)%N with
  | 1%N => ft_fifo | 2%N => ft_character | 4%N => ft_directory | 6%N => ft_block
  | 8%N => ft_regular | 10%N => ft_symlink | 12%N => ft_socket | _ => ft_unknown
  end.

Lemma land_fmt : forall mode, N.land mode s_ifmt = (((mode / 4096) mod 16) * 4096)%N.
Proof.
  intros. apply N.bits_inj. intros i. rewrite N.land_spec.
  change 4096%N with (2 ^ 12)%N. rewrite <- N.shiftl_mul_pow2. change 16%N with (2 ^ 4)%N.
  destruct (N.lt_ge_cases i 12).
  - rewrite N.shiftl_spec_low by auto.
    assert (Hm : N.testbit s_ifmt i = false).
    { assert (Hi : (i = 0 \/ i = 1 \/ i = 2 \/ i = 3 \/ i = 4 \/ i = 5 \/ i = 6 \/ i = 7 \/ i = 8 \/ i = 9 \/ i = 10 \/ i = 11)%N) by lia.
      repeat (destruct Hi as [->|Hi]; [reflexivity|]). subst; reflexivity. }
    rewrite Hm. apply andb_false_r.
  - rewrite N.shiftl_spec_high' by auto. destruct (N.lt_ge_cases (i - 12) 4).
    + rewrite N.mod_pow2_bits_low by auto. rewrite N.div_pow2_bits. replace (i - 12 + 12)%N with i by lia.
      assert (Hm : N.testbit s_ifmt i = true).
      { assert (Hi : (i = 12 \/ i = 13 \/ i = 14 \/ i = 15)%N) by lia.
        repeat (destruct Hi as [->|Hi]; [reflexivity|]). subst; reflexivity. }
      rewrite Hm. apply andb_true_r.
    + rewrite N.mod_pow2_bits_high by auto.
      assert (Hm : N.testbit s_ifmt i = false).
      { apply N.bits_above_log2. change (N.log2 s_ifmt) with 15%N. lia. }
      rewrite Hm. apply andb_false_r.
Qed.

Lemma type_of_mode_format : forall mode, type_of_mode mode = format_type mode.
Proof.
  intros mode. unfold type_of_mode, is_fmt, format_type. rewrite land_fmt.
  assert (Hx : ((mode / 4096) mod 16 < 16)%N) by (apply N.mod_lt; discriminate).
  generalize dependent ((mode / 4096) mod 16)%N. intros x Hx.
  assert (Hi : (x = 0 \/ x = 1 \/ x = 2 \/ x = 3 \/ x = 4 \/ x = 5 \/ x = 6 \/ x = 7 \/ x = 8 \/ x = 9 \/ x = 10 \/ x = 11 \/ x = 12 \/ x = 13 \/ x = 14 \/ x = 15)%N) by lia.
  repeat (destruct Hi as [->|Hi]; [reflexivity|]). subst; reflexivity.
Qed.

Lemma perm_bits : forall mode, op_and width_perms mode perms_mask = (mode mod 4096)%N.
Proof.
  intros. unfold op_and, trunc. change perms_mask with (N.ones 12). rewrite N.land_ones.
  change (2 ^ 12)%N with 4096%N. apply N.mod_small.
  assert (mode mod 4096 < 4096)%N by (apply N.mod_lt; discriminate).
  eapply N.lt_trans; [eassumption|reflexivity].
Qed.

(** What a stat call of the system says about a path, as the standard's file_status. *)
Definition status_of_answer (r : res stat_t) : file_status * ecode :=
  match r with
  | Val st => (FStatus (format_type (st_mode st)) (st_mode st mod 4096)%N, None)
  | Err ENOENT => (FStatus ft_not_found perms_unknown, Some ENOENT)
  | Err ENOTDIR => (FStatus ft_not_found perms_unknown, Some ENOTDIR)
  | Err e => (FStatus ft_none perms_unknown, Some e)
  end.

(** status asks stat, which follows symlinks, and symlink_status asks lstat, which does not. exists(p) is true
    exactly when the answer has a type other than none and not_found. *)
Theorem C23_status : forall S (h : kernel S) s p,
  (let '(r, s') := h (c_stat (native p)) s in
   run h (status_impl true p) s = Done (status_of_answer r) s' /\
   run h (exists_ true p) s
     = Done (match r with Val _ => true | Err _ => false end,
             match r with Val _ | Err ENOENT | Err ENOTDIR => None | Err e => Some e end) s') /\
  (let '(r, s') := h (c_lstat (native p)) s in
   run h (symlink_status_impl true p) s = Done (status_of_answer r) s').
Proof.
  assert (Hc : forall S (h : kernel S) s p r, run h (CreateFileStatus true p r) s = Done (status_of_answer r) s).
  { intros. destruct r as [e|st]; cbn; [destruct e; reflexivity|].
    rewrite type_of_mode_format, perm_bits. reflexivity. }
  assert (Hk : forall A B S (h : kernel S) (a : prog A) (f : A -> prog B) s x s1, run h a s = Done x s1 -> run h (pbind a f) s = run h (f x) s1).
  { intros A B S h a. induction a as [a|f|c k IH]; intros g s x s1 H; cbn in *; [injection H as <- <-; auto|discriminate|].
    destruct (h c s) as [r s2]. auto. }
  intros S h s p. split.
  - cbn. destruct (h (c_stat (native p)) s) as [r s'] eqn:Hr. split.
    + erewrite Hk; [|erewrite Hk; [|apply Hc]; reflexivity]. destruct (status_of_answer r); reflexivity.
    + erewrite Hk; [|erewrite Hk; [|erewrite Hk; [|apply Hc]; reflexivity]; reflexivity].
      destruct r as [e|st]; [destruct e; reflexivity|]. cbn. unfold status_known, st_exists. cbn [st_type].
      unfold format_type. destruct ((st_mode st / 4096) mod 16)%N as [|[[[[]|[]|]|[[]|[]|]|]|[[[]|[]|]|[[]|[]|]|]|]]; reflexivity.
  - cbn. destruct (h (c_lstat (native p)) s) as [r s'] eqn:Hr.
    erewrite Hk; [|erewrite Hk; [|apply Hc]; reflexivity]. destruct (status_of_answer r); reflexivity.
Qed.

Example C23_example :
  run (sample (fun _ => Val (Stat 1 2 33188 1 10 (TimeSpec 0 0) (TimeSpec 0 0))) (fun _ => Err ELOOP) (Val []) (fun _ => Err EPERM) EPERM)
    (status_impl true (topath (lit "/a"))) tt = Done (FStatus ft_regular 420, None) tt.
Proof. reflexivity. Qed.

(** * C24 type predicates *)

(** The predicates in the order regular, directory, symlink, block, character, fifo, socket, and the type
    'unknown'. *)
Definition answers_of (s : file_status) : list bool :=
  [st_is_regular_file s; st_is_directory s; st_is_symlink s; st_is_block_file s; st_is_character_file s;
   st_is_fifo s; st_is_socket s; file_type_eqb (st_type s) ft_unknown].

Theorem C24_partition : forall s : file_status,
  count_occ bool_dec (answers_of s) true = (if st_exists s then 1 else 0) /\
  (st_exists s = true <-> st_type s <> ft_none /\ st_type s <> ft_not_found) /\
  (status_known s = true <-> st_type s <> ft_none) /\
  (st_is_other s = true <->
     st_exists s = true /\ st_is_regular_file s = false /\ st_is_directory s = false /\ st_is_symlink s = false) /\
  (st_is_regular_file s = true <-> st_type s = ft_regular) /\ (st_is_directory s = true <-> st_type s = ft_directory) /\
  (st_is_symlink s = true <-> st_type s = ft_symlink) /\ (st_is_block_file s = true <-> st_type s = ft_block) /\
  (st_is_character_file s = true <-> st_type s = ft_character) /\ (st_is_fifo s = true <-> st_type s = ft_fifo) /\
  (st_is_socket s = true <-> st_type s = ft_socket).
Proof.
  intros [t m]. destruct t; vm_compute; repeat match goal with |- _ /\ _ => split end; auto;
    intros; repeat match goal with H : _ /\ _ |- _ => destruct H end; repeat split; try discriminate; try congruence; auto.
Qed.
Example C24_example : answers_of (FStatus ft_fifo 420) = [false; false; false; false; false; true; false; false]
  /\ st_is_other (FStatus ft_fifo 420) = true.
Proof. split; reflexivity. Qed.

(** * C42 space *)

(** On 64 bit values the products are exact or the maximum; the count 0 is excluded. *)
Definition product_or_max (blocks frsize : Z) : Z :=
  (if blocks * frsize <? 2 ^ 64 then blocks * frsize else 2 ^ 64 - 1)%Z.
Definition u64 (z : Z) : Prop := (0 <= z < 2 ^ 64)%Z.

Theorem C42_space_partial : forall S (h : kernel S) s p,
  match h (c_statvfs (native p)) s with
  | (Err e, s') =>
      run h (space_impl true p) s = Done (Space (2 ^ 64 - 1) (2 ^ 64 - 1) (2 ^ 64 - 1), Some e) s'
  | (Val v, s') =>
      u64 (f_frsize v) -> u64 (f_blocks v) -> u64 (f_bfree v) -> u64 (f_bavail v) ->
      exists x, run h (space_impl true p) s = Done (x, None) s' /\
        (f_blocks v <> 0%Z -> capacity x = product_or_max (f_blocks v) (f_frsize v)) /\
        (f_bfree v <> 0%Z -> free x = product_or_max (f_bfree v) (f_frsize v)) /\
        (f_bavail v <> 0%Z -> available x = product_or_max (f_bavail v) (f_frsize v))
  end.
Proof.
  intros S h s p. cbn. destruct (h (c_statvfs (native p)) s) as [[e|v] s'] eqn:Hr; [reflexivity|].
  intros Hf H1 H2 H3. eexists. split; [reflexivity|]. cbn [capacity free available].
  unfold u64 in *. rewrite !do_mult_spec by auto. unfold product_or_max, u64_max.
  repeat split; intros Hz; apply Z.eqb_neq in Hz; rewrite Hz; reflexivity.
Qed.
Example C42_example : do_mult 1000 4096 = 4096000%Z /\ do_mult (2 ^ 60) 4096 = (2 ^ 64 - 1)%Z.
Proof. split; reflexivity. Qed.

(** A full file system: no block is reported as the largest possible amount of space, in each of the three values, for any answer of the
    system and by both overloads. *)
Theorem C42_full_disk_refuted : forall S (h : kernel S) s p v s', h (c_statvfs (native p)) s = (Val v, s') ->
  exists x, (forall has, run h (space_impl has p) s = Done (x, None) s') /\
    (f_blocks v = 0%Z -> capacity x = (2 ^ 64 - 1)%Z) /\ (f_bfree v = 0%Z -> free x = (2 ^ 64 - 1)%Z) /\
    (f_bavail v = 0%Z -> available x = (2 ^ 64 - 1)%Z).
Proof.
  intros S h s p v s' H. eexists. split; [intros has; cbn; rewrite H; reflexivity|]. cbn [capacity free available].
  repeat split; intros ->; reflexivity.
Qed.
Example C42_full_disk_example : run (fun c s => match c return answer c * unit with
                           | c_statvfs _ => (Val (StatVfs 4096 1000 50 0), s)
                           | c' => failing EPERM c' s end) (space_impl true (topath (lit "/"))) tt
  = Done (Space 4096000 204800 (2 ^ 64 - 1), None) tt.
Proof. vm_compute. reflexivity. Qed.

(** * C43 temp_directory_path *)

(** The first of the variables that is set, /tmp if none is. *)
Definition temp_text (env : str -> option str) : str :=
  match env (lit "TMPDIR"), env (lit "TMP"), env (lit "TEMP"), env (lit "TEMPDIR") with
  | Some t, _, _, _ => t
  | None, Some t, _, _ => t
  | None, None, Some t, _ => t
  | None, None, None, Some t => t
  | None, None, None, None => lit "/tmp"
  end.

Theorem C43_temp_directory_path : forall (cf : config) S (h : kernel S) s env,
  (forall x s, h (c_getenv x) s = (env x, s)) ->
  let t := reported_text (temp_text env) in
  let '(r, s') := h (c_stat t) s in
  match r with
  | Val st =>
      if file_type_eqb (format_type (st_mode st)) ft_directory
      then exists p, run h (temp_directory_path_impl cf true) s = Done (p, None) s' /\ native p = t
      else run h (temp_directory_path_impl cf true) s = Done (path_default, Some ENOTDIR) s'
  | Err ENOENT | Err ENOTDIR => run h (temp_directory_path_impl cf true) s = Done (path_default, Some ENOTDIR) s'
  | Err e => run h (temp_directory_path_impl cf true) s = Done (path_default, Some e) s'
  end.
Proof.
  intros cf S h s env He t.
  assert (Hk : forall A B (a : prog A) (f : A -> prog B) s x s1, run h a s = Done x s1 -> run h (pbind a f) s = run h (f x) s1).
  { intros A B a. induction a as [a|f|c k IH]; intros g s0 x s1 H; cbn in *; [injection H as <- <-; auto|discriminate|].
    destruct (h c s0) as [r s2]. auto. }
  assert (Hf : exists v, run h (first_env env_paths) s = Done v s /\ (match v with Some x => x | None => lit "/tmp" end) = temp_text env).
  { unfold env_paths, temp_text. cbn [first_env run].
    repeat (rewrite He; match goal with |- context [match env ?x with _ => _ end] => destruct (env x) end; [cbn; eexists; split; reflexivity|]; cbn [run]).
    eexists. split; reflexivity. }
  destruct Hf as (v & Hv & Ht).
  unfold temp_directory_path_impl. rewrite (Hk _ _ _ _ _ _ _ Hv). rewrite Ht.
  assert (Hn : native (topath (temp_text env)) = t) by (unfold topath; apply native_mkpath).
  pose proof (C23_status S h s (topath (temp_text env))) as [Hs _]. rewrite Hn in Hs.
  destruct (h (c_stat t) s) as [r s'] eqn:Hr. destruct Hs as [Hs _].
  rewrite (Hk _ _ _ _ _ _ _ Hs).
  destruct r as [e|st]; [destruct e; reflexivity|].
  cbn [status_of_answer fst snd]. unfold status_known, st_exists, st_is_directory, has_type, status_known. cbn [st_type].
  destruct (format_type (st_mode st)) eqn:Hty; cbn; try reflexivity.
  - exfalso. unfold format_type in Hty. destruct ((st_mode st / 4096) mod 16)%N as [|[[[[]|[]|]|[[]|[]|]|]|[[[]|[]|]|[[]|[]|]|]|]]; discriminate.
  - eexists. split; [reflexivity|]. rewrite <- Hn. unfold topath. fold (mkpath (temp_text env)). rewrite fin_mkpath. reflexivity.
Qed.

Example C43_example :
  let env := fun x => if str_eqb x (lit "TEMP") then Some (lit "/var/tmp/") else None in
  let h := fun c s => match c return answer c * unit with
                      | c_getenv x => (env x, s)
                      | c_stat p => (if str_eqb p (lit "/var/tmp/") then Val (Stat 1 2 17407 2 10 (TimeSpec 0 0) (TimeSpec 0 0)) else Err ENOENT, s)
                      | c' => failing EPERM c' s end in
  (forall x s, h (c_getenv x) s = (env x, s)) /\ temp_text env = lit "/var/tmp/" /\
  (exists p, run h (temp_directory_path_impl plain_config true) tt = Done (p, None) tt /\ native p = lit "/var/tmp/").
Proof. split; [reflexivity|]. split; [reflexivity|]. eexists. split; vm_compute; reflexivity. Qed.

(** * C46 relative and proximate *)

(** One execution of the canonicalisation of [p], then one of [base], then the lexical operation on the two results. An error
    of either is the error of the whole, with an empty path. *)
Inductive relative_run {S} (h : kernel S) (canonical_of : path -> prog (path * ecode)) (rel : path -> path -> out path)
  (p base : path) (s : S) : path -> ecode -> S -> Prop :=
| rr_ok a b r s1 s2 :
    run h (canonical_of p) s = Done (a, None) s1 -> run h (canonical_of base) s1 = Done (b, None) s2 -> rel a b = Ok r ->
    relative_run h canonical_of rel p base s r None s2
| rr_first a e s1 :
    run h (canonical_of p) s = Done (a, Some e) s1 -> relative_run h canonical_of rel p base s path_default (Some e) s1
| rr_second a b e s1 s2 :
    run h (canonical_of p) s = Done (a, None) s1 -> run h (canonical_of base) s1 = Done (b, Some e) s2 ->
    relative_run h canonical_of rel p base s path_default (Some e) s2.

Lemma run_bind : forall A B S (h : kernel S) (a : prog A) (f : A -> prog B) s,
  run h (pbind a f) s = match run h a s with Done x s1 => run h (f x) s1 | Failed y s1 => Failed y s1 end.
Proof.
  intros A B S h a. induction a as [a|f|c k IH]; intros g s; cbn; auto. destruct (h c s) as [r s2]. auto.
Qed.

Lemma relative_with_run : forall cf rel S (h : kernel S) s p base r e s',
  run h (relative_with cf rel true p base) s = Done (r, e) s' <->
  relative_run h (weakly_canonical_impl cf true) rel p base s r e s'.
Proof.
  intros cf rel S h s p base r e s'. unfold relative_with. rewrite run_bind. split.
  - destruct (run h (weakly_canonical_impl cf true p) s) as [[a [ea|]] s1|] eqn:Ha; cbn [fst snd failed]; [| |discriminate].
    + cbn. intros [= <- <- <-]. eapply rr_first; eauto.
    + rewrite run_bind.
      destruct (run h (weakly_canonical_impl cf true base) s1) as [[b [eb|]] s2|] eqn:Hb; cbn [fst snd failed]; [| |discriminate].
      * cbn. intros [= <- <- <-]. eapply rr_second; eauto.
      * destruct (rel a b) eqn:Hr; cbn; try discriminate. intros [= <- <- <-]. eapply rr_ok; eauto.
  - intros H. destruct H as [a b r s1 s2 Ha Hb Hr|a e s1 Ha|a b e s1 s2 Ha Hb]; rewrite Ha; cbn [fst snd failed]; auto.
    + rewrite run_bind, Hb. cbn [fst snd failed]. rewrite Hr. reflexivity.
    + rewrite run_bind, Hb. reflexivity.
Qed.

(** The full property also asks that every failure of a canonicalisation is reported: see the refutation. *)
Theorem C46_relative_partial : forall cf S (h : kernel S) s p base r e s',
  (run h (relative_impl cf true p base) s = Done (r, e) s' <->
   relative_run h (weakly_canonical_impl cf true) (lexically_relative Posix (cf_el cf)) p base s r e s') /\
  (run h (proximate_impl cf true p base) s = Done (r, e) s' <->
   relative_run h (weakly_canonical_impl cf true) (lexically_proximate Posix (cf_el cf)) p base s r e s').
Proof. intros. split; apply relative_with_run. Qed.

Definition dir_stat : stat_t := Stat 1 2 16877 2 10 (TimeSpec 0 0) (TimeSpec 0 0).

Example C46_example :
  exists r, run (sample (fun p => Val dir_stat) (fun p => Val dir_stat) (Val (lit "/home")) (fun p => Val p) EPERM)
    (relative_impl plain_config true (topath (lit "/a/b")) (topath (lit "/a/c"))) tt = Done (r, None) tt /\ native r = lit "../b".
Proof. eexists. split; vm_compute; reflexivity. Qed.

Lemma existing_prefix_no_throw : forall cf S (h : kernel S) l result s c paths s',
  run h (existing_prefix cf l result) s <> Failed (FThrow c paths) s'.
Proof.
  intros cf S h. induction l as [|x l IH]; intros result s c paths s'; cbn [existing_prefix]; [discriminate|].
  rewrite run_bind. destruct (path_div Posix (cf_el cf) result x) as [q| | |]; cbn [lift run]; try discriminate.
  rewrite run_bind. cbn [status_impl]. 
  destruct (run h (status_impl true q) s) as [[st es] s1|f s1] eqn:Hs.
  - destruct (st_exists (fst (st, es))); [apply IH|discriminate].
  - exfalso. revert Hs. cbn. destruct (h (c_stat (native q)) s) as [[e|x0] s2]; cbn; [destruct (errno_eqb e ENOENT || errno_eqb e ENOTDIR)|]; discriminate.
Qed.
Lemma canonical_no_throw : forall cf S (h : kernel S) p s c paths s',
  run h (canonical_impl cf true p) s <> Failed (FThrow c paths) s'.
Proof.
  intros cf S h p s c paths s'. unfold canonical_impl, do_absolute_impl, current_path_impl, asap_assert.
  destruct (is_absolute Posix (cf_el cf) p); cbn.
  - destruct (h (c_realpath (native p)) s) as [[e|t] s1]; discriminate.
  - destruct (h c_pathconf s) as [z s1]. destruct (cf_dbg cf && negb (0 <? z)%Z); cbn; [discriminate|].
    destruct (z <? 0)%Z; cbn; [discriminate|]. destruct (h (c_getcwd z) s1) as [[e|t] s2]; cbn.
    + destruct (h (c_realpath []) s2) as [[e'|t] s3]; discriminate.
    + destruct (path_div Posix (cf_el cf) (topath t) p) as [q| | |]; cbn; try discriminate.
      destruct (h (c_realpath (native q)) s2) as [[e'|t'] s3]; discriminate.
Qed.

(** If p does not exist, weakly_canonical never reports an error, whatever goes wrong with the prefixes of p and in either
    overload, and relative never reports one of p. *)
Theorem C46_error_swallowed_refuted : forall cf S (h : kernel S) s has p e, native p <> [] ->
  fst (h (c_stat (native p)) s) = Err e -> (e = ENOENT \/ e = ENOTDIR) ->
  (forall r c s', run h (weakly_canonical_impl cf has p) s = Done (r, c) s' -> c = None) /\
  (forall c paths s', run h (weakly_canonical_impl cf has p) s <> Failed (FThrow c paths) s') /\
  (forall base r c s', run h (relative_impl cf has p base) s = Done (r, Some c) s' ->
     exists a s1, run h (weakly_canonical_impl cf has p) s = Done (a, None) s1 /\
       exists b, run h (weakly_canonical_impl cf has base) s1 = Done (b, Some c) s').
Proof.
  intros cf S h s has p e Hne Hs He.
  assert (Hsome : forall res, run h (weakly_canonical_impl cf has p) s = res ->
    match res with Done (_, c) _ => c = None | Failed (FThrow _ _) _ => False | _ => True end).
  { intros res <-. unfold weakly_canonical_impl.
    replace (empty p) with false by (unfold empty; unfold native in Hne; destruct (pathname p); [congruence|reflexivity]).
    destruct (h (c_stat (native p)) s) as [a s1] eqn:Hst. cbn in Hs. subst a.
    rewrite run_bind.
    assert (Hstat : run h (status_impl true p) s = Done (status_of_type ft_not_found, Some e) s1).
    { cbn. rewrite Hst. destruct He; subst e; reflexivity. }
    rewrite Hstat. cbn [fst snd status_known st_exists status_of_type st_type file_type_eqb negb].
    replace (status_known (status_of_type ft_not_found)) with true by reflexivity.
    replace (st_exists (status_of_type ft_not_found)) with false by reflexivity. cbn [negb].
    rewrite run_bind. destruct (run h (existing_prefix cf (elems p) path_default) s1) as [[[result rest] m_ec] s2|f s2] eqn:Hp.
    2:{ destruct f; auto. exfalso. eapply existing_prefix_no_throw; eauto. }
    rewrite run_bind.
    destruct (negb (failed m_ec) && negb (empty result)).
    - destruct (run h (canonical_impl cf true result) s2) as [[r1 e1] s3|f s3] eqn:Hc.
      2:{ destruct f; auto. exfalso. eapply canonical_no_throw; eauto. }
      destruct (failed e1); [reflexivity|]. rewrite run_bind. destruct (append_all Posix (cf_el cf) rest r1) as [x| | |]; cbn [lift run]; auto.
      rewrite run_bind. destruct (lexically_normal Posix (cf_el cf) x) as [y| | |]; cbn [lift run]; auto.
    - cbn [run]. destruct (failed m_ec); [reflexivity|]. rewrite run_bind. destruct (append_all Posix (cf_el cf) rest result) as [x| | |]; cbn [lift run]; auto.
      rewrite run_bind. destruct (lexically_normal Posix (cf_el cf) x) as [y| | |]; cbn [lift run]; auto. }
  split; [|split].
  - intros r c s' H. apply Hsome in H. exact H.
  - intros c paths s' H. apply Hsome in H. exact H.
  - intros base r c s' H. unfold relative_impl, relative_with in H. rewrite run_bind in H.
    destruct (run h (weakly_canonical_impl cf has p) s) as [[a ea] s1|f s1] eqn:Ha; [|discriminate].
    pose proof (Hsome _ eq_refl) as Hx. cbn in Hx. subst ea. cbn [fst snd failed] in H. exists a, s1. split; [reflexivity|].
    rewrite run_bind in H. destruct (run h (weakly_canonical_impl cf has base) s1) as [[b eb] s2|f s2] eqn:Hb; [|discriminate].
    cbn [fst snd] in H. destruct eb as [eb|]; cbn [failed] in H.
    + cbn in H. injection H as <- <- <-. exists b. reflexivity.
    + destruct (lexically_relative Posix (cf_el cf) a b); discriminate.
Qed.

(** /a/b does not exist and its prefix /a cannot be examined (for example a directory on its way became unreadable): no
    error is reported and the result is an empty path. *)
Example C46_error_swallowed_example :
  let h := sample (fun p => if str_eqb p (lit "/a") then Err EACCES else if str_eqb p (lit "/a/b") then Err ENOENT else Val dir_stat)
    (fun p => Val dir_stat) (Val (lit "/home")) (fun p => Val p) EPERM in
  fst (h (c_stat (lit "/a")) tt) = Err EACCES /\ fst (h (c_stat (lit "/a/b")) tt) = Err ENOENT /\
  exists r w, run h (relative_impl plain_config true (topath (lit "/a/b")) (topath (lit "/"))) tt = Done (r, None) tt /\ native r = lit "" /\
  run h (weakly_canonical_impl plain_config true (topath (lit "/a/b"))) tt = Done (w, None) tt /\ native w = lit "".
Proof.
  split; [reflexivity|]. split; [reflexivity|].
  eexists. eexists. split; [vm_compute; reflexivity|]. split; [reflexivity|]. split; vm_compute; reflexivity.
Qed.

Print Assumptions C22_overloads_agree_partial.
Print Assumptions C22_getcwd_succeeds_partial.
Print Assumptions C22_create_directories_partial.
Print Assumptions C22_status_partial.
Print Assumptions C22_status_missing_refuted.
Print Assumptions C22_canonical_code_refuted.
Print Assumptions C22_relative_throws_refuted.
Print Assumptions C23_status.
Print Assumptions C24_partition.
Print Assumptions C42_space_partial.
Print Assumptions C42_full_disk_refuted.
Print Assumptions C43_temp_directory_path.
Print Assumptions C46_relative_partial.
Print Assumptions C46_error_swallowed_refuted.
