(** C105: what went wrong is told. *)
From Coq Require Import Ascii String Bool Arith NArith ZArith Lia.
From Verif Require Import Str PathModel PathSpec StrProofs PathProofs PathOps PathOps2 PathReach PathLaws
  FlagsModel TimeModel Prog DirModel OpsModel OpsProps FS FSProofs FSSpec FSOps FSPlace FSProps IterProps FSIter FSRemove RaceProps Chronicle.
From Coq Require Import List.
Import ListNotations.

(** * Specification *)

(** The operations whose failures are followed. *)
Inductive operation :=
| o_create_directory (p : path) | o_create_directory_like (p tmpl : path) | o_create_directories (p : path)
| o_create_symlink (target link : path) | o_create_directory_symlink (target link : path) | o_create_hard_link (target link : path)
| o_copy_symlink (from to : path) | o_copy_file (from to : path) (options : N) | o_copy (from to : path) (options : N)
| o_remove (p : path) | o_remove_all (p : path) | o_rename (from to : path) | o_resize_file (p : path) (size : Z)
| o_permissions (p : path) (prms options : N) | o_set_last_write_time (p : path) (t : Z) | o_set_current_path (p : path)
| o_current_path | o_absolute (p : path) | o_canonical (p : path) | o_read_symlink (p : path) | o_equivalent (p q : path)
| o_file_size (p : path) | o_hard_link_count (p : path) | o_last_write_time (p : path) | o_is_empty (p : path) | o_space (p : path)
| o_temp_directory_path | o_status (p : path) | o_symlink_status (p : path) | o_exists (p : path).

(** The call of the library, of which only the code is kept; [has] for the overload with an error_code. *)
Definition perform (cf : config) (n : nat) (has : bool) (o : operation) : prog ecode :=
  let code {A} (p : prog (A * ecode)) := let! r := p in Ret (snd r) in
  match o with
  | o_create_directory p => code (create_directory_impl has p)
  | o_create_directory_like p t => code (create_directory_like_impl has p t)
  | o_create_directories p => code (create_directories_impl cf n has p)
  | o_create_symlink t l => code (create_symlink_impl has t l)
  | o_create_directory_symlink t l => code (create_directory_symlink_impl has t l)
  | o_create_hard_link t l => code (create_hard_link_impl has t l)
  | o_copy_symlink a b => code (copy_symlink_impl cf has a b)
  | o_copy_file a b opts => code (copy_file_impl cf n has a b opts)
  | o_copy a b opts => code (copy_impl cf n has a b opts)
  | o_remove p => code (remove_impl has p)
  | o_remove_all p => code (remove_all_impl cf n has p)
  | o_rename a b => code (rename_impl has a b)
  | o_resize_file p size => code (resize_file_impl has p size)
  | o_permissions p prms opts => code (permissions_impl cf has p prms opts)
  | o_set_last_write_time p t => code (set_last_write_time_impl cf has p t)
  | o_set_current_path p => code (set_current_path_impl has p)
  | o_current_path => code (current_path_impl cf has)
  | o_absolute p => code (absolute_impl cf has p)
  | o_canonical p => code (canonical_impl cf has p)
  | o_read_symlink p => code (read_symlink_impl cf has p)
  | o_equivalent p q => code (equivalent_impl has p q)
  | o_file_size p => code (file_size_impl has p)
  | o_hard_link_count p => code (hard_link_count_impl has p)
  | o_last_write_time p => code (last_write_time_impl cf has p)
  | o_is_empty p => code (is_empty_impl cf n has p)
  | o_space p => code (space_impl has p)
  | o_temp_directory_path => code (temp_directory_path_impl cf has)
  | o_status p => code (status_impl has p)
  | o_symlink_status p => code (symlink_status_impl has p)
  | o_exists p => code (exists_ has p)
  end.

(** The error with which the system answered. *)
Definition refusal {S} (d : deed S) : option errno :=
  let of_res {A} (r : res A) := match r with Err e => Some e | Val _ => None end in
  match d with
  | Deed _ c r =>
      match c return answer c -> option errno with
      | c_stat _ | c_lstat _ => of_res
      | c_open _ _ _ | c_opendir _ => of_res
      | c_close _ | c_closedir _ => fun _ => None
      | c_mkdir _ _ | c_symlink _ _ | c_link _ _ | c_remove _ | c_rename _ _
      | c_truncate _ _ | c_ftruncate _ _ | c_fchmod _ _ | c_fchmodat _ _ _ | c_utimensat _ _ | c_chdir _ => of_res
      | c_readlink _ _ | c_getcwd _ | c_realpath _ => of_res
      | c_statvfs _ => of_res
      | c_pathconf => fun _ => None
      | c_getenv _ => fun _ => None
      | c_sendfile _ _ _ | c_write _ _ => of_res
      | c_read _ _ => of_res
      | c_readdir _ => of_res
      end r
  end.
Definition asked {S} (d : deed S) : call := match d with Deed _ c _ => c end.

(** After [d], the system said that [t] names a directory. *)
Definition then_directory {S} (l : list (deed S)) (d : deed S) (t : str) : Prop :=
  exists a b s st, l = a ++ d :: b /\ In (Deed s (c_stat t) (Val st)) b /\ type_of_mode (st_mode st) = ft_directory.

Definition absent (e : errno) : Prop := e = ENOENT \/ e = ENOTDIR.

(** The refusals with which an operation may still succeed; [l] is all that was done. *)
Definition pardoned {S} (o : operation) (l : list (deed S)) (d : deed S) (e : errno) : Prop :=
  match o with
  | o_create_directory _ | o_create_directory_like _ _ => match asked d with c_mkdir _ _ => e = EEXIST | _ => False end
  | o_create_directories _ =>
      match asked d with
      | c_mkdir t _ => e = EEXIST \/ then_directory l d t
      | c_stat t => absent e \/ then_directory l d t
      | _ => False
      end
  | o_copy_file _ _ _ => match asked d with c_stat _ => absent e | c_sendfile _ _ _ => True | _ => False end
  | o_copy _ _ _ =>
      match asked d with
      | c_stat _ | c_lstat _ => absent e
      | c_mkdir _ _ => e = EEXIST
      | c_sendfile _ _ _ | c_readdir _ => True
      | _ => False
      end
  | o_remove _ => match asked d with c_remove _ => e = ENOENT | _ => False end
  | o_remove_all _ => e = ENOENT
  | o_status _ | o_exists _ => match asked d with c_stat _ => absent e | _ => False end
  | o_symlink_status _ => match asked d with c_lstat _ => absent e | _ => False end
  | _ => False
  end.

(** The codes the library gives without having them from the system. *)
Definition own_code (o : operation) (e : errno) : Prop :=
  match o with
  | o_create_directory_like _ _ => e = ENOTDIR
  | o_create_directories p => e = EINVAL /\ native p = []
  | o_copy_file _ _ _ => In e [ENOTSUP; EEXIST; EBADF]
  | o_copy _ _ _ => In e [ENOTSUP; EEXIST; EBADF; ENOSYS; EISDIR; ENOTDIR]
  | o_set_last_write_time _ _ => e = EINVAL
  | o_last_write_time _ => e = EOVERFLOW
  | o_equivalent _ _ => e = ENOTSUP
  | o_file_size _ => In e [EISDIR; ENOTSUP]
  | o_is_empty _ => e = ENOTSUP
  | o_temp_directory_path => e = ENOTDIR
  | _ => False
  end.

(** The operations that end with the first refusal they do not pardon. The others go on: canonical after a failed getcwd, create_directories to see
    whether there is a directory all the same; or they give a code of their own for a file that is not there. *)
Definition stops (o : operation) : bool :=
  match o with o_create_directory_like _ _ | o_create_directories _ | o_canonical _ | o_equivalent _ _ | o_temp_directory_path => false | _ => true end.

(** * Proof *)

Section Told.
Context {S : Type}.
Implicit Type l : list (deed S).

(** What holds when [p] returns, and when it throws a filesystem_error. *)
Fixpoint traced {A} l (p : prog A) (Q : A -> list (deed S) -> Prop) (R : ecode -> list (deed S) -> Prop) : Prop :=
  match p with
  | Ret a => Q a l
  | Stop (FThrow e _) => R e l
  | Stop _ => True
  | Sys c f => forall s a, traced (l ++ [Deed s c a]) (f a) Q R
  end.

Lemma traced_bind : forall A B (p : prog A) (f : A -> prog B) l Q R, traced l p (fun a l1 => traced l1 (f a) Q R) R -> traced l (pbind p f) Q R.
Proof. induction p as [a|e|c k IH]; cbn; intros f l Q R H; auto. Qed.
Lemma traced_weaken : forall A (p : prog A) l (Q Q' : A -> list (deed S) -> Prop) (R R' : ecode -> list (deed S) -> Prop),
  (forall a l1, Q a l1 -> Q' a l1) -> (forall e l1, R e l1 -> R' e l1) -> traced l p Q R -> traced l p Q' R'.
Proof. induction p as [a|e|c k IH]; cbn; intros l Q Q' R R' H1 H2 H; auto; [destruct e; auto|]. intros s a. eapply IH; eauto. Qed.
Lemma traced_scoped : forall A (p : prog A) c l Q R, (forall l1, traced l1 c (fun _ _ => True) (fun _ _ => False)) ->
  traced l p (fun a l1 => traced l1 c (fun _ l2 => Q a l2) R) (fun e l1 => traced l1 c (fun _ l2 => R e l2) R) -> traced l (scoped p c) Q R.
Proof.
  induction p as [a|e|q k IH]; cbn; intros c l Q R Hc H; auto.
  - apply traced_bind. exact H.
  - destruct e; cbn; auto; apply traced_bind; [exact H|]. eapply traced_weaken; [| |apply Hc]; cbn; auto; tauto.
Qed.
Lemma traced_unwinding : forall A (p : prog A) c l Q R, (forall l1, traced l1 c (fun _ _ => True) (fun _ _ => False)) ->
  traced l p Q (fun e l1 => traced l1 c (fun _ l2 => R e l2) R) -> traced l (unwinding p c) Q R.
Proof.
  induction p as [a|e|q k IH]; cbn; intros c l Q R Hc H; auto.
  destruct e; cbn; auto; apply traced_bind; [exact H|]. eapply traced_weaken; [| |apply Hc]; cbn; auto; tauto.
Qed.
Lemma traced_run : forall A (p : prog A) (h : kernel S) s l Q R, traced l p Q R ->
  match run (chronicled h) p (s, l) with
  | Done a (_, l1) => Q a l1
  | Failed (FThrow e _) (_, l1) => R e l1
  | _ => True
  end.
Proof.
  induction p as [a|e|c k IH]; intros h s l Q R H; cbn in *; [exact H|destruct e; auto|]. destruct (h c s) as [a s1]. apply IH. apply H.
Qed.

(** ** What is told of what was done since [l] *)
Variable P : list (deed S) -> deed S -> errno -> Prop.
Variable own : errno -> Prop.
Hypothesis Pmono : forall a l b d e, P l d e -> P (a ++ l ++ b) d e.

(** Must the code tell all that was refused? *)
Variable strict : bool.

Definition grew l l1 : Prop := exists x, l1 = l ++ x.
Definition fair l (oe : ecode) l1 : Prop := exists x, l1 = l ++ x /\
  (strict = true \/ oe = None -> forall d e, In d x -> refusal d = Some e -> oe = Some e \/ P x d e) /\
  forall e, oe = Some e -> own e \/ exists d, In d x /\ refusal d = Some e.

Lemma fair_nil : forall l, fair l None l.
Proof. intros l. exists []. rewrite app_nil_r. split; auto. split; [intros _ d e []|discriminate]. Qed.
Lemma fair_grew : forall l oe l1, fair l oe l1 -> grew l l1.
Proof. intros l oe l1 (x & H & _). exists x. auto. Qed.
Lemma fair_trans : forall l l1 oe l2, fair l None l1 -> fair l1 oe l2 -> fair l oe l2.
Proof.
  intros l l1 oe l2 (x & -> & Hx & _) (y & -> & Hy & Hz). exists (x ++ y). rewrite app_assoc. split; auto. split.
  - intros Hs d e Hd He. apply in_app_or in Hd as [Hd|Hd].
    + right. apply (Pmono []). destruct (Hx (or_intror eq_refl) d e Hd He); [discriminate|auto].
    + destruct (Hy Hs d e Hd He) as [H|H]; auto. right. rewrite <- (app_nil_r (x ++ y)), <- app_assoc. apply Pmono. auto.
  - intros e He. destruct (Hz e He) as [H|(d & H1 & H2)]; auto. right. exists d. split; auto. apply in_or_app. auto.
Qed.
Lemma fair_here : forall l oe, (forall e, oe = Some e -> own e) -> fair l oe l.
Proof. intros l oe H. exists []. rewrite app_nil_r. split; auto. split; [intros _ d e []|auto]. Qed.
Lemma fair_one : forall l d oe, (forall e, refusal d = Some e -> oe = Some e \/ P [d] d e) -> (forall e, oe = Some e -> own e \/ refusal d = Some e) -> fair l oe (l ++ [d]).
Proof.
  intros l d oe H1 H2. exists [d]. split; auto. split; [intros _ d1 e [<-|[]] He; auto|]. intros e He. destruct (H2 e He); auto. right. exists d. cbn. auto.
Qed.
Lemma fair_own : forall l l1 e, fair l None l1 -> own e -> fair l (Some e) l1.
Proof. intros l l1 e H1 H2. eapply fair_trans; [exact H1|]. apply fair_here. intros e' H. inversion H; subst. auto. Qed.
Lemma fair_told : forall l l1 d e, fair l None l1 -> refusal d = Some e -> fair l (Some e) (l1 ++ [d]).
Proof. intros l l1 d e H1 H2. eapply fair_trans; [exact H1|]. apply fair_one; intros e' H; [left; congruence|right; congruence]. Qed.
Lemma fair_snoc : forall l l1 d, fair l None l1 -> (forall e, refusal d = Some e -> P [d] d e) -> fair l None (l1 ++ [d]).
Proof. intros l l1 d H1 H2. eapply fair_trans; [exact H1|]. apply fair_one; [auto|discriminate]. Qed.
Lemma fair_any : forall l l1 d oe, fair l oe l1 -> refusal d = None -> fair l oe (l1 ++ [d]).
Proof.
  intros l l1 d oe (x & -> & H1 & H2) Hd. exists (x ++ [d]). rewrite app_assoc. split; auto. split.
  - intros Hs d1 e Hi He. apply in_app_or in Hi as [Hi|[<-|[]]]; [|congruence]. destruct (H1 Hs d1 e Hi He); auto. right. apply (Pmono []). auto.
  - intros e He. destruct (H2 e He) as [H|(d1 & H3 & H4)]; auto. right. exists d1. split; auto. apply in_or_app. auto.
Qed.
Lemma fair_late : forall l l1 d e, strict = false -> fair l (Some e) l1 -> fair l (Some e) (l1 ++ [d]).
Proof.
  intros l l1 d e Hs (x & -> & H1 & H2). exists (x ++ [d]). rewrite app_assoc. split; auto. split; [intros [H|H]; congruence|].
  intros e' He. destruct (H2 e' He) as [H|(d1 & H3 & H4)]; auto. right. exists d1. split; auto. apply in_or_app. auto.
Qed.
Lemma fair_loose : forall l l1 d e, strict = false -> grew l l1 -> refusal d = Some e -> fair l (Some e) (l1 ++ [d]).
Proof. intros l l1 d e Hs (x & ->) H. exists (x ++ [d]). rewrite app_assoc. split; auto. split; [intros [?|?]; congruence|]. intros e' He. right. exists d. split; [apply in_or_app; cbn; auto|congruence]. Qed.

(** Nothing is thrown without a code. *)
Definition thrown l (oe : ecode) l1 : Prop := oe <> None /\ fair l oe l1.
(** [p], which gives a code. *)
Definition tells {A} l (p : prog (A * ecode)) : Prop := traced l p (fun r l1 => fair l (snd r) l1) (thrown l).

Lemma tells_after : forall A l l1 (p : prog (A * ecode)), fair l None l1 -> tells l1 p -> traced l1 p (fun r l2 => fair l (snd r) l2) (thrown l).
Proof. intros A l l1 p H Hp. eapply traced_weaken; [| |exact Hp]; cbn; [eauto using fair_trans|]. intros e l2 [H1 H2]. split; eauto using fair_trans. Qed.
Lemma tells_report : forall A l l1 has ps (v : A) e, fair l (Some e) l1 -> traced l1 (report has ps v (Some e)) (fun r l2 => fair l (snd r) l2) (thrown l).
Proof. intros A l l1 has ps v e H. unfold report. destruct has; cbn; auto. split; auto. discriminate. Qed.
Lemma tells_simple : forall l l1 has ps (r : res unit) d, fair l None l1 -> refusal d = (match r with Err e => Some e | Val _ => None end) ->
  traced (l1 ++ [d]) (simple has ps r) (fun r l2 => fair l (snd r) l2) (thrown l).
Proof.
  intros l l1 has ps r d H Hd. unfold simple. destruct r as [e|[]].
  - apply tells_report. apply fair_told; auto.
  - cbn. apply fair_any; auto.
Qed.

Lemma traced_status : forall l p (Q : file_status * stat_t * ecode -> list (deed S) -> Prop) R,
  (forall s st, Q (FStatus (type_of_mode (st_mode st)) (op_and width_perms (st_mode st) perms_mask), st, None) (l ++ [Deed s (c_stat (native p)) (Val st)])) ->
  (forall s e, Q (status_of_type (if errno_eqb e ENOENT || errno_eqb e ENOTDIR then ft_not_found else ft_none), stat_zero, Some e) (l ++ [Deed s (c_stat (native p)) (Err e)])) ->
  traced l (GetFileStatus true p) Q R.
Proof. intros l p Q R H1 H2. cbn. intros s [e|st]; cbn; [|apply H1]. specialize (H2 s e). destruct (errno_eqb e ENOENT || errno_eqb e ENOTDIR); exact H2. Qed.
Lemma traced_lstatus : forall l p (Q : file_status * stat_t * ecode -> list (deed S) -> Prop) R,
  (forall s st, Q (FStatus (type_of_mode (st_mode st)) (op_and width_perms (st_mode st) perms_mask), st, None) (l ++ [Deed s (c_lstat (native p)) (Val st)])) ->
  (forall s e, Q (status_of_type (if errno_eqb e ENOENT || errno_eqb e ENOTDIR then ft_not_found else ft_none), stat_zero, Some e) (l ++ [Deed s (c_lstat (native p)) (Err e)])) ->
  traced l (GetLinkStatus true p) Q R.
Proof. intros l p Q R H1 H2. cbn. intros s [e|st]; cbn; [|apply H1]. specialize (H2 s e). destruct (errno_eqb e ENOENT || errno_eqb e ENOTDIR); exact H2. Qed.
Lemma traced_lift : forall A (x : out A) l (Q : A -> list (deed S) -> Prop) R, (forall a, Q a l) -> traced l (lift x) Q R.
Proof. intros A [a|e| |] l Q R H; cbn; auto. Qed.
Lemma traced_assert : forall b c l (Q : unit -> list (deed S) -> Prop) R, Q tt l -> traced l (asap_assert b c) Q R.
Proof. intros b c l Q R H. unfold asap_assert. destruct (b && negb c); cbn; auto. Qed.

Lemma tells_close : forall l1 fd l oe, fair l oe l1 -> traced l1 (close_fd fd) (fun _ l2 => fair l oe l2) (fun _ _ => False).
Proof. intros l1 fd l oe H. cbn. intros s a. apply fair_any; auto. Qed.
Lemma tells_destroy : forall l1 it l oe, fair l oe l1 -> traced l1 (dir_iter_destroy it) (fun _ l2 => fair l oe l2) (fun _ _ => False).
Proof. intros l1 [st|] l oe H; cbn; auto. unfold stream_destroy. destruct (ds_handle st); cbn; auto. intros s a. apply fair_any; auto. Qed.
Lemma calm_close : forall l1 fd, traced l1 (close_fd fd) (fun _ _ => True) (fun _ _ => False).
Proof. intros. cbn. auto. Qed.
Lemma calm_destroy : forall l1 it, traced l1 (dir_iter_destroy it) (fun _ _ => True) (fun _ _ => False).
Proof. intros l1 [st|]; cbn; auto. unfold stream_destroy. destruct (ds_handle st); cbn; auto. Qed.

(** ** Iterators *)
Lemma traced_advance : forall cf n st l, traced l (advance cf n st) (fun r l1 => fair l (snd (fst r)) l1 /\ (failed (snd (fst r)) = true -> fst (fst r) = false /\ good (snd r) = false)) (fun _ _ => False).
Proof.
  intros cf. induction n as [|n IH]; intros st l; [exact Logic.I|]. cbn [advance]. destruct (ds_handle st) as [d|]; [|exact Logic.I].
  unfold posix_readdir. cbn [pbind traced]. intros s a. destruct a as [e|[[name t]|]].
  - cbn. intros s2 a2. split; [|auto]. apply fair_any; [|reflexivity]. apply fair_told; [apply fair_nil|reflexivity].
  - assert (F : fair l None (l ++ [Deed s (c_readdir d) (Val (Some (name, t)))])) by (apply fair_any; [apply fair_nil|reflexivity]).
    apply traced_bind. apply traced_bind. assert (Hft : forall l1 (Q : file_type -> list (deed S) -> Prop) R, (forall ft, Q ft l1) -> traced l1 (get_file_type t) Q R) by (intros; destruct t; cbn; auto).
    apply Hft. intros ft. cbn [traced]. destruct (str_eqb name (lit ".") || str_eqb name (lit "..")).
    + eapply traced_weaken; [| |apply IH]; cbn beta; auto. intros r l1 [H1 H2]. split; [eapply fair_trans; eauto|exact H2].
    + cbn [failed orb]. destruct (is_nil name).
      * cbn. intros s2 a2. split; [|discriminate]. apply fair_any; auto.
      * apply traced_bind. apply traced_lift. intros q. cbn. split; [exact F|discriminate].
  - cbn. intros s2 a2. split; [|discriminate]. apply fair_any; [|reflexivity]. apply fair_any; [apply fair_nil|reflexivity].
Qed.
Lemma tells_ctor : forall cf n has p l, tells l (dir_iter_ctor cf n has p 0).
Proof.
  intros cf n has p l. unfold tells, dir_iter_ctor, stream_ctor. apply traced_bind. cbn [traced]. intros s a. destruct a as [e|d].
  - cbn. change (has_dopt do_skip_permission_denied 0) with false. cbn. apply tells_report. apply fair_told; [apply fair_nil|reflexivity].
  - apply traced_bind. eapply traced_weaken; [| |apply traced_advance]; [|intros ? ? []]. intros [[b ec] st] l1 [H1 H2]. cbn [fst snd traced] in *.
    assert (F : fair l ec l1) by (eapply fair_trans; [|exact H1]; apply fair_any; [apply fair_nil|reflexivity]).
    destruct ec as [e|]; cbn [failed] in *.
    + destruct (H2 eq_refl) as [_ ->]. apply tells_report. exact F.
    + destruct (good st); [|exact F]. destruct has; exact F.
Qed.
Lemma traced_increment : forall cf n it l, it <> None -> traced l (dir_iter_increment cf n true it) (fun r l1 => fair l (snd r) l1 /\ (failed (snd r) = true -> fst r = None)) (fun _ _ => False).
Proof.
  intros cf n [st|] l H; [|congruence]. cbn [dir_iter_increment]. apply traced_bind. eapply traced_weaken; [| |apply traced_advance]; [|intros ? ? []].
  intros [[b ec] st1] l1 [H1 H2]. cbn [fst snd] in *. destruct ec as [e|]; cbn [failed] in *.
  - destruct (H2 eq_refl) as [-> _]. cbn. auto.
  - destruct b; cbn; split; auto; discriminate.
Qed.

(** ** Operations *)
Ltac fine := repeat first [apply fair_nil | assumption | apply fair_any; [|reflexivity]].
Ltac told := apply tells_report; first [apply fair_told; [solve [fine]|reflexivity] | apply fair_own; [solve [fine]|cbn; auto 8]].

Definition p_mkdir : Prop := forall s t m, P [Deed s (c_mkdir t m) (Err EEXIST)] (Deed s (c_mkdir t m) (Err EEXIST)) EEXIST.
Definition p_stat : Prop := forall s t e, absent e -> P [Deed s (c_stat t) (Err e)] (Deed s (c_stat t) (Err e)) e.
Definition p_lstat : Prop := forall s t e, absent e -> P [Deed s (c_lstat t) (Err e)] (Deed s (c_lstat t) (Err e)) e.
Definition p_sendfile : Prop := forall s a b k e, P [Deed s (c_sendfile a b k) (Err e)] (Deed s (c_sendfile a b k) (Err e)) e.

Lemma eqb_errno : forall a b, errno_eqb a b = true -> a = b.
Proof. intros a b. unfold errno_eqb. destruct (errno_eq_dec a b); auto; discriminate. Qed.
Lemma eqb_absent : forall e, errno_eqb e ENOENT || errno_eqb e ENOTDIR = true -> absent e.
Proof. intros e H. apply orb_true_iff in H as [H|H]; apply eqb_errno in H; [left|right]; auto. Qed.

Lemma tells_mkdir : forall has p l, p_mkdir -> tells l (create_directory_impl has p).
Proof.
  intros has p l Hm. unfold tells, create_directory_impl. cbn [traced]. intros s a. destruct a as [e|[]]; [|cbn; fine]. destruct (errno_eqb e EEXIST) eqn:Ee; [|told].
  apply eqb_errno in Ee. subst. cbn. apply fair_snoc; [fine|]. intros e H. inversion H; subst. apply Hm.
Qed.
Lemma tells_mkdir_like : forall has p q l, p_mkdir -> p_stat \/ strict = false -> own ENOTDIR -> tells l (create_directory_like_impl has p q).
Proof.
  intros has p q l Hm Hst Ho. unfold tells, create_directory_like_impl. apply traced_bind. apply traced_status.
  - intros s st. cbn iota. destruct (negb (status_known _)) eqn:K; [exfalso; revert K; unfold status_known; cbn; unfold type_of_mode; repeat destruct (is_fmt _ _); discriminate|].
    destruct (negb (st_is_directory _)); [told|]. cbn [traced]. intros s2 a. destruct a as [e|[]]; [|cbn; fine]. destruct (errno_eqb e EEXIST) eqn:Ee; [|told].
    apply eqb_errno in Ee. subst. cbn. apply fair_snoc; [fine|]. intros e H. inversion H; subst. apply Hm.
  - intros s e. destruct (errno_eqb e ENOENT || errno_eqb e ENOTDIR) eqn:Ee; cbn; [|told]. apply eqb_absent in Ee. apply tells_report. destruct Hst as [Hst|Hst].
    + apply fair_own; auto. apply fair_snoc; [fine|]. intros e' H. inversion H; subst. apply Hst. auto.
    + apply fair_late; auto. apply fair_own; auto. fine.
Qed.
Lemma tells_symlink : forall has a b l, tells l (create_symlink_impl has a b).
Proof. intros. unfold tells, create_symlink_impl. cbn [traced]. intros s r. apply tells_simple; [fine|]. destruct r; reflexivity. Qed.
Lemma tells_hard_link : forall has a b l, tells l (create_hard_link_impl has a b).
Proof. intros. unfold tells, create_hard_link_impl. cbn [traced]. intros s r. apply tells_simple; [fine|]. destruct r; reflexivity. Qed.
Lemma tells_current_path : forall cf has l, tells l (current_path_impl cf has).
Proof.
  intros cf has l. unfold tells, current_path_impl. cbn [traced]. intros s z. apply traced_bind. apply traced_assert. destruct (z <? 0)%Z; [exact Logic.I|]. cbn [traced]. intros s2 [e|t]; [told|cbn; fine].
Qed.
Lemma tells_read_symlink : forall cf has p l, tells l (read_symlink_impl cf has p).
Proof.
  intros cf has p l. unfold tells, read_symlink_impl. cbn [traced]. intros s z. apply traced_bind. apply traced_assert. destruct (z <? 0)%Z; [exact Logic.I|]. cbn [traced]. intros s2 [e|t]; [told|].
  apply traced_bind. apply traced_assert. apply traced_bind. apply traced_assert. destruct (z <? _)%Z; [exact Logic.I|]. cbn. fine.
Qed.
Lemma tells_copy_symlink : forall cf has a b l, tells l (copy_symlink_impl cf has a b).
Proof.
  intros cf has a b l. unfold tells, copy_symlink_impl. apply traced_bind. eapply traced_weaken; [|intros e l1 H; exact H|apply tells_read_symlink]. intros [q [e|]] l1 H; cbn [snd fst failed] in *.
  - apply tells_report. exact H.
  - apply tells_after; auto. apply tells_symlink.
Qed.

Lemma tells_default : forall n r w l, traced l (do_copy_file_default n r w) (fun c l1 => fair l (snd c) l1 /\ (fst c = negb (failed (snd c)))) (fun _ _ => False).
Proof.
  induction n as [|n IH]; intros r w l; [exact Logic.I|]. cbn [do_copy_file_default traced]. intros s [e|[|x data]].
  - cbn. split; auto. apply fair_told; [apply fair_nil|reflexivity].
  - cbn. split; auto. fine.
  - cbn [traced]. intros s2 [e|z]; cbn [traced].
    + cbn. split; auto. apply fair_told; [|reflexivity]. fine.
    + eapply traced_weaken; [| |apply IH]; [|auto]. intros c l1 [H1 H2]. split; auto. eapply fair_trans; [|exact H1]. fine.
Qed.
Lemma tells_sendfile : p_sendfile -> forall n r w k l, traced l (sendfile_loop n r w k) (fun c l1 => fair l None l1 /\ (fst c = true -> snd c = None)) (fun _ _ => False).
Proof.
  intros Hs. induction n as [|n IH]; intros r w k l; [exact Logic.I|]. cbn [sendfile_loop traced]. intros s [e|z].
  - cbn. split; [|discriminate]. apply fair_snoc; [fine|]. intros e' H. inversion H; subst. apply Hs.
  - assert (F : fair l None (l ++ [Deed s (c_sendfile w r k) (Val z)])) by fine. destruct (0 <? k - z)%Z; [|cbn; auto].
    eapply traced_weaken; [| |apply IH]; [|auto]. intros c l1 [H1 H2]. split; auto. eapply fair_trans; eauto.
Qed.
Lemma tells_do_copy : forall cf n r w k l, p_sendfile -> traced l (do_copy_file cf n r w k) (fun c l1 => fair l (snd c) l1 /\ (fst c = negb (failed (snd c)))) (fun _ _ => False).
Proof.
  intros cf n r w k l Hs. unfold do_copy_file. destruct (cf_sendfile cf); [|apply tells_default]. apply traced_bind. unfold do_copy_file_sendfile.
  assert (Hd : forall l1, fair l None l1 -> traced l1 (do_copy_file_default n r w) (fun c l1 => fair l (snd c) l1 /\ (fst c = negb (failed (snd c)))) (fun _ _ => False)).
  { intros l1 F. eapply traced_weaken; [| |apply tells_default]; [|auto]. intros c l2 [H1 H2]. split; auto. eapply fair_trans; eauto. }
  destruct ((k <? 0)%Z || (sendfile_max <? k)%Z); [cbn; apply Hd; fine|]. eapply traced_weaken; [| |apply tells_sendfile; auto]; [|auto].
  intros [b ec] l1 [H1 H2]. cbn [fst snd] in *. destruct b; [|auto]. cbn. rewrite (H2 eq_refl). auto.
Qed.

Definition own_copy_file : Prop := own ENOTSUP /\ own EEXIST /\ own EBADF.
Lemma tells_body : forall cf n has from to r w a b ex l, p_sendfile -> own_copy_file -> tells l (copy_file_body cf n has from to r w a b ex).
Proof.
  intros cf n has from to r w a b ex l Hs (O1 & O2 & O3). unfold tells, copy_file_body. apply traced_bind. unfold refresh_status. apply traced_lstatus.
  - intros s st. cbn [snd fst failed].
    assert (Hc : forall l1, fair l None l1 -> traced l1 (let! c := do_copy_file cf n r w (st_size a) in if fst c then Ret (true, None) else report has [to; from] false (snd c)) (fun r l2 => fair l (snd r) l2) (thrown l)).
    { intros l1 F. apply traced_bind. eapply traced_weaken; [| |apply tells_do_copy; auto]; [|intros ? ? []]. intros [g [e|]] l2 [H1 H2]; cbn [fst snd failed negb] in *; subst g.
      - apply tells_report. eapply fair_trans; eauto.
      - cbn. eapply fair_trans; eauto. }
    destruct ex; [|apply Hc; fine]. destruct (negb (stat_equivalent b st)); [told|]. cbn [traced]. intros s2 [e|[]]; [told|]. cbn [traced]. intros s3 [e|[]]; [told|]. apply Hc. fine.
  - intros s e. cbn [snd failed]. told.
Qed.
Lemma tells_from : forall cf n has from to opts r l, p_stat -> p_sendfile -> own_copy_file -> tells l (copy_file_from cf n has from to opts r).
Proof.
  intros cf n has from to opts r l Hst Hs Ho. pose proof Ho as (O1 & O2 & O3). unfold tells, copy_file_from. cbv zeta. apply traced_bind. unfold refresh_status. apply traced_lstatus.
  2:{ intros s e. cbn [snd failed]. told. }
  intros s st. cbn iota. cbn [failed]. destruct (negb (st_is_regular_file _)); [told|]. apply traced_bind.
  assert (Hgo : forall tst ts l2, fair l None l2 -> traced l2 (if st_exists tst && negb (st_is_regular_file tst) then report has [to; from] false (Some ENOTSUP)
      else if st_exists tst && stat_equivalent st ts then report has [to; from] false (Some EEXIST)
      else if st_exists tst && co_set co_skip_existing opts then Ret (false, None)
      else
        let! should :=
          (if st_exists tst && co_set co_update_existing opts then Ret (newer (st_mtim st) (st_mtim ts), None)
           else if negb (st_exists tst) || co_set co_overwrite_existing opts then Ret (true, None)
           else report has [to; from] false (Some EEXIST)) in
        if negb (fst should) then Ret (false, snd should)
        else
          Sys (c_open (native to) (if st_exists tst then O_WRITE else O_WRITE_CREAT) (st_mode st)) (fun o =>
          match o with
          | Err e => report has [to; from] false (Some e)
          | Val wfd => scoped (copy_file_body cf n has from to r wfd st ts (st_exists tst)) (close_fd wfd)
          end)) (fun r l2 => fair l (snd r) l2) (thrown l)).
  { intros tst ts l2 F. destruct (st_exists tst && negb (st_is_regular_file tst)); [told|]. destruct (st_exists tst && stat_equivalent st ts); [told|].
    destruct (st_exists tst && co_set co_skip_existing opts); [exact F|]. apply traced_bind.
    assert (Hop : traced l2 (Sys (c_open (native to) (if st_exists tst then O_WRITE else O_WRITE_CREAT) (st_mode st)) (fun o =>
          match o with
          | Err e => report has [to; from] false (Some e)
          | Val wfd => scoped (copy_file_body cf n has from to r wfd st ts (st_exists tst)) (close_fd wfd)
          end)) (fun r l2 => fair l (snd r) l2) (thrown l)).
    { cbn [traced]. intros s2 [e|wfd]; [told|]. apply traced_scoped; [intros; apply calm_close|].
      eapply traced_weaken; [| |apply (tells_after _ l); [|apply tells_body; auto]]; [| |fine].
      - intros [b oe] l3 H. eapply traced_weaken; [| |apply tells_close; exact H]; [cbn; auto|intros ? ? []].
      - intros oe l3 [H1 H2]. eapply traced_weaken; [| |apply tells_close; exact H2]; [split; auto|intros ? ? []]. }
    destruct (st_exists tst && co_set co_update_existing opts).
    { cbn [traced fst snd]. destruct (negb (newer _ _)); [exact F|exact Hop]. }
    destruct (negb (st_exists tst) || co_set co_overwrite_existing opts); [exact Hop|].
    unfold report. destruct has; cbn; [apply fair_own; auto|]. split; [discriminate|]. apply fair_own; auto. }
  apply traced_status.
  - intros s2 st2. cbn iota. destruct (negb (status_known _)) eqn:K; [exfalso; revert K; unfold status_known; cbn; unfold type_of_mode; repeat destruct (is_fmt _ _); discriminate|]. apply Hgo. fine.
  - intros s2 e. cbn iota. destruct (errno_eqb e ENOENT || errno_eqb e ENOTDIR) eqn:Ee; [|cbn [negb status_known status_of_type st_type file_type_eqb]; told].
    change (negb (status_known (status_of_type ft_not_found))) with false. cbn iota. apply Hgo. apply fair_snoc; [fine|]. intros e' H. inversion H; subst. apply Hst. apply eqb_absent. auto.
Qed.
Lemma tells_copy_file : forall cf n has from to opts l, p_stat -> p_sendfile -> own_copy_file -> tells l (copy_file_impl cf n has from to opts).
Proof.
  intros cf n has from to opts l Hst Hs Ho. unfold tells, copy_file_impl. cbn [traced]. intros s [e|rfd]; [told|]. apply traced_scoped; [intros; apply calm_close|].
  eapply traced_weaken; [| |apply (tells_after _ l); [|apply tells_from; auto]]; [| |fine].
  - intros [b oe] l3 H. eapply traced_weaken; [| |apply tells_close; exact H]; [cbn; auto|intros ? ? []].
  - intros oe l3 [H1 H2]. eapply traced_weaken; [| |apply tells_close; exact H2]; [split; auto|intros ? ? []].
Qed.

Lemma known_mode : forall m q, negb (status_known (FStatus (type_of_mode m) q)) = false.
Proof. intros m q. unfold status_known. cbn. unfold type_of_mode. repeat destruct (is_fmt _ _); reflexivity. Qed.
Lemma exists_mode : forall m q, st_exists (FStatus (type_of_mode m) q) = true.
Proof. intros m q. unfold st_exists, status_known. cbn. unfold type_of_mode. repeat destruct (is_fmt _ _); reflexivity. Qed.

(** ** copy *)
Definition p_readdir : Prop := forall s d e, P [Deed s (c_readdir d) (Err e)] (Deed s (c_readdir d) (Err e)) e.
Lemma fair_pass : forall l e l1, (forall x d, In d x -> refusal d = Some e -> P x d e) -> strict = true -> fair l (Some e) l1 -> fair l None l1.
Proof.
  intros l e l1 Hp Hs (x & -> & H1 & _). exists x. split; auto. split; [|discriminate]. intros _ d e' Hd He. right. destruct (H1 (or_introl Hs) d e' Hd He) as [H|H]; auto. inversion H; subst. auto.
Qed.
Lemma traced_swallow : forall cf n it l, p_readdir -> it <> None -> traced l (dir_iter_increment cf n true it) (fun r l1 => fair l None l1 /\ (failed (snd r) = true -> fst r = None)) (fun _ _ => False).
Proof.
  intros cf n [st|] l Hr H; [|congruence]. clear H. cbn [dir_iter_increment]. apply traced_bind.
  assert (Ha : forall m st l, traced l (advance cf m st) (fun r l1 => fair l None l1 /\ (failed (snd (fst r)) = true -> fst (fst r) = false)) (fun _ _ => False)).
  { induction m as [|m IH]; intros st' l'; [exact Logic.I|]. cbn [advance]. destruct (ds_handle st') as [d|]; [|exact Logic.I].
    unfold posix_readdir. cbn [pbind traced]. intros s a. destruct a as [e|[[name t]|]].
    - cbn. intros s2 a2. split; [|auto]. apply fair_any; [|reflexivity]. apply fair_snoc; [fine|]. intros e' H. inversion H; subst. apply Hr.
    - assert (F : fair l' None (l' ++ [Deed s (c_readdir d) (Val (Some (name, t)))])) by fine.
      apply traced_bind. apply traced_bind. assert (Hft : forall l1 (Q : file_type -> list (deed S) -> Prop) R, (forall ft, Q ft l1) -> traced l1 (get_file_type t) Q R) by (intros; destruct t; cbn; auto).
      apply Hft. intros ft. cbn [traced]. destruct (str_eqb name (lit ".") || str_eqb name (lit "..")).
      + eapply traced_weaken; [| |apply IH]; cbn beta; auto. intros r l1 [H1 H2]. split; [eapply fair_trans; eauto|exact H2].
      + cbn [failed orb]. destruct (is_nil name).
        * cbn. intros s2 a2. split; [|discriminate]. fine.
        * apply traced_bind. apply traced_lift. intros q. cbn. split; [exact F|discriminate].
    - cbn. intros s2 a2. split; [|discriminate]. fine. }
  eapply traced_weaken; [| |apply Ha]; [|intros ? ? []]. intros [[b ec] st1] l1 [H1 H2]. cbn [fst snd] in *. destruct b.
  - cbn. split; auto. discriminate.
  - destruct ec as [e|]; cbn; auto.
Qed.

Definition own_copy : Prop := own_copy_file /\ own ENOSYS /\ own EISDIR /\ own ENOTDIR.
Lemma tells_copy_loop : forall cf rec n has from to, p_readdir -> (forall a b l, tells l (rec a b)) ->
  forall k it ec l, (failed ec = true -> it = None) -> tells l (copy_loop cf rec n has from to k it ec).
Proof.
  intros cf rec n has from to Hr Hrec. induction k as [|k IH]; intros it ec l He; [exact Logic.I|]. unfold tells. cbn [copy_loop]. destruct it as [st|]; [|cbn; fine]. cbn [is_end].
  destruct (failed ec); [discriminate (He eq_refl)|]. apply traced_bind. apply traced_unwinding; [intros; apply calm_destroy|].
  assert (Ht : forall oe l1, thrown l oe l1 -> traced l1 (dir_iter_destroy (Some st)) (fun _ l2 => thrown l oe l2) (thrown l)).
  { intros oe l1 [H1 H2]. eapply traced_weaken; [| |apply tells_destroy; exact H2]; [split; auto|intros ? ? []]. }
  cbn [dir_iter_deref pbind]. apply traced_bind. apply traced_lift. intros fn. apply traced_bind. apply traced_lift. intros to2.
  eapply traced_weaken; [|exact Ht|apply Hrec]. intros [u [e|]] l1 H; cbn [snd failed] in *.
  - apply traced_bind. eapply traced_weaken; [| |apply tells_destroy; exact H]; [cbn; auto|intros ? ? []].
  - apply traced_bind. eapply traced_weaken; [| |apply traced_swallow; [exact Hr|discriminate]]; [|intros ? ? []]. intros [it2 ec2] l2 [H1 H2]. cbn [fst snd] in *.
    apply tells_after; [eapply fair_trans; eauto|]. apply IH. exact H2.
Qed.
Lemma tells_copy : p_mkdir -> p_stat -> p_lstat -> p_sendfile -> p_readdir -> own_copy ->
  forall cf n has from to opts l, tells l (copy_impl cf n has from to opts).
Proof.
  intros Hm Hst Hls Hs Hr Ho cf. pose proof Ho as (Hcf & O1 & O2 & O3). pose proof Hcf as (O4 & O5 & O6).
  induction n as [|n IH]; intros has from to opts l; [exact Logic.I|]. unfold tells. cbn [copy_impl]. cbv zeta.
  assert (H1 : forall (b : bool) p l, traced l (if b then GetLinkStatus true p else GetFileStatus true p) (fun r l1 =>
     (snd r = None /\ fair l None l1 /\ status_known (fst (fst r)) = true) \/ exists e, snd r = Some e /\ fair l (Some e) l1 /\ (status_known (fst (fst r)) = true -> fair l None l1)) (fun _ _ => False)).
  { intros b p l0. assert (K : forall m q, status_known (FStatus (type_of_mode m) q) = true) by (intros m q; pose proof (known_mode m q) as H; destruct (status_known _); [reflexivity|discriminate]).
    destruct b; [apply traced_lstatus|apply traced_status]; intros s0; try (intros st; left; split; [reflexivity|split; [fine|apply K]]); intros e; right; exists e; (split; [reflexivity|]; split; [apply fair_told; [fine|reflexivity]|]);
      cbn [fst]; (destruct (errno_eqb e ENOENT || errno_eqb e ENOTDIR) eqn:Ee; [intros _|discriminate]); apply eqb_absent in Ee; apply fair_snoc; try fine; intros e' H; inversion H; subst; auto. }
  apply traced_bind. eapply traced_weaken; [| |apply H1]; [|intros ? ? []]. intros [[f f_st] m1] l1 H; cbn [fst snd] in H; destruct H as [(-> & F1 & _)|(e & -> & F1 & _)]; cbn [failed]; [|apply tells_report; exact F1].
  apply traced_bind. eapply traced_weaken; [| |apply H1]; [|intros ? ? []]. intros [[t t_st] m2] l2 H2. cbn [fst snd] in H2.
  assert (H3 : (status_known t = true /\ fair l None l2) \/ (status_known t = false /\ exists e, m2 = Some e /\ fair l (Some e) l2)).
  { destruct H2 as [(-> & F2 & K)|(e & -> & F2 & K)]; [left; split; [exact K|eapply fair_trans; eauto]|]. destruct (status_known t); [left|right]; split; auto; [eapply fair_trans; eauto|].
    exists e. split; auto. eapply fair_trans; eauto. }
  clear H1 H2. destruct H3 as [(-> & F)|(-> & e & -> & F)]; cbn [negb]; [|apply tells_report; exact F].
  destruct (negb (st_exists f) || st_is_other f || st_is_other t || (st_is_directory f && st_is_regular_file t) || stat_equivalent f_st t_st); [told|].
  destruct (st_is_symlink f).
  { destruct (co_set co_skip_symlinks opts); [exact F|]. destruct (negb (st_exists t)); [|told]. apply tells_after; auto. apply tells_copy_symlink. }
  destruct (st_is_regular_file f).
  { destruct (co_set co_directories_only opts); [exact F|]. destruct (co_set co_create_symlinks opts); [apply tells_after; auto; apply tells_symlink|].
    destruct (co_set co_create_hard_links opts); [apply tells_after; auto; apply tells_hard_link|].
    assert (Hc : forall to2, traced l2 (let! r := copy_file_impl cf n has from to2 opts in Ret (tt, snd r)) (fun r l2 => fair l (snd r) l2) (thrown l)).
    { intros to2. apply traced_bind. eapply traced_weaken; [| |apply (tells_after _ l); [exact F|apply tells_copy_file; auto]]; [cbn; auto|auto]. }
    destruct (st_is_directory t); [|apply Hc]. apply traced_bind. apply traced_lift. intros fn. apply traced_bind. apply traced_lift. intros to2. apply Hc. }
  destruct (st_is_directory f && co_set co_create_symlinks opts); [told|].
  destruct (st_is_directory f && (co_set co_recursive opts || N.eqb opts 0)); [|exact F]. apply traced_bind.
  assert (Hgo : forall (c : bool * ecode) l3, fair l (snd c) l3 -> traced l3 (if failed (snd c) then Ret (tt, snd c) else let! i := dir_iter_ctor cf n has from 0 in
     if failed (snd i) then Ret (tt, snd i) else copy_loop cf (fun a b => copy_impl cf n has a b opts) n has from to n (fst i) None) (fun r l2 => fair l (snd r) l2) (thrown l)).
  { intros [c [e|]] l3 F3; cbn [snd failed] in *; [exact F3|]. apply traced_bind. eapply traced_weaken; [| |apply (tells_after _ l); [exact F3|apply tells_ctor]]; [|auto].
    intros [it [e|]] l4 F4; cbn [snd fst failed] in *; [exact F4|]. apply tells_after; auto. apply tells_copy_loop; auto. discriminate. }
  destruct (negb (st_exists t)).
  - eapply traced_weaken; [|intros e l3 H; exact H|apply (tells_after _ l); [exact F|apply tells_mkdir_like; auto]]. intros c l3 G3. apply Hgo. exact G3.
  - apply (Hgo (_, _)). exact F.
Qed.

(** ** create_directories *)
Definition p_dir : Prop := forall a s0 c r e b s t st, c = c_stat t \/ (exists m, c = c_mkdir t m) -> In (Deed s (c_stat t) (Val st)) b -> type_of_mode (st_mode st) = ft_directory ->
  P (a ++ Deed s0 c r :: b) (Deed s0 c r) e.
Lemma tells_second : forall A (K : ecode -> prog (A * ecode)) l l1 top s0 c r e, p_dir -> strict = false -> fair l None l1 -> refusal (Deed s0 c r) = Some e -> c = c_stat (native top) \/ (exists m, c = c_mkdir (native top) m) ->
  (forall l2, fair l None l2 -> traced l2 (K None) (fun r l3 => fair l (snd r) l3) (thrown l)) -> (forall l2, fair l (Some e) l2 -> traced l2 (K (Some e)) (fun r l3 => fair l (snd r) l3) (thrown l)) ->
  traced (l1 ++ [Deed s0 c r]) (let! m2 := (let! d := is_directory false top in Ret (if fst d then None else Some e)) in K m2) (fun r l3 => fair l (snd r) l3) (thrown l).
Proof.
  intros A K l l1 top s0 c r e Hd Hs F Hr Hc K1 K2. assert (Ft : fair l (Some e) (l1 ++ [Deed s0 c r])) by (apply fair_told; auto).
  cbn. intros s1 [e3|st].
  - cbn. destruct (errno_eqb e3 ENOENT || errno_eqb e3 ENOTDIR); cbn.
    + apply K2. apply fair_late; auto.
    + split; [discriminate|]. apply fair_loose; auto. eapply fair_grew; eauto.
  - cbn. destruct (has_type ft_directory _) eqn:Ed.
    + apply K1. eapply fair_trans; [exact F|]. exists [Deed s0 c r; Deed s1 (c_stat (native top)) (Val st)]. rewrite <- app_assoc. split; [reflexivity|]. split; [|discriminate].
      intros _ d e' [<-|[<-|[]]] He; [|discriminate]. right. apply (Hd [] s0 c r e' _ s1 (native top) st); cbn; auto.
      unfold has_type in Ed. cbn in Ed. destruct (type_of_mode (st_mode st)); try discriminate; reflexivity.
    + apply K2. apply fair_any; auto.
Qed.
Lemma tells_missing : p_mkdir -> p_stat -> p_dir -> strict = false -> forall has p missing created l, tells l (create_missing has p missing created).
Proof.
  intros Hm Hst Hd Hs has p. induction missing as [|top rest IH]; intros created l; [cbn; unfold tells; cbn; fine|]. unfold tells. cbn [create_missing]. unfold status_impl. apply traced_bind. apply traced_bind.
  assert (Kn : forall ab l2, fair l None l2 -> traced l2 (create_missing has p rest ab) (fun r l3 => fair l (snd r) l3) (thrown l)) by (intros; apply tells_after; auto).
  apply traced_status.
  - intros s st. cbn [pbind traced fst snd st_type]. assert (Hn : file_type_eqb (type_of_mode (st_mode st)) ft_not_found = false) by (unfold type_of_mode; repeat destruct (is_fmt _ _); reflexivity).
    rewrite Hn. cbn. apply Kn. fine.
  - intros s e. cbn [pbind traced fst snd]. destruct (errno_eqb e ENOENT || errno_eqb e ENOTDIR) eqn:Ee.
    + cbn [status_of_type st_type file_type_eqb]. apply eqb_absent in Ee. unfold create_directory_impl. cbn [pbind traced]. intros s2 [e2|[]].
      * assert (F : fair l None (l ++ [Deed s (c_stat (native top)) (Err e)])) by (apply fair_snoc; [fine|]; intros e' H; inversion H; subst; apply Hst; auto).
        destruct (errno_eqb e2 EEXIST) eqn:E2.
        { apply eqb_errno in E2. subst. cbn [pbind traced snd failed]. apply Kn. apply fair_snoc; [exact F|]. intros e' H; inversion H; subst. apply Hm. }
        cbn [report pbind traced snd failed]. apply (tells_second _ (fun m_ec2 => match m_ec2 with Some _ => report has [p] false m_ec2 | None => create_missing has p rest (created || true) end)); eauto.
        intros l2 F2. apply tells_report. exact F2.
      * cbn [pbind traced snd failed]. apply Kn. apply fair_any; [|reflexivity]. apply fair_snoc; [fine|]. intros e' H; inversion H; subst. apply Hst. auto.
    + cbn [status_of_type st_type file_type_eqb pbind failed].
      apply (tells_second _ (fun m_ec2 => match m_ec2 with Some _ => report has [p] false m_ec2 | None => create_missing has p rest (created || false) end)); auto; [fine|].
      intros l2 F2. apply tells_report. exact F2.
Qed.
Lemma traced_push : forall cf n p m l (Q : list path -> list (deed S) -> Prop) R, (forall m, Q m l) -> traced l (push_missing cf n p m) Q R.
Proof.
  intros cf. induction n as [|n IH]; intros p m l Q R H; [exact Logic.I|]. cbn [push_missing]. apply traced_bind. apply traced_lift. intros hf. destruct (negb hf); [cbn; auto|].
  apply traced_bind. apply traced_lift. intros fn. apply traced_bind. apply traced_lift. intros up. apply IH. auto.
Qed.
Lemma tells_create_directories : p_mkdir -> p_stat -> p_dir -> strict = false -> forall cf n has p l, (empty p = true -> own EINVAL) -> tells l (create_directories_impl cf n has p).
Proof.
  intros Hm Hst Hd Hs cf n has p l Ho. unfold tells, create_directories_impl. destruct (empty p); [apply tells_report; apply fair_own; [fine|auto]|].
  apply traced_bind. apply traced_push. intros m. destruct (is_nil m); [cbn; fine|]. apply tells_missing; auto.
Qed.

(** ** remove, remove_all *)
Lemma tells_remove : forall has p l, (forall s t, P [Deed s (c_remove t) (Err ENOENT)] (Deed s (c_remove t) (Err ENOENT)) ENOENT) -> tells l (remove_impl has p).
Proof.
  intros has p l Hp. unfold tells, remove_impl. destruct (empty p); [cbn; fine|]. cbn [traced]. intros s [e|[]]; [|cbn; fine]. destruct (errno_eqb e ENOENT) eqn:Ee; [|told].
  apply eqb_errno in Ee. subst. cbn. apply fair_snoc; [fine|]. intros e H. inversion H; subst. apply Hp.
Qed.
Definition p_gone : Prop := forall x d, P x d ENOENT.
Lemma tells_remove_loop : forall cf rec n, (forall p l, tells l (rec p)) -> forall k it ec count l l1, fair l ec l1 -> traced l1 (remove_loop cf rec n k it ec count) (fun r l2 => fair l (snd r) l2) (thrown l).
Proof.
  intros cf rec n Hrec. induction k as [|k IH]; intros it ec count l l1 F; [exact Logic.I|]. cbn [remove_loop]. destruct ec as [e|]; [exact F|]. cbn [failed orb]. destruct it as [st|]; [|exact F]. cbn [is_end].
  apply traced_bind. apply traced_unwinding; [intros; apply calm_destroy|]. cbn [dir_iter_deref pbind].
  assert (Ht : forall oe l2, thrown l oe l2 -> traced l2 (dir_iter_destroy (Some st)) (fun _ l3 => thrown l oe l3) (thrown l)).
  { intros oe l2 [H1 H2]. eapply traced_weaken; [| |apply tells_destroy; exact H2]; [split; auto|intros ? ? []]. }
  eapply traced_weaken; [|exact Ht|apply (tells_after _ l); [exact F|apply Hrec]]. intros [c [e|]] l2 H; cbn [snd fst failed] in *.
  - apply traced_bind. eapply traced_weaken; [| |apply tells_destroy; exact H]; [cbn; auto|intros ? ? []].
  - apply traced_bind. eapply traced_weaken; [| |apply traced_increment; discriminate]; [|intros ? ? []]. intros [it2 ec2] l3 [H1 H2]. cbn [fst snd] in *. apply IH. eapply fair_trans; eauto.
Qed.
Lemma tells_do_remove_all : p_gone -> forall cf n p l, tells l (do_remove_all_impl cf n p).
Proof.
  intros Hp cf. induction n as [|n IH]; intros p l; [exact Logic.I|]. unfold tells. cbn [do_remove_all_impl]. unfold symlink_status_impl. apply traced_bind. apply traced_bind. apply traced_lstatus.
  2:{ intros s e. cbn. apply fair_told; [fine|reflexivity]. }
  intros s st. cbn [traced fst snd failed]. assert (F : fair l None (l ++ [Deed s (c_lstat (native p)) (Val st)])) by fine. apply traced_bind.
  assert (Hgo : forall (c : Z * ecode) l3, fair l (snd c) l3 -> traced l3 (if failed (snd c) then Ret (u64_max, snd c) else let! r := remove_impl true p in if fst r then Ret (fst c, None) else Ret (u64_max, snd r))
    (fun r l2 => fair l (snd r) l2) (thrown l)).
  { intros [c [e|]] l3 F3; cbn [fst snd failed] in *; [exact F3|]. apply traced_bind. unfold remove_impl. destruct (empty p); [exact F3|]. cbn [traced]. intros s2 [e|[]]; [|cbn; fine].
    destruct (errno_eqb e ENOENT) eqn:Ee.
    - apply eqb_errno in Ee. subst. cbn. apply fair_snoc; auto. intros e H. inversion H; subst. apply Hp.
    - cbn. apply fair_told; auto. }
  destruct (st_is_directory _); [|apply (Hgo (_, _)); exact F]. apply traced_bind. eapply traced_weaken; [|intros e l3 H; exact H|apply (tells_after _ l); [exact F|apply tells_ctor]].
  intros [it ec] l3 F3. cbn [fst snd] in *. eapply traced_weaken; [|intros e l4 H; exact H|apply tells_remove_loop; [exact IH|exact F3]]. exact Hgo.
Qed.
Lemma tells_remove_all : p_gone -> strict = true -> forall cf n has p l, tells l (remove_all_impl cf n has p).
Proof.
  intros Hp Hs cf n has p l. unfold tells, remove_all_impl. destruct (empty p); [cbn; fine|]. apply traced_bind. eapply traced_weaken; [|intros e l1 H; exact H|apply tells_do_remove_all; auto].
  intros [c [e|]] l1 F; cbn [fst snd] in *; [|exact F]. destruct (errno_eqb e ENOENT) eqn:Ee; [|apply tells_report; exact F]. apply eqb_errno in Ee. subst. cbn. eapply fair_pass; eauto.
Qed.

(** ** The others *)
Lemma tells_absolute : forall cf has p l, traced l (do_absolute_impl cf has p) (fun r l1 => fair l (snd r) l1) (thrown l).
Proof.
  intros cf has p l. unfold do_absolute_impl. destruct (is_absolute Posix (cf_el cf) p); [cbn; fine|]. apply traced_bind. eapply traced_weaken; [|intros e l1 H; exact H|apply tells_current_path].
  intros [cwd [e|]] l1 F; cbn [snd failed] in *; [exact F|]. apply traced_bind. apply traced_lift. intros q. exact F.
Qed.
Lemma tells_canonical : strict = false -> forall cf has p l, tells l (canonical_impl cf has p).
Proof.
  intros Hs cf has p l. unfold tells, canonical_impl. apply traced_bind. eapply traced_weaken; [|intros e l1 H; exact H|apply tells_absolute]. intros [[q cwd] ec] l1 F. cbn [snd] in F. cbn [traced]. intros s [e|t].
  - apply tells_report. apply fair_loose; auto. eapply fair_grew; eauto.
  - cbn. apply fair_any; auto.
Qed.
Lemma tells_is_empty : forall cf n has p l, own ENOTSUP -> tells l (is_empty_impl cf n has p).
Proof.
  intros cf n has p l Ho. unfold tells, is_empty_impl. apply traced_bind. apply traced_status.
  - intros s st. cbn iota. cbn [failed]. destruct (negb (st_is_directory _) && negb (st_is_regular_file _)); [told|]. destruct (st_is_directory _); [|cbn; fine].
    unfold is_empty_directory. apply traced_bind. eapply traced_weaken; [|intros e l1 H; exact H|apply (tells_after _ l); [fine|apply tells_ctor]].
    intros [it [e|]] l1 F; cbn [snd fst failed] in *; [exact F|]. apply traced_bind. eapply traced_weaken; [| |apply tells_destroy; exact F]; [cbn; auto|intros ? ? []].
  - intros s e. cbn iota. cbn [failed]. told.
Qed.
End Told.

Lemma pardoned_mono : forall S o (a l b : list (deed S)) d e, pardoned o l d e -> pardoned o (a ++ l ++ b) d e.
Proof.
  intros S o a l b d e. assert (Hd : forall t, then_directory l d t -> then_directory (a ++ l ++ b) d t).
  { intros t (x & y & s & st & -> & H1 & H2). exists (a ++ x), (y ++ b), s, st. split; [|split; [apply in_or_app; auto|auto]]. rewrite <- !app_assoc. reflexivity. }
  destruct o; cbn; auto. destruct (asked d); auto; intros [H|H]; auto.
Qed.

Lemma tells_perform : forall S cf n has o, traced (S := S) [] (perform cf n has o) (fair (pardoned o) (own_code o) (stops o) []) (thrown (pardoned o) (own_code o) (stops o) []).
Proof.
  intros S cf n has o. pose proof (@pardoned_mono S o) as Hmono.
  assert (Hcode : forall A (p : prog (A * ecode)), tells (S := S) (pardoned o) (own_code o) (stops o) [] p ->
    traced (S := S) [] (let! r := p in Ret (snd r)) (fair (pardoned o) (own_code o) (stops o) []) (thrown (pardoned o) (own_code o) (stops o) [])).
  { intros A p H. apply traced_bind. exact H. }
  destruct o; cbn [perform]; apply Hcode; clear Hcode;
    try solve [unfold tells; cbn [traced create_directory_symlink_impl rename_impl resize_file_impl set_current_path_impl]; intros s r; apply (tells_simple _ _ Hmono _ [] []); [apply fair_nil|destruct r; reflexivity]].
  - apply tells_mkdir; auto. intros s t m. reflexivity.
  - apply tells_mkdir_like; auto; [intros s t m|]; reflexivity.
  - apply tells_create_directories; auto.
    + intros s t m. left. reflexivity.
    + intros s t e H. left. exact H.
    + intros a s0 c r e b s t st Hc H1 H2. assert (Ht : then_directory (a ++ Deed s0 c r :: b) (Deed s0 c r) t) by (exists a, b, s, st; auto). destruct Hc as [->|(m & ->)]; right; exact Ht.
    + intros H. cbn. split; auto. unfold empty in H. fold (native p) in H. destruct (native p); [auto|discriminate H].
  - apply tells_copy_symlink; auto.
  - apply tells_copy_file; auto.
    + intros s t e H. exact H.
    + intros s a b k e. exact Logic.I.
    + repeat split; cbn; auto.
  - apply tells_copy; auto.
    + intros s t m. reflexivity.
    + intros s t e H. exact H.
    + intros s t e H. exact H.
    + intros s a b k e. exact Logic.I.
    + intros s d e. exact Logic.I.
    + repeat split; cbn; auto 8.
  - apply tells_remove; auto. intros s t. reflexivity.
  - apply tells_remove_all; auto. intros x d. reflexivity.
  - (* permissions *) unfold tells, permissions_impl. apply traced_bind. apply traced_assert.
    assert (Hfin : forall q b l1, fair (pardoned (o_permissions p prms options)) (own_code (o_permissions p prms options)) true [] None l1 ->
      traced (S := S) l1 (Sys (c_fchmodat (native p) q b) (fun r => simple has [p] r)) (fun r l2 => fair (pardoned (o_permissions p prms options)) (own_code (o_permissions p prms options)) true [] (snd r) l2)
       (thrown (pardoned (o_permissions p prms options)) (own_code (o_permissions p prms options)) true [])).
    { intros q b l1 F. cbn [traced]. intros s r. apply tells_simple; auto; destruct r; reflexivity. }
    destruct (negb (negb (has_popt po_nofollow options)) || (has_popt po_add options || has_popt po_remove options)); [|apply Hfin; apply fair_nil].
    apply traced_bind. destruct (negb (has_popt po_nofollow options)); unfold status_impl, symlink_status_impl; apply traced_bind; [apply traced_status|apply traced_lstatus]; intros s e; cbn [traced fst snd]; cbn iota; cbn [failed];
      try (apply tells_report; apply fair_told; auto; apply fair_nil); apply traced_bind; apply traced_assert; apply Hfin; apply fair_any; auto; apply fair_nil.
  - (* last_write_time *) unfold tells, set_last_write_time_impl. apply traced_bind. apply traced_lift. intros [ts|]; [|apply tells_report; apply fair_own; auto; [apply fair_nil|reflexivity]].
    cbn [traced]. intros s r. apply (tells_simple _ _ Hmono _ [] []); [apply fair_nil|destruct r; reflexivity].
  - apply tells_current_path; auto.
  - unfold tells, absolute_impl. apply traced_bind. eapply traced_weaken; [|intros e l1 H; exact H|apply tells_absolute; auto]. intros [[q c] e] l1 H. exact H.
  - apply tells_canonical; auto.
  - apply tells_read_symlink; auto.
  - (* equivalent *) unfold tells, equivalent_impl. assert (Ho : forall l1 : list (deed S), grew [] l1 -> fair (pardoned (o_equivalent p q)) (own_code (o_equivalent p q)) false [] (Some ENOTSUP) l1).
    { intros l1 (x & ->). exists x. split; auto. split; [intros [H|H]; discriminate|]. intros e H. inversion H; subst. left. reflexivity. }
    apply traced_bind. apply traced_status; intros s e; cbn [fst snd]; [rewrite exists_mode; cbn [negb]|destruct (errno_eqb e ENOENT || errno_eqb e ENOTDIR); cbn; apply tells_report; apply Ho; exists [Deed s (c_stat (native (topath (native p)))) (Err e)]; reflexivity].
    apply traced_bind. apply traced_status; intros s2 e2; cbn [fst snd].
    + rewrite exists_mode. cbn [negb traced snd]. apply fair_any; auto. apply (fair_any _ _ Hmono _ [] []); auto. apply fair_nil.
    + destruct (errno_eqb e2 ENOENT || errno_eqb e2 ENOTDIR); cbn; apply tells_report; apply Ho; eexists; reflexivity.
  - (* file_size *) unfold tells, file_size_impl. apply traced_bind. apply traced_status; intros s e; cbn iota; cbn [failed].
    + destruct (negb (st_exists _) || negb (st_is_regular_file _)); [|cbn; apply (fair_any _ _ Hmono _ [] []); auto; apply fair_nil].
      apply tells_report. apply fair_own; auto; [apply (fair_any _ _ Hmono _ [] []); auto; apply fair_nil|]. destruct (st_is_directory _); cbn; auto.
    + destruct (errno_eqb e ENOENT || errno_eqb e ENOTDIR); cbn [status_of_type st_exists]; apply tells_report; apply (fair_told _ _ Hmono _ [] []); auto; apply fair_nil.
  - (* hard_link_count *) unfold tells, hard_link_count_impl. apply traced_bind. apply traced_status; intros s e; cbn [snd fst failed].
    + cbn. apply (fair_any _ _ Hmono _ [] []); auto; apply fair_nil.
    + apply tells_report; apply (fair_told _ _ Hmono _ [] []); auto; apply fair_nil.
  - (* last_write_time *) unfold tells, last_write_time_impl. apply traced_bind. apply traced_status; intros s e; cbn [snd fst failed].
    + unfold ExtractLastWriteTime. apply traced_bind. apply traced_lift. intros [v|].
      * cbn. apply (fair_any _ _ Hmono _ [] []); auto; apply fair_nil.
      * apply tells_report. apply fair_own; auto; [|reflexivity]. apply (fair_any _ _ Hmono _ [] []); auto; apply fair_nil.
    + apply tells_report; apply (fair_told _ _ Hmono _ [] []); auto; apply fair_nil.
  - apply tells_is_empty; auto. reflexivity.
  - (* space *) unfold tells, space_impl. cbn [traced]. intros s [e|v].
    + apply tells_report; apply (fair_told _ _ Hmono _ [] []); auto; apply fair_nil.
    + cbn. apply (fair_any _ _ Hmono _ [] []); auto; apply fair_nil.
  - (* temp_directory_path *) unfold tells, temp_directory_path_impl. apply traced_bind.
    assert (Henv : forall names (l1 : list (deed S)) (Q : option str -> list (deed S) -> Prop), fair (pardoned o_temp_directory_path) (own_code o_temp_directory_path) false [] None l1 ->
      (forall v l2, fair (pardoned o_temp_directory_path) (own_code o_temp_directory_path) false [] None l2 -> Q v l2) -> traced l1 (first_env names) Q (thrown (pardoned o_temp_directory_path) (own_code o_temp_directory_path) false [])).
    { induction names as [|x r IH]; intros l1 Q F HQ; cbn [first_env traced]; auto. intros s [v|]; cbn [traced].
      - apply HQ. apply fair_any; auto.
      - apply IH; auto. apply fair_any; auto. }
    apply Henv; [apply fair_nil|]. clear Henv. intros v l2 F. apply traced_bind. unfold status_impl. apply traced_bind. apply traced_status; intros s e; cbn [traced fst snd].
    + rewrite known_mode, exists_mode. cbn [negb orb]. destruct (negb (st_is_directory _)).
      * apply tells_report. apply fair_own; auto; [|reflexivity]. apply fair_any; auto.
      * cbn. apply fair_any; auto.
    + destruct (errno_eqb e ENOENT || errno_eqb e ENOTDIR); cbn; apply tells_report.
      * apply fair_late; auto. apply fair_own; auto. reflexivity.
      * apply fair_told; auto.
  - (* status *) unfold tells, status_impl, GetFileStatus. apply traced_bind. cbn [traced]. intros s [e|st]; [|cbn; apply (fair_any _ _ Hmono _ [] []); auto; apply fair_nil].
    cbn [CreateFileStatus]. destruct (errno_eqb e ENOENT || errno_eqb e ENOTDIR) eqn:Ee; [|destruct has; cbn; [|split; [discriminate|]]; apply (fair_told _ _ Hmono _ [] []); auto; apply fair_nil].
    apply eqb_absent in Ee. destruct has; cbn; [apply (fair_told _ _ Hmono _ [] []); auto; apply fair_nil|]. apply (fair_snoc _ _ Hmono _ [] []); [apply fair_nil|]. intros e' H. inversion H; subst. exact Ee.
  - (* symlink_status *) unfold tells, symlink_status_impl, GetLinkStatus. apply traced_bind. cbn [traced]. intros s [e|st]; [|cbn; apply (fair_any _ _ Hmono _ [] []); auto; apply fair_nil].
    cbn [CreateFileStatus]. destruct (errno_eqb e ENOENT || errno_eqb e ENOTDIR) eqn:Ee; [|destruct has; cbn; [|split; [discriminate|]]; apply (fair_told _ _ Hmono _ [] []); auto; apply fair_nil].
    apply eqb_absent in Ee. destruct has; cbn; [apply (fair_told _ _ Hmono _ [] []); auto; apply fair_nil|]. apply (fair_snoc _ _ Hmono _ [] []); [apply fair_nil|]. intros e' H. inversion H; subst. exact Ee.
  - (* exists *) unfold tells, exists_, status_impl, GetFileStatus. apply traced_bind. apply traced_bind. cbn [traced]. intros s [e|st].
    2:{ cbn. destruct (has && _); apply (fair_any _ _ Hmono _ [] []); auto; apply fair_nil. }
    cbn [CreateFileStatus]. destruct (errno_eqb e ENOENT || errno_eqb e ENOTDIR) eqn:Ee; [|destruct has; cbn; [|split; [discriminate|]]; apply (fair_told _ _ Hmono _ [] []); auto; apply fair_nil].
    apply eqb_absent in Ee. destruct has; cbn; apply (fair_snoc _ _ Hmono _ [] []); try apply fair_nil; intros e' H; inversion H; subst; exact Ee.
Qed.

(** * C105 *)

(** Whatever the system answers: an operation that reports no failure was refused nothing but what is pardoned. *)
Theorem C105_told : forall S (h : kernel S) cf n has o s s1 l, run (chronicled h) (perform cf n has o) (s, []) = Done None (s1, l) ->
  forall d e, In d l -> refusal d = Some e -> pardoned o l d e.
Proof.
  intros S h cf n has o s s1 l R d e Hd He. pose proof (traced_run _ _ h s [] _ _ (tells_perform S cf n has o)) as H. rewrite R in H. destruct H as (x & -> & H & _).
  destruct (H (or_intror eq_refl) d e Hd He); [discriminate|auto].
Qed.

(** The code reported, or thrown, is one with which the system refused a call, or one of the library's own for this operation; and no exception is without a code. *)
Theorem C105_code : forall S (h : kernel S) cf n has o s s1 l oe ps, run (chronicled h) (perform cf n has o) (s, []) = Done oe (s1, l) /\ oe <> None \/ run (chronicled h) (perform cf n has o) (s, []) = Failed (FThrow oe ps) (s1, l) ->
  exists e, oe = Some e /\ (own_code o e \/ exists d, In d l /\ refusal d = Some e).
Proof.
  intros S h cf n has o s s1 l oe ps R. pose proof (traced_run _ _ h s [] _ _ (tells_perform S cf n has o)) as H.
  assert (F : oe <> None /\ fair (pardoned o) (own_code o) (stops o) [] oe l) by (destruct R as [[R Hn]|R]; rewrite R in H; [auto|exact H]).
  destruct F as [Hn (x & -> & _ & F)]. destruct oe as [e|]; [|congruence]. exists e. auto.
Qed.

(** The operations that stop at the first failure were refused nothing else before. *)
Theorem C105_first : forall S (h : kernel S) cf n has o s s1 l e ps, stops o = true -> run (chronicled h) (perform cf n has o) (s, []) = Done (Some e) (s1, l) \/ run (chronicled h) (perform cf n has o) (s, []) = Failed (FThrow (Some e) ps) (s1, l) ->
  forall d e', In d l -> refusal d = Some e' -> e' = e \/ pardoned o l d e'.
Proof.
  intros S h cf n has o s s1 l e ps Hs R d e' Hd He. pose proof (traced_run _ _ h s [] _ _ (tells_perform S cf n has o)) as H.
  assert (F : fair (pardoned o) (own_code o) (stops o) [] (Some e) l) by (destruct R as [R|R]; rewrite R in H; [exact H|apply H]).
  destruct F as (x & -> & F & _). destruct (F (or_introl Hs) d e' Hd He) as [H1|H1]; [left; congruence|auto].
Qed.

(** A case: /a is copied to /c, of which the system says before that it is not there; the copy succeeds. *)
Example C105_told_example :
  match run (chronicled (fsk demo_choices)) (perform plain_config 20 true (o_copy (topath (lit "/a")) (topath (lit "/c")) (N.lor (copt_value co_recursive) (copt_value co_copy_symlinks)))) (demo, []) with
  | Done None (_, l) =>
      existsb (fun d => match d with Deed _ (c_stat t) (Err ENOENT) => str_eqb t (lit "/c/d") | _ => false end) l &&
      existsb (fun d => match d with Deed _ (c_mkdir t _) (Val _) => str_eqb t (lit "/c/d") | _ => false end) l
  | _ => false
  end = true.
Proof. vm_compute. reflexivity. Qed.

(** A case: a directory with something in it is not removed, and the code says why. *)
Example C105_code_example :
  match run (chronicled (fsk demo_choices)) (perform plain_config 20 true (o_remove (topath (lit "/a")))) (demo, []), run (chronicled (fsk demo_choices)) (perform plain_config 20 false (o_remove (topath (lit "/a")))) (demo, []) with
  | Done (Some ENOTEMPTY) (_, [d]), Failed (FThrow (Some ENOTEMPTY) _) (_, [d']) =>
      match refusal d, refusal d' with Some ENOTEMPTY, Some ENOTEMPTY => true | _, _ => false end
  | _, _ => false
  end = true.
Proof. vm_compute. reflexivity. Qed.

(** A case: during a copy of /a to /c another process removes /a/f at some moment, for one of the moments tried the copy fails with the code of a refused call. *)
Example C105_first_example :
  stops (o_copy (topath (lit "/a")) (topath (lit "/c")) (copt_value co_recursive)) = true /\
  existsb (fun i =>
    match run (chronicled (interfered demo_choices)) (perform plain_config 20 true (o_copy (topath (lit "/a")) (topath (lit "/c")) (copt_value co_recursive)))
      ((demo, repeat (fun u => u) i ++ [other_removes demo_choices (lit "/a/f")]), []) with
    | Done (Some e) (_, l) => (2 <? length l) && existsb (fun d => match refusal d with Some e' => errno_eqb e e' | None => false end) l
    | _ => false
    end) (seq 1 15) = true.
Proof. split; vm_compute; reflexivity. Qed.

Print Assumptions C105_told.
Print Assumptions C105_code.
Print Assumptions C105_first.
