(** C108: an operation that fails has changed nothing, and an operation changes something at one moment only. *)
From Coq Require Import Ascii String Bool Arith NArith ZArith Lia.
From Verif Require Import Str PathModel PathSpec StrProofs PathProofs PathOps PathOps2 PathReach PathLaws
  FlagsModel TimeModel Prog DirModel OpsModel OpsProps FS FSProofs FSSpec FSOps FSPlace FSProps IterProps FSIter FSRemove RaceProps RaceCopy Chronicle Told FSKeep.
From Coq Require Import List.
Import ListNotations.

(** * Specification *)

(** A call that changed something: one of those that can, and it was not refused. Opening a file only to read it changes nothing. *)
Definition can_change (c : call) : Prop :=
  match c with
  | c_mkdir _ _ | c_symlink _ _ | c_link _ _ | c_remove _ | c_rename _ _ | c_truncate _ _ | c_ftruncate _ _ | c_fchmod _ _ | c_fchmodat _ _ _
  | c_utimensat _ _ | c_chdir _ | c_sendfile _ _ _ | c_write _ _ => True
  | c_open _ fl _ => fl <> O_READ
  | c_stat _ | c_lstat _ | c_close _ | c_readlink _ _ | c_statvfs _ | c_getcwd _ | c_pathconf | c_realpath _ | c_getenv _ | c_read _ _
  | c_opendir _ | c_readdir _ | c_closedir _ => False
  end.
Definition changed {S} (d : deed S) : Prop := can_change (asked d) /\ refusal d = None.

(** The operations that make one change at most. The others do several things. *)
Definition single (o : operation) : Prop :=
  match o with o_create_directories _ | o_copy_file _ _ _ | o_copy _ _ _ | o_remove_all _ => False | _ => True end.

(** What was done in a run. *)
Definition done {A S} (r : outcome A (S * list (deed S))) : list (deed S) := snd (state_of r).
Definition succeeded {S} (r : outcome ecode S) : Prop := match r with Done None _ => True | _ => False end.

(** * Proof *)

Definition change (c : call) (a : answer c) : Prop := @changed unit (Deed tt c a).
Lemma change_changed : forall S (s : S) c a, changed (Deed s c a) <-> change c a.
Proof. intros. reflexivity. Qed.
Lemma change_dec : forall c a, {change c a} + {~ change c a}.
Proof.
  intros c a. assert (D : {can_change c} + {~ can_change c}) by (destruct c; cbn; auto; destruct fl; auto; (left; discriminate) || (right; congruence)).
  destruct D as [D|D]; [|right; intros [H _]; exact (D H)]. destruct (refusal (Deed tt c a)) eqn:R; [right; intros [_ H]; unfold changed in H; congruence|left; split; auto].
Qed.
Lemma asks_change : forall c a, asks c -> ~ change c a.
Proof. intros c a H [Hc _]. destruct c; cbn in *; auto. destruct fl; auto. Qed.

(** The first change ends the program, well. *)
Fixpoint ends_well {A} (good : A -> Prop) (p : prog A) : Prop :=
  match p with
  | Ret _ | Stop _ => True
  | Sys c f => forall a, (change c a -> exists v, f a = Ret v /\ good v) /\ (~ change c a -> ends_well good (f a))
  end.

Lemma well_calls : forall A (good : A -> Prop) p, calls asks p -> ends_well good p.
Proof.
  induction p as [a|e|c f IH]; cbn; auto. intros [Hc Hf] a. split; [intros H; exfalso; exact (asks_change c a Hc H)|]. intros _. apply IH, Hf.
Qed.
Lemma well_bind : forall A B (good : B -> Prop) (p : prog A) f, calls asks p -> (forall a, ends_well good (f a)) -> ends_well good (pbind p f).
Proof.
  induction p as [a|e|c k IH]; cbn; auto. intros f [Hc Hk] Hf a. split; [intros H; exfalso; exact (asks_change c a Hc H)|]. intros _. apply IH; auto.
Qed.
Lemma well_map : forall A B (g : A -> prog B) (good : A -> Prop) (good' : B -> Prop) p, (forall a, good a -> exists b, g a = Ret b /\ good' b) ->
  (forall a, exists b, g a = Ret b) -> ends_well good p -> ends_well good' (pbind p g).
Proof.
  intros A B g good good' p Hg Hr. induction p as [a|e|c k IH]; cbn; auto.
  - intros _. destruct (Hr a) as [b ->]. exact Logic.I.
  - intros H a. destruct (H a) as [H1 H2]. split; [|auto]. intros Hc. destruct (H1 Hc) as (v & -> & Hv). destruct (Hg v Hv) as (b & Hb & Hb'). exists b. auto.
Qed.

Definition fine {A} (r : A * ecode) : Prop := snd r = None.
Lemma well_report : forall A has ps (v : A) e, ends_well fine (report has ps v e).
Proof. intros. unfold report. destruct has; exact Logic.I. Qed.

(** A changing call whose answer is passed on. *)
Ltac last_call := cbn [ends_well]; intros [e|[]]; (split; [intros [_ HH]; first [discriminate HH|eexists; split; reflexivity]|intros _]); try exact Logic.I; try (apply well_report).

Lemma well_mkdir : forall has p, ends_well fine (create_directory_impl has p).
Proof. intros has p. unfold create_directory_impl. last_call. destruct (errno_eqb e EEXIST); [exact Logic.I|apply well_report]. Qed.
Lemma well_mkdir_like : forall has p q, ends_well fine (create_directory_like_impl has p q).
Proof.
  intros has p q. unfold create_directory_like_impl. apply well_bind; [apply ask_status|]. intros [[st buf] ec]. destruct (negb _); [apply well_report|]. destruct (negb _); [apply well_report|].
  last_call. destruct (errno_eqb e EEXIST); [exact Logic.I|apply well_report].
Qed.
Lemma well_symlink : forall has a b, ends_well fine (create_symlink_impl has a b).
Proof. intros. unfold create_symlink_impl. last_call. Qed.
Lemma well_copy_symlink : forall cf has a b, ends_well fine (copy_symlink_impl cf has a b).
Proof. intros. unfold copy_symlink_impl. apply well_bind; [apply ask_read_symlink|]. intros r. destruct (failed _); [apply well_report|apply well_symlink]. Qed.
Lemma well_remove : forall has p, ends_well fine (remove_impl has p).
Proof. intros. unfold remove_impl. destruct (empty p); [exact Logic.I|]. last_call. destruct (errno_eqb e ENOENT); [exact Logic.I|apply well_report]. Qed.
Lemma well_time : forall cf has p t, ends_well fine (set_last_write_time_impl cf has p t).
Proof. intros. unfold set_last_write_time_impl. apply well_bind; [apply calls_lift|]. intros [ts|]; [|apply well_report]. last_call. Qed.
Lemma well_permissions : forall cf has p prms opts, ends_well fine (permissions_impl cf has p prms opts).
Proof.
  intros. unfold permissions_impl. apply well_bind; [apply calls_assert|]. intros _. cbv zeta. destruct (_ || _).
  - apply well_bind; [destruct (negb (has_popt po_nofollow opts)); [apply ask_status_impl|apply ask_symlink_status]|]. intros [st ec]. destruct (failed ec); [apply well_report|].
    apply well_bind; [apply calls_assert|]. intros _. last_call.
  - last_call.
Qed.

Lemma well_perform : forall cf n has o, single o -> ends_well (fun e => e = None) (perform cf n has o).
Proof.
  intros cf n has o Ho. assert (M : forall A (p : prog (A * ecode)), ends_well fine p -> ends_well (fun e => e = None) (pbind p (fun r => Ret (snd r)))).
  { intros A p H. apply (well_map _ _ _ fine); auto; [|eauto]. intros a Ha. exists (snd a). split; auto. }
  destruct o; try destruct Ho; cbn [perform]; cbv zeta; apply M.
  1: apply well_mkdir. 1: apply well_mkdir_like. 1: apply well_symlink. 1-2: unfold create_directory_symlink_impl, create_hard_link_impl; last_call. 1: apply well_copy_symlink. 1: apply well_remove.
  1-2: unfold rename_impl, resize_file_impl; last_call. 1: apply well_permissions. 1: apply well_time. 1: unfold set_current_path_impl; last_call.
  all: apply well_calls.
  all: eauto using ask_current, ask_absolute, ask_canonical, ask_read_symlink, ask_equivalent, ask_file_size, ask_count, ask_space, ask_status_impl, ask_symlink_status, ask_exists, ask_is_empty, ask_time, ask_temp.
Qed.

Lemma well_run : forall A (good : A -> Prop) (p : prog A) S (h : kernel S) s l, ends_well good p ->
  exists x, done (run (chronicled h) p (s, l)) = l ++ x /\
  forall a d b, x = a ++ d :: b -> changed d -> b = [] /\ exists v st, run (chronicled h) p (s, l) = Done v st /\ good v.
Proof.
  intros A good p S h. induction p as [v|e|c f IH]; intros s l H.
  1-2: exists []; split; [cbn; symmetry; apply app_nil_r|]; intros [|q a] d b Hx; discriminate.
  cbn [run]. unfold chronicled at 1 3. destruct (h c s) as [a s1] eqn:Hh. destruct (H a) as [H1 H2]. destruct (change_dec c a) as [Hc|Hc].
  - destruct (H1 Hc) as (v & Hv & Hg). rewrite Hv. exists [Deed s c a]. split; [reflexivity|]. intros [|d0 a0] d b Hx Hd; cbn in Hx.
    { inversion Hx; subst. split; [reflexivity|]. eexists; eexists; split; [reflexivity|exact Hg]. }
    { exfalso. inversion Hx. destruct a0; discriminate. }
  - destruct (IH a s1 (l ++ [Deed s c a]) (H2 Hc)) as (x & Hx & Hlast). exists (Deed s c a :: x). split; [rewrite Hx, <- app_assoc; reflexivity|].
    intros [|d0 a0] d b Hy Hd; inversion Hy; subst.
    + exfalso. apply Hc. apply (change_changed S s c a). exact Hd.
    + eapply Hlast; eauto.
Qed.

(** A call that is refused leaves everything as it was. *)
Definition inert {A} (s : fs) (r : res A * fs) : Prop := match fst r with Err _ => snd r = s | Val _ => True end.
Ltac look_in := cbv zeta; repeat (match goal with |- inert _ (match ?x with _ => _ end) => destruct x end); first [reflexivity|exact Logic.I].
Lemma inert_call : forall k c s e, refusal (Deed s c (fst (fsk k c s))) = Some e -> asks c \/ snd (fsk k c s) = s.
Proof.
  intros k c s e H. destruct c as [p|p|p fl m|fd|p m|a b|a b|p n|p|a b|p n|fd n|fd m|p m b|p t|p|p|n| |p|x|a b n|fd n|fd d|p|d|d]; try (left; exact Logic.I); right; cbn [fsk fst snd refusal] in *.
  all: match type of H with match fst ?r with _ => _ end = _ => change (match fst r with Err e0 => Some e0 | Val _ => None end = Some e) in H; assert (I : inert s r); [|unfold inert in I; destruct (fst r); [exact I|discriminate H]] end; clear H.
  - unfold sys_open, new_fd. look_in.
  - unfold sys_mkdir. look_in.
  - unfold sys_symlink. look_in.
  - unfold sys_link. look_in.
  - unfold sys_remove. look_in.
  - unfold sys_rename. look_in.
  - unfold sys_truncate, resize_obj. look_in.
  - unfold with_fd, resize_obj. look_in.
  - unfold with_fd. look_in.
  - unfold sys_fchmodat. look_in.
  - unfold sys_utimensat. look_in.
  - unfold sys_chdir. look_in.
  - unfold sys_sendfile. look_in.
  - unfold sys_write. look_in.
Qed.
Lemma refused_same : forall k c s e, refusal (Deed s c (fst (fsk k c s))) = Some e -> same_files s (snd (fsk k c s)).
Proof. intros k c s e H. destruct (inert_call k c s e H) as [H1|H1]; [apply asks_same, H1|rewrite H1; apply same_files_refl]. Qed.
Lemma unchanged_same : forall k c s, ~ changed (Deed s c (fst (fsk k c s))) -> same_files s (snd (fsk k c s)).
Proof.
  intros k c s H. destruct (refusal (Deed s c (fst (fsk k c s)))) as [e|] eqn:R; [eapply refused_same; eauto|]. apply asks_same.
  destruct c; cbn; auto; try (exfalso; apply H; split; [exact Logic.I|exact R]). destruct fl; auto; exfalso; apply H; (split; [discriminate|exact R]).
Qed.
Lemma run_grows : forall A (p : prog A) k s l, exists y, done (run (chronicled (fsk k)) p (s, l)) = l ++ y.
Proof.
  intros A p k. induction p as [v|e|c f IH]; intros s l; [exists []; symmetry; apply app_nil_r..|].
  cbn [run]. unfold chronicled at 1. destruct (fsk k c s) as [a s1]. destruct (IH a s1 (l ++ [Deed s c a])) as [y Hy]. exists (Deed s c a :: y). rewrite Hy, <- app_assoc. reflexivity.
Qed.
Lemma run_same : forall A (p : prog A) k s l x, done (run (chronicled (fsk k)) p (s, l)) = l ++ x -> (forall d, In d x -> ~ changed d) -> same_files s (state_of (run (fsk k) p s)).
Proof.
  intros A p k. induction p as [v|e|c f IH]; intros s l x Hx Hn; try apply same_files_refl. cbn [run] in *. unfold chronicled at 1 in Hx. destruct (fsk k c s) as [a s1] eqn:Hc.
  destruct (run_grows A (f a) k s1 (l ++ [Deed s c a])) as [y Hy].
  rewrite Hy, <- app_assoc in Hx. apply app_inv_head in Hx. subst x. pose proof (unchanged_same k c s) as H1. rewrite Hc in H1. cbn [fst snd] in H1.
  eapply same_files_trans; [apply H1, Hn; left; reflexivity|]. eapply IH; [exact Hy|]. intros d Hd. apply Hn. right. exact Hd.
Qed.

(** * C108 *)

(** On any system, and however the operation ends: if a call changed something it was the last one, and the operation succeeds. So nothing was changed by an
    operation that failed, and at no moment is a change half done. *)
Theorem C108_single : forall S (h : kernel S) cf n has o s, single o -> let r := run (chronicled h) (perform cf n has o) (s, []) in
  forall a d b, done r = a ++ d :: b -> changed d -> b = [] /\ succeeded r.
Proof.
  intros S h cf n has o s Ho r a d b Hd Hc. destruct (well_run _ _ _ S h s [] (well_perform cf n has o Ho)) as (x & Hx & Hl). pose proof (eq_trans (eq_sym Hx) Hd) as Hd2. cbn [app] in Hd2. change (run (chronicled h) (perform cf n has o) (s, [])) with r in Hl.
  destruct (Hl a d b Hd2 Hc) as (Hb & v & st & Hr & Hv). split; auto. rewrite Hr, Hv. exact Logic.I.
Qed.

(** On the file system: an operation that gives a code, throws or fails an assertion leaves every file, name and attribute, and the current directory, as it was. *)
Theorem C108_files : forall k cf n has o s, single o -> let r := run (fsk k) (perform cf n has o) s in succeeded r \/ same_files s (state_of r).
Proof.
  intros k cf n has o s Ho r. set (rc := run (chronicled (fsk k)) (perform cf n has o) (s, [])).
  assert (Hs : succeeded rc -> succeeded r).
  { unfold rc, r. clear. generalize (perform cf n has o). intros p. generalize (@nil (deed fs)). revert s. induction p as [v|e|c f IH]; intros s l; cbn [run]; auto. unfold chronicled at 1. destruct (fsk k c s) as [a s1]. apply IH. }
  destruct (well_run _ _ _ fs (fsk k) s [] (well_perform cf n has o Ho)) as (x & Hx & _).
  assert (D : (exists d, In d x /\ changed d) \/ forall d, In d x -> ~ changed d).
  { clear. induction x as [|[s c a] x [(d & H1 & H2)|H]]; [right; intros d []|left; exists d; split; [right|]; auto|]. destruct (change_dec c a) as [Hc|Hc].
    - left. exists (Deed s c a). split; [left; auto|exact Hc].
    - right. intros d [<-|Hd]; auto. }
  destruct D as [(d & Hi & Hc)|D].
  - left. apply Hs. apply in_split in Hi as (a & b & ->). eapply C108_single; eauto.
  - right. eapply run_same; [exact Hx|exact D].
Qed.

(** The run failed although something had been changed. *)
Definition halfway {S} (r : outcome ecode (S * list (deed S))) : Prop := ~ succeeded r /\ exists d, In d (done r) /\ changed d.
(** A disk without room. *)
Definition full (k : choices) : kernel fs := fun c s => match c return answer c * fs with c_write _ _ | c_sendfile _ _ _ => (Err (EOther 28), s) | c => fsk k c s end.

(** The other operations stop half way: create_directories("/q/../a/f/z"), where /a/f is a file, leaves the directory /q; remove_all("/") fails after having removed all there was;
    copy_file to a full disk leaves an empty file. *)
Theorem C108_several_refuted :
  halfway (run (chronicled (fsk demo_choices)) (perform plain_config 20 true (o_create_directories (topath (lit "/q/../a/f/z")))) (demo, [])) /\
  halfway (run (chronicled (fsk demo_choices)) (perform plain_config 40 true (o_remove_all (topath (lit "/")))) (demo, [])) /\
  halfway (run (chronicled (full demo_choices)) (perform plain_config 20 true (o_copy_file (topath (lit "/a/f")) (topath (lit "/n")) 0)) (demo, [])) /\
  (let s := fst (state_of (run (chronicled (full demo_choices)) (perform plain_config 20 true (o_copy_file (topath (lit "/a/f")) (topath (lit "/n")) 0)) (demo, []))) in
   get (f_root demo) [lit "n"] = None /\ get (f_root s) [lit "n"] = Some (Leaf 10) /\ f_body s 10 = BReg []).
Proof.
  assert (P : forall S (r : outcome ecode (S * list (deed S))) m, ~ succeeded r -> (exists d, nth_error (done r) m = Some d /\ changed d) -> halfway r).
  { intros S r m H1 (d & H2 & H3). split; auto. exists d. split; auto. eapply nth_error_In. exact H2. }
  split; [|split; [|split]].
  - apply (P _ _ 1%nat); [intros H; vm_compute in H; exact H|]. eexists. split; [vm_compute; reflexivity|]. split; [exact Logic.I|reflexivity].
  - apply (P _ _ 11%nat); [intros H; vm_compute in H; exact H|]. eexists. split; [vm_compute; reflexivity|]. split; [exact Logic.I|reflexivity].
  - apply (P _ _ 3%nat); [intros H; vm_compute in H; exact H|]. eexists. split; [vm_compute; reflexivity|]. split; [discriminate|reflexivity].
  - vm_compute. repeat split.
Qed.

(** A file is renamed: the one change is the last call. Renaming onto a directory fails and changes nothing; so does adding permissions to a file that is not there. *)
Example C108_example :
  let go has o := run (chronicled (fsk demo_choices)) (perform plain_config 20 has o) (demo, []) in
  let move := go true (o_rename (topath (lit "/a/f")) (topath (lit "/n"))) in
  let onto := go false (o_rename (topath (lit "/a/f")) (topath (lit "/b"))) in
  let perms := go true (o_permissions (topath (lit "/x")) 511 (popt_value po_add)) in
  succeeded move /\ map (fun d => refusal d) (done move) = [None] /\ get (f_root (fst (state_of move))) [lit "n"] = Some (Leaf 3) /\
  ~ succeeded onto /\ map (fun d => refusal d) (done onto) = [Some EISDIR] /\ f_root (fst (state_of onto)) = f_root demo /\
  ~ succeeded perms /\ map (fun d => refusal d) (done perms) = [Some ENOENT].
Proof. cbv zeta. repeat split; try (intros H; vm_compute in H; exact H); vm_compute; auto. Qed.

Print Assumptions C108_single.
Print Assumptions C108_files.
Print Assumptions C108_several_refuted.
