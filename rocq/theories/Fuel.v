(** The bound [n] carried by the programs with loops only says how long to follow them: with a larger bound the same
    calls are made and the same result is given, unless the smaller one was used up. *)
From Coq Require Import Ascii String Bool Arith NArith ZArith Lia List.
From Verif Require Import Str PathModel FlagsModel TimeModel Prog DirModel OpsModel.
Import ListNotations.

(** [p] is [q] followed up to some points, where it stops with [FFuel]. *)
Inductive approx {A} : prog A -> prog A -> Prop :=
| ap_fuel q : approx (Stop FFuel) q
| ap_ret a : approx (Ret a) (Ret a)
| ap_stop f : approx (Stop f) (Stop f)
| ap_sys c f g : (forall a, approx (f a) (g a)) -> approx (Sys c f) (Sys c g).

Lemma ap_refl : forall A (p : prog A), approx p p.
Proof. induction p; constructor; auto. Qed.

Lemma ap_bind : forall A B (p q : prog A) (f g : A -> prog B), approx p q -> (forall a, approx (f a) (g a)) -> approx (pbind p f) (pbind q g).
Proof.
  intros A B p q f g H Hf. induction H as [q|a|x|c u v H IH]; cbn [pbind]; try constructor; auto.
Qed.

Lemma ap_scoped : forall A (p q : prog A) c, approx p q -> approx (scoped p c) (scoped q c).
Proof.
  intros A p q c H. induction H as [q|a|x|d u v H IH]; cbn [scoped]; try apply ap_refl; constructor; auto.
Qed.

Lemma ap_unwinding : forall A (p q : prog A) c, approx p q -> approx (unwinding p c) (unwinding q c).
Proof.
  intros A p q c H. induction H as [q|a|x|d u v H IH]; cbn [unwinding]; try apply ap_refl; constructor; auto.
Qed.

(** What it means for runs. *)
Lemma run_approx : forall A (p q : prog A), approx p q -> forall S (h : kernel S) s,
  (exists s', run h p s = Failed FFuel s') \/ run h p s = run h q s.
Proof.
  intros A p q H S h. induction H as [q|a|x|c u v H IH]; intros s; cbn [run]; eauto.
  destruct (h c s) as [r s1]. apply IH.
Qed.

Ltac ap1 := first [apply ap_refl | match goal with
  | |- approx (pbind _ _) (pbind _ _) => apply ap_bind; [|intros ?]
  | |- approx (Sys _ _) (Sys _ _) => apply ap_sys; intros ?
  | |- approx (scoped _ _) (scoped _ _) => apply ap_scoped
  | |- approx (unwinding _ _) (unwinding _ _) => apply ap_unwinding
  | |- approx (match ?x with _ => _ end) _ => destruct x
  | |- approx (let '(_, _) := ?x in _) _ => destruct x
  | |- approx (if ?x then _ else _) _ => destruct x
  end].
Ltac aps := repeat ap1.

Section Fuel.
Variable cf : config.

Lemma ap_advance : forall n m s, n <= m -> approx (advance cf n s) (advance cf m s).
Proof.
  induction n as [|n IH]; intros m s H; [constructor|]. destruct m as [|m]; [lia|]. cbn [advance].
  assert (Hn : forall s, approx (advance cf n s) (advance cf m s)) by (intros; apply IH; lia). aps. apply Hn.
Qed.

Lemma ap_stream_ctor : forall n m p o, n <= m -> approx (stream_ctor cf n p o) (stream_ctor cf m p o).
Proof. intros. unfold stream_ctor. aps. apply ap_advance; auto. Qed.
Lemma ap_dir_iter_ctor : forall n m has p o, n <= m -> approx (dir_iter_ctor cf n has p o) (dir_iter_ctor cf m has p o).
Proof. intros. unfold dir_iter_ctor. apply ap_bind; [apply ap_stream_ctor; auto|]. intros; apply ap_refl. Qed.
Lemma ap_dir_iter_increment : forall n m has it, n <= m -> approx (dir_iter_increment cf n has it) (dir_iter_increment cf m has it).
Proof. intros. unfold dir_iter_increment. destruct it; [|apply ap_refl]. apply ap_bind; [apply ap_advance; auto|]. intros; apply ap_refl. Qed.

Lemma ap_advance_stack : forall st n m, n <= m -> approx (advance_stack cf n st) (advance_stack cf m st).
Proof.
  induction st as [|s st IH]; intros n m H; cbn [advance_stack]; [constructor|]. apply ap_bind; [apply ap_advance; auto|].
  intros [[ok e] s1]. destruct ok; [constructor|]. destruct (failed e); [constructor|]. apply IH; auto.
Qed.
Lemma ap_rdir_ctor : forall n m has p o, n <= m -> approx (rdir_ctor cf n has p o) (rdir_ctor cf m has p o).
Proof. intros. unfold rdir_ctor. apply ap_bind; [apply ap_stream_ctor; auto|]. intros; apply ap_refl. Qed.
Lemma ap_rdir_advance : forall n m has it, n <= m -> approx (rdir_advance cf n has it) (rdir_advance cf m has it).
Proof.
  intros. unfold rdir_advance. destruct (r_impl it) as [[st o]|]; [|apply ap_refl]. apply ap_bind; [apply ap_advance_stack; auto|]. intros; apply ap_refl.
Qed.
Lemma ap_rdir_pop : forall n m has it, n <= m -> approx (rdir_pop cf n has it) (rdir_pop cf m has it).
Proof.
  intros. unfold rdir_pop. destruct (r_impl it) as [[[|s st] o]|]; try apply ap_refl. apply ap_bind; [apply ap_refl|]. intros _.
  destruct (is_nil st); [apply ap_refl|]. apply ap_rdir_advance; auto.
Qed.
Lemma ap_rdir_try : forall n m has it, n <= m -> approx (rdir_try cf n has it) (rdir_try cf m has it).
Proof.
  intros. unfold rdir_try. destruct (r_impl it) as [[[|s st] o]|]; try apply ap_refl. apply ap_bind; [apply ap_refl|]. intros [[t e] e1].
  cbv zeta. apply ap_bind; [|intros; apply ap_refl]. match goal with |- approx (if ?b then _ else _) _ => destruct b end; [apply ap_refl|].
  apply ap_bind; [apply ap_stream_ctor; auto|]. intros; apply ap_refl.
Qed.
Lemma ap_rdir_increment : forall n m has it, n <= m -> approx (rdir_increment cf n has it) (rdir_increment cf m has it).
Proof.
  intros. unfold rdir_increment. apply ap_bind; [destruct (r_recursion it); [apply ap_rdir_try; auto|apply ap_refl]|].
  intros [[b e] it1]. destruct (b || failed e); [apply ap_refl|]. apply ap_rdir_advance; auto.
Qed.

Lemma ap_sendfile_loop : forall n m r w z, n <= m -> approx (sendfile_loop n r w z) (sendfile_loop m r w z).
Proof.
  induction n as [|n IH]; intros m r w z H; [constructor|]. destruct m as [|m]; [lia|]. cbn [sendfile_loop]. apply ap_sys. intros [e|k]; [apply ap_refl|].
  destruct (0 <? z - k)%Z; [apply IH; lia|apply ap_refl].
Qed.
Lemma ap_copy_default : forall n m r w, n <= m -> approx (do_copy_file_default n r w) (do_copy_file_default m r w).
Proof.
  induction n as [|n IH]; intros m r w H; [constructor|]. destruct m as [|m]; [lia|]. cbn [do_copy_file_default]. apply ap_sys. intros [e|[|c d]]; try apply ap_refl.
  apply ap_sys. intros [e|k]; [apply ap_refl|]. apply IH; lia.
Qed.
Lemma ap_do_copy_file : forall n m r w z, n <= m -> approx (do_copy_file cf n r w z) (do_copy_file cf m r w z).
Proof.
  intros. unfold do_copy_file, do_copy_file_sendfile. destruct (cf_sendfile cf); [|apply ap_copy_default; auto]. apply ap_bind.
  - destruct (_ || _); [apply ap_refl|apply ap_sendfile_loop; auto].
  - intros [b e]. cbn [fst snd]. destruct b; [apply ap_refl|apply ap_copy_default; auto].
Qed.
Lemma ap_copy_file_body : forall n m has from to r w a b x, n <= m ->
  approx (copy_file_body cf n has from to r w a b x) (copy_file_body cf m has from to r w a b x).
Proof.
  intros. unfold copy_file_body. apply ap_bind; [apply ap_refl|]. intros [[st y] e]. cbn [fst snd]. destruct (failed e); [apply ap_refl|]. cbv zeta.
  destruct x; [destruct (negb _); [apply ap_refl|]; apply ap_sys; intros [?|?]; [apply ap_refl|]; apply ap_sys; intros [?|?]; [apply ap_refl|]|];
    (apply ap_bind; [apply ap_do_copy_file; auto|intros; apply ap_refl]).
Qed.
Lemma ap_copy_file_from : forall n m has from to o r, n <= m -> approx (copy_file_from cf n has from to o r) (copy_file_from cf m has from to o r).
Proof.
  intros. unfold copy_file_from. cbv zeta. apply ap_bind; [apply ap_refl|]. intros [[st x] e]. destruct (failed e); [apply ap_refl|].
  destruct (negb (st_is_regular_file st)); [apply ap_refl|]. apply ap_bind; [apply ap_refl|]. intros [[st2 x2] e2].
  destruct (negb (status_known st2)); [apply ap_refl|]. destruct (st_exists st2 && negb (st_is_regular_file st2)); [apply ap_refl|].
  destruct (st_exists st2 && stat_equivalent x x2); [apply ap_refl|]. destruct (st_exists st2 && co_set co_skip_existing o); [apply ap_refl|].
  apply ap_bind; [apply ap_refl|]. intros [b e3]. cbn [fst snd]. destruct (negb b); [apply ap_refl|]. apply ap_sys. intros [?|?]; [apply ap_refl|].
  apply ap_scoped, ap_copy_file_body; auto.
Qed.
Lemma ap_copy_file : forall n m has from to o, n <= m -> approx (copy_file_impl cf n has from to o) (copy_file_impl cf m has from to o).
Proof.
  intros. unfold copy_file_impl. apply ap_sys. intros [?|?]; [apply ap_refl|]. apply ap_scoped, ap_copy_file_from; auto.
Qed.

Lemma ap_copy_loop : forall (rec rec2 : path -> path -> prog (unit * ecode)) n n2 has from to, n <= n2 -> (forall a b, approx (rec a b) (rec2 a b)) ->
  forall k k2 it e, k <= k2 -> approx (copy_loop cf rec n has from to k it e) (copy_loop cf rec2 n2 has from to k2 it e).
Proof.
  intros rec rec2 n n2 has from to Hn Hr. induction k as [|k IH]; intros k2 it e H; [constructor|]. destruct k2 as [|k2]; [lia|]. cbn [copy_loop].
  destruct (is_end it); [apply ap_refl|]. destruct (failed e); [apply ap_refl|]. apply ap_bind.
  - apply ap_unwinding. apply ap_bind; [apply ap_refl|]. intros x. apply ap_bind; [apply ap_refl|]. intros y. apply ap_bind; [apply ap_refl|]. auto.
  - intros [u e1]. cbn [fst snd]. destruct (failed e1); [apply ap_refl|]. apply ap_bind; [apply ap_dir_iter_increment; auto|]. intros j. apply IH; lia.
Qed.
Lemma ap_copy : forall n m has from to o, n <= m -> approx (copy_impl cf n has from to o) (copy_impl cf m has from to o).
Proof.
  induction n as [|n IH]; intros m has from to o H; [constructor|]. destruct m as [|m]; [lia|]. cbn [copy_impl]. cbv zeta.
  assert (Hf : forall from to, approx (copy_file_impl cf n has from to o) (copy_file_impl cf m has from to o)) by (intros; apply ap_copy_file; lia).
  apply ap_bind; [apply ap_refl|]. intros [[f fs] e1]. destruct (failed e1); [apply ap_refl|].
  apply ap_bind; [apply ap_refl|]. intros [[t ts] e2]. destruct (negb (status_known t)); [apply ap_refl|].
  match goal with |- approx (if ?b then _ else _) _ => destruct b end; [apply ap_refl|].
  destruct (st_is_symlink f); [apply ap_refl|].
  destruct (st_is_regular_file f).
  - destruct (co_set co_directories_only o); [apply ap_refl|]. destruct (co_set co_create_symlinks o); [apply ap_refl|].
    destruct (co_set co_create_hard_links o); [apply ap_refl|]. destruct (st_is_directory t).
    + apply ap_bind; [apply ap_refl|]. intros x. apply ap_bind; [apply ap_refl|]. intros y. apply ap_bind; [apply Hf|]. intros; apply ap_refl.
    + apply ap_bind; [apply Hf|]. intros; apply ap_refl.
  - match goal with |- approx (if ?b then _ else _) _ => destruct b end; [apply ap_refl|].
    match goal with |- approx (if ?b then _ else _) _ => destruct b end; [|apply ap_refl].
    apply ap_bind; [apply ap_refl|]. intros c. destruct (failed (snd c)); [apply ap_refl|].
    apply ap_bind; [apply ap_dir_iter_ctor; lia|]. intros i. destruct (failed (snd i)); [apply ap_refl|].
    apply ap_copy_loop; try lia. intros; apply IH; lia.
Qed.

Lemma ap_push_missing : forall n m p l, n <= m -> approx (push_missing cf n p l) (push_missing cf m p l).
Proof.
  induction n as [|n IH]; intros m p l H; [constructor|]. destruct m as [|m]; [lia|]. cbn [push_missing]. apply ap_bind; [apply ap_refl|]. intros b.
  destruct (negb b); [apply ap_refl|]. apply ap_bind; [apply ap_refl|]. intros f. apply ap_bind; [apply ap_refl|]. intros u. apply IH; lia.
Qed.
Lemma ap_create_directories : forall n m has p, n <= m -> approx (create_directories_impl cf n has p) (create_directories_impl cf m has p).
Proof.
  intros. unfold create_directories_impl. destruct (empty p); [apply ap_refl|]. apply ap_bind; [apply ap_push_missing; auto|]. intros; apply ap_refl.
Qed.
Lemma ap_is_empty : forall n m has p, n <= m -> approx (is_empty_impl cf n has p) (is_empty_impl cf m has p).
Proof.
  intros. unfold is_empty_impl. apply ap_bind; [apply ap_refl|]. intros [[st x] e]. destruct (failed e); [apply ap_refl|].
  destruct (_ && _); [apply ap_refl|]. destruct (st_is_directory st); [|apply ap_refl]. unfold is_empty_directory.
  apply ap_bind; [apply ap_dir_iter_ctor; auto|]. intros; apply ap_refl.
Qed.

Lemma ap_remove_loop : forall (rec rec2 : path -> prog (Z * ecode)) n n2, n <= n2 -> (forall a, approx (rec a) (rec2 a)) ->
  forall k k2 it e c, k <= k2 -> approx (remove_loop cf rec n k it e c) (remove_loop cf rec2 n2 k2 it e c).
Proof.
  intros rec rec2 n n2 Hn Hr. induction k as [|k IH]; intros k2 it e c H; [constructor|]. destruct k2 as [|k2]; [lia|]. cbn [remove_loop].
  destruct (failed e || is_end it); [apply ap_refl|]. apply ap_bind.
  - apply ap_unwinding. apply ap_bind; [apply ap_refl|]. auto.
  - intros [u e1]. cbn [fst snd]. destruct (failed e1); [apply ap_refl|]. apply ap_bind; [apply ap_dir_iter_increment; auto|]. intros j. apply IH; lia.
Qed.
Lemma ap_do_remove_all : forall n m p, n <= m -> approx (do_remove_all_impl cf n p) (do_remove_all_impl cf m p).
Proof.
  induction n as [|n IH]; intros m p H; [constructor|]. destruct m as [|m]; [lia|]. cbn [do_remove_all_impl].
  apply ap_bind; [apply ap_refl|]. intros s. destruct (failed (snd s)); [apply ap_refl|]. apply ap_bind; [|intros; apply ap_refl].
  destruct (st_is_directory (fst s)); [|apply ap_refl]. apply ap_bind; [apply ap_dir_iter_ctor; lia|]. intros i. apply ap_remove_loop; try lia. intros; apply IH; lia.
Qed.
Lemma ap_remove_all : forall n m has p, n <= m -> approx (remove_all_impl cf n has p) (remove_all_impl cf m has p).
Proof.
  intros. unfold remove_all_impl. destruct (empty p); [apply ap_refl|]. apply ap_bind; [apply ap_do_remove_all; auto|]. intros; apply ap_refl.
Qed.

End Fuel.

(** In terms of runs: a call that ended with one bound ends with every larger one, with the same result and the same state. *)
Definition bound_free {A} (P : nat -> prog A) : Prop :=
  forall S (h : kernel S) s n m, n <= m -> (exists s', run h (P n) s = Failed FFuel s') \/ run h (P m) s = run h (P n) s.

Theorem bounds_do_not_matter : forall cf has p p2 o it rit,
  bound_free (fun n => copy_file_impl cf n has p p2 o) /\ bound_free (fun n => copy_impl cf n has p p2 o) /\
  bound_free (fun n => create_directories_impl cf n has p) /\ bound_free (fun n => is_empty_impl cf n has p) /\
  bound_free (fun n => remove_all_impl cf n has p) /\ bound_free (fun n => dir_iter_ctor cf n has p o) /\
  bound_free (fun n => dir_iter_increment cf n has it) /\ bound_free (fun n => rdir_ctor cf n has p o) /\
  bound_free (fun n => rdir_increment cf n has rit) /\ bound_free (fun n => rdir_pop cf n has rit).
Proof.
  intros.
  assert (H : forall A (P : nat -> prog A), (forall n m, n <= m -> approx (P n) (P m)) -> bound_free P).
  { intros A P H S h s n m Hn. destruct (run_approx _ _ _ (H n m Hn) S h s) as [E|E]; auto. }
  repeat split; apply H; intros n m Hn.
  - apply ap_copy_file; auto. - apply ap_copy; auto. - apply ap_create_directories; auto. - apply ap_is_empty; auto. - apply ap_remove_all; auto.
  - apply ap_dir_iter_ctor; auto. - apply ap_dir_iter_increment; auto. - apply ap_rdir_ctor; auto. - apply ap_rdir_increment; auto. - apply ap_rdir_pop; auto.
Qed.
Print Assumptions bounds_do_not_matter.
