(** C111: what depends on the current directory. The code is that of DirModel.v and OpsModel.v (include/filesystem/fs_ops.h, src/fs_ops.cpp),
    run on the file system of FS.v. *)
From Coq Require Import Ascii String Bool Arith NArith ZArith Lia.
From Verif Require Import Str PathModel PathSpec StrProofs PathProofs PathOps PathOps2 PathNormal PathReach PathLaws PathMisc PathProps ArithProps
  FlagsModel TimeModel Prog DirModel OpsModel OpsProps FS FSProofs FSSpec FSOps FSPlace FSProps FSProps2 FSProps3 FSProps4 FSLike IterProps FSIter FSCreate Told.
From Coq Require Import List.
Import ListNotations.

(** * Specification *)

(** The same file system with another current directory. *)
Definition twins (s t : fs) : Prop := t = set_cwd s (f_cwd t).

(** The same end, in twin states. *)
Definition same_end {A} (a b : outcome A fs) : Prop :=
  match a, b with
  | Done x s, Done y t => x = y /\ twins s t
  | Failed f s, Failed g t => f = g /\ twins s t
  | _, _ => False
  end.

(** A path made from an absolute text. *)
Definition rooted (p : path) : Prop := canon p /\ starts_slash (native p) = true.

(** * Lemmas *)

Lemma twins_refl : forall s, twins s s.
Proof. intros []. reflexivity. Qed.

Lemma twins_cwd : forall s t, twins s t -> forall q, twins s (set_cwd t q) /\ twins (set_cwd s q) t.
Proof. intros s t H q. rewrite H. split; destruct s; reflexivity. Qed.

Lemma find_twin : forall k s q last t, starts_slash t = true -> find_at k (set_cwd s q) last t = find_at k s last t.
Proof. intros k s q last t H. unfold find_at, resolve_comps. rewrite H. reflexivity. Qed.
Lemma entry_twin : forall k s q t, starts_slash t = true -> find_entry k (set_cwd s q) t = find_entry k s t.
Proof. intros k s q t H. unfold find_entry, resolve_comps. rewrite H. reflexivity. Qed.
Lemma node_twin : forall s q p, node_at (set_cwd s q) p = node_at s p.
Proof. reflexivity. Qed.

(** The calls that do not look at the current directory. *)
Definition aloof (c : call) : Prop :=
  match c with
  | c_stat t | c_lstat t | c_open t _ _ | c_mkdir t _ | c_symlink _ t | c_readlink t _ | c_remove t | c_truncate t _ | c_fchmodat t _ _
  | c_utimensat t _ | c_statvfs t | c_chdir t | c_realpath t | c_opendir t => starts_slash t = true
  | c_link a b | c_rename a b => starts_slash a = true /\ starts_slash b = true
  | c_getcwd _ => False
  | _ => True
  end.

Lemma aloof_step : forall k c s q, aloof c ->
  fst (fsk k c (set_cwd s q)) = fst (fsk k c s) /\ twins (snd (fsk k c s)) (snd (fsk k c (set_cwd s q))).
Proof.
  intros k c s q H. destruct c; cbn [aloof] in H; try (destruct H; fail); try match type of H with _ /\ _ => destruct H as [H H'] end;
  cbn [fsk fst snd]; unfold sys_stat, sys_mkdir, sys_symlink, sys_link, sys_readlink, sys_remove, sys_rename, sys_truncate, sys_fchmodat, sys_utimensat, sys_chdir,
    sys_realpath, sys_open, sys_opendir, sys_readdir, sys_read, sys_write, sys_sendfile, with_fd, resize_obj;
  rewrite ?(find_twin _ _ _ _ _ H), ?(entry_twin _ _ _ _ H); try rewrite ?(find_twin _ _ _ _ _ H'), ?(entry_twin _ _ _ _ H'); rewrite ?node_twin;
  cbn [set_cwd f_root f_body f_meta f_next f_fds f_dirs f_handle f_env];
  destruct s as [root body meta next cwd fds dirs handle env extra]; cbn [set_cwd f_root f_body f_meta f_next f_cwd f_fds f_dirs f_handle f_env];
  repeat match goal with
  | |- context [match ?x with _ => _ end] => destruct x
  end; try (split; reflexivity).
Qed.

(** All calls of [p] are aloof, and what it returns has [Q]. *)
Fixpoint goes {A} (p : prog A) (Q : A -> Prop) : Prop :=
  match p with
  | Ret a => Q a
  | Stop _ => True
  | Sys c f => aloof c /\ forall a, goes (f a) Q
  end.

Lemma goes_run : forall k A (p : prog A) Q, goes p Q -> forall s t, twins s t -> same_end (run (fsk k) p s) (run (fsk k) p t).
Proof.
  intros k A. induction p as [a|e|c f IH]; intros Q H s t T; cbn [run]; [split; auto|split; auto|]. destruct H as [H1 H2].
  destruct (aloof_step k c s (f_cwd t) H1) as [E1 E2]. rewrite <- T in E1, E2.
  destruct (fsk k c s) as [a s1], (fsk k c t) as [b t1]. cbn [fst snd] in *. subst b. eapply IH; eauto.
Qed.

Lemma goes_bind : forall A B (p : prog A) (f : A -> prog B) Q R, goes p Q -> (forall a, Q a -> goes (f a) R) -> goes (pbind p f) R.
Proof. intros A B. induction p as [a|e|c g IH]; intros f Q R H G; cbn in *; auto. destruct H as [H1 H2]. split; [exact H1|]. intros a. eapply IH; eauto. Qed.
Lemma goes_any : forall A (p : prog A) (Q : A -> Prop), goes p Q -> goes p (fun _ => True).
Proof. intros A. induction p as [a|e|c g IH]; intros Q H; cbn in *; auto. destruct H as [H1 H2]. split; [exact H1|]. intros a. eapply IH; eauto. Qed.
Lemma goes_seq : forall A B (p : prog A) (f : A -> prog B) R, goes p (fun _ => True) -> (forall a, goes (f a) R) -> goes (pbind p f) R.
Proof. intros. eapply goes_bind; [eassumption|auto]. Qed.
Lemma goes_scoped : forall A (p : prog A) c Q, goes p Q -> goes c (fun _ => True) -> goes (scoped p c) Q.
Proof.
  intros A. induction p as [a|e|q g IH]; intros c Q H C; cbn in *.
  - apply goes_seq; auto.
  - destruct (unwinds e); [|exact Logic.I]. apply goes_seq; [exact C|]. intros; exact Logic.I.
  - destruct H as [H1 H2]. split; [exact H1|]. intros a. apply IH; auto.
Qed.
Lemma goes_unwinding : forall A (p : prog A) c Q, goes p Q -> goes c (fun _ => True) -> goes (unwinding p c) Q.
Proof.
  intros A. induction p as [a|e|q g IH]; intros c Q H C; cbn in *; auto.
  - destruct (unwinds e); [|exact Logic.I]. apply goes_seq; [exact C|]. intros; exact Logic.I.
  - destruct H as [H1 H2]. split; [exact H1|]. intros a. apply IH; auto.
Qed.
Lemma goes_report : forall A (has : bool) ps (d : A) e (Q : A * ecode -> Prop), Q (d, e) -> goes (report has ps d e) Q.
Proof. intros. unfold report. destruct has; cbn; auto. Qed.
Lemma goes_assert : forall b c, goes (asap_assert b c) (fun _ => True).
Proof. intros. unfold asap_assert. destruct (b && negb c); exact Logic.I. Qed.

Ltac going := cbv zeta; repeat first
  [ exact Logic.I | assumption | solve [auto with going]
  | lazymatch goal with
    | |- goes (pbind _ _) _ => apply goes_seq; [|intros]
    | |- goes (Sys _ _) _ => split; [cbn [aloof]; solve [auto with going]|intros]
    | |- goes (scoped _ _) _ => apply goes_scoped
    | |- goes (unwinding _ _) _ => apply goes_unwinding
    | |- goes (report _ _ _ _) _ => apply goes_report
    | |- goes (Ret _) _ => exact Logic.I
    | |- goes (match ?x with _ => _ end) _ => destruct x
    end ].

Create HintDb going.
#[local] Hint Resolve goes_assert : going.

Lemma go_status : forall has p, starts_slash (native p) = true -> goes (GetFileStatus has p) (fun _ => True).
Proof. intros. unfold GetFileStatus, CreateFileStatus. going. Qed.
Lemma go_link_status : forall has p, starts_slash (native p) = true -> goes (GetLinkStatus has p) (fun _ => True).
Proof. intros. unfold GetLinkStatus, CreateFileStatus. going. Qed.
#[local] Hint Resolve go_status go_link_status : going.
Lemma go_status_impl : forall has p, starts_slash (native p) = true -> goes (status_impl has p) (fun _ => True).
Proof. intros. unfold status_impl. going. Qed.
Lemma go_symlink_status : forall has p, starts_slash (native p) = true -> goes (symlink_status_impl has p) (fun _ => True).
Proof. intros. unfold symlink_status_impl. going. Qed.
#[local] Hint Resolve go_status_impl go_symlink_status : going.
Lemma go_create_directory : forall has p, starts_slash (native p) = true -> goes (create_directory_impl has p) (fun _ => True).
Proof. intros. unfold create_directory_impl. going. Qed.
Lemma go_create_directory_like : forall has p t, starts_slash (native p) = true -> starts_slash (native t) = true -> goes (create_directory_like_impl has p t) (fun _ => True).
Proof. intros. unfold create_directory_like_impl. going. Qed.
Lemma go_create_symlink : forall has p t, starts_slash (native p) = true -> goes (create_symlink_impl has t p) (fun _ => True).
Proof. intros. unfold create_symlink_impl, simple. going. Qed.
Lemma go_create_hard_link : forall has p t, starts_slash (native p) = true -> starts_slash (native t) = true -> goes (create_hard_link_impl has t p) (fun _ => True).
Proof. intros. unfold create_hard_link_impl, simple. going. Qed.
Lemma go_remove : forall has p, starts_slash (native p) = true -> goes (remove_impl has p) (fun _ => True).
Proof. intros. unfold remove_impl. going. Qed.
Lemma go_read_symlink : forall cf has p, starts_slash (native p) = true -> goes (read_symlink_impl cf has p) (fun _ => True).
Proof. intros. unfold read_symlink_impl. going. Qed.
#[local] Hint Resolve go_create_directory go_create_directory_like go_create_symlink go_create_hard_link go_remove go_read_symlink : going.
Lemma go_copy_symlink : forall cf has p t, starts_slash (native p) = true -> starts_slash (native t) = true -> goes (copy_symlink_impl cf has p t) (fun _ => True).
Proof. intros. unfold copy_symlink_impl. going. Qed.
#[local] Hint Resolve go_copy_symlink : going.

Lemma go_sendfile_loop : forall n r w c, goes (sendfile_loop n r w c) (fun _ => True).
Proof. induction n as [|n IH]; intros; cbn [sendfile_loop]; going. Qed.
Lemma go_default : forall n r w, goes (do_copy_file_default n r w) (fun _ => True).
Proof. induction n as [|n IH]; intros; cbn [do_copy_file_default]; going. Qed.
#[local] Hint Resolve go_sendfile_loop go_default : going.
Lemma go_copy_bytes : forall cf n r w z, goes (do_copy_file cf n r w z) (fun _ => True).
Proof. intros. unfold do_copy_file, do_copy_file_sendfile. going. Qed.
#[local] Hint Resolve go_copy_bytes : going.
Lemma go_copy_file : forall cf n has a b o, starts_slash (native a) = true -> starts_slash (native b) = true -> goes (copy_file_impl cf n has a b o) (fun _ => True).
Proof. intros. unfold copy_file_impl, copy_file_from, copy_file_body, refresh_status, close_fd. going. Qed.
#[local] Hint Resolve go_copy_file : going.

(** ** Directory iterators *)

Lemma rooted_div : forall E p x, rooted p -> canon x -> exists q, path_div Posix E p x = Ok q /\ rooted q.
Proof.
  intros E p x [C S] X. destruct (gives_div E p x C X) as (q & Q & Qc & Qn). exists q. split; [exact Q|]. split; [exact Qc|].
  rewrite Qn. destruct (reported_same (append_text (native p) (native x))) as (_ & -> & _). unfold append_text.
  destruct (starts_slash (native x)) eqn:Sx; [exact Sx|]. destruct (native p); [discriminate|exact S].
Qed.

Definition rooted_stream (s : dstream) : Prop := rooted (ds_root s) /\ (good s = true -> rooted (de_path (ds_entry s))).
Definition rooted_iter (it : dir_iter) : Prop := match it with Some s => good s = true /\ rooted_stream s | None => True end.

Lemma go_advance : forall cf n s, rooted (ds_root s) ->
  goes (advance cf n s) (fun r => rooted_stream (snd r) /\ good (snd r) = fst (fst r)).
Proof.
  intros cf. induction n as [|n IH]; intros s H; cbn [advance]; [exact Logic.I|]. destruct (ds_handle s) as [d|]; [|exact Logic.I].
  eapply goes_bind with (Q := fun _ => True).
  { unfold posix_readdir, get_file_type. going. }
  intros [[name t] ec] _. cbv iota beta. destruct (_ || _); [apply IH; exact H|]. destruct (failed ec || is_nil name).
  - split; [exact Logic.I|]. intros _. cbn. split; [|reflexivity]. split; [exact H|discriminate].
  - destruct (rooted_div (cf_el cf) (ds_root s) (split_components Posix name) H (canon_mkpath name)) as (q & -> & Q). cbn. split; [|reflexivity]. split; auto.
Qed.

Lemma go_ctor : forall cf n has p o, rooted p -> goes (dir_iter_ctor cf n has p o) (fun r => rooted_iter (fst r)).
Proof.
  intros cf n has p o H. unfold dir_iter_ctor. eapply goes_bind with (Q := fun r => rooted_stream (snd r)).
  - unfold stream_ctor. split; [exact (proj2 H)|]. intros [e|d]; [split; [exact H|discriminate]|].
    eapply goes_bind; [apply go_advance; exact H|]. intros [[x y] z] [G _]. exact G.
  - intros [e s] G. cbn [snd] in G. destruct (good s) eqn:D; [cbn; auto|]. destruct (failed e); [apply goes_report|]; exact Logic.I.
Qed.
Lemma go_increment : forall cf n has it, rooted_iter it -> goes (dir_iter_increment cf n has it) (fun r => rooted_iter (fst r)).
Proof.
  intros cf n has [s|] H; unfold dir_iter_increment; [|apply goes_report; exact Logic.I]. destruct H as [_ [H _]].
  eapply goes_bind; [apply go_advance; exact H|]. intros [[ok e] s1] [G1 G2]. cbn [fst snd] in *. destruct ok; [cbn; auto|].
  destruct (failed e); [apply goes_report|]; exact Logic.I.
Qed.
Lemma go_deref : forall cf it, rooted_iter it -> goes (dir_iter_deref cf it) (fun e => rooted (de_path e)).
Proof. intros cf [s|] H; cbn [dir_iter_deref]; [apply H; apply H|]. apply goes_seq; [apply goes_assert|]. intros; exact Logic.I. Qed.
Lemma go_destroy : forall it, goes (dir_iter_destroy it) (fun _ => True).
Proof. intros. unfold dir_iter_destroy, stream_destroy. going. Qed.
#[local] Hint Resolve go_destroy : going.

Lemma go_is_empty : forall cf n has p, rooted p -> goes (is_empty_impl cf n has p) (fun _ => True).
Proof.
  intros cf n has p H. assert (S := proj2 H). unfold is_empty_impl, is_empty_directory. going; try (eapply goes_any; apply go_ctor; exact H).
Qed.

Lemma go_remove_loop : forall cf n rec, (forall p, rooted p -> goes (rec p) (fun _ => True)) -> forall k it e c, rooted_iter it ->
  goes (remove_loop cf rec n k it e c) (fun _ => True).
Proof.
  intros cf n rec Hr. induction k as [|k IH]; intros it e c H; cbn [remove_loop]; [exact Logic.I|].
  destruct (failed e || is_end it); [exact Logic.I|]. apply goes_seq.
  - apply goes_unwinding; [|apply go_destroy]. eapply goes_bind; [apply go_deref; exact H|]. auto.
  - intros r. destruct (failed (snd r)); [going|]. eapply goes_bind; [apply go_increment; exact H|]. intros j J. apply IH. exact J.
Qed.
Lemma go_do_remove_all : forall cf n p, rooted p -> goes (do_remove_all_impl cf n p) (fun _ => True).
Proof.
  intros cf. induction n as [|n IH]; intros p H; cbn [do_remove_all_impl]; [exact Logic.I|]. assert (S := proj2 H).
  apply goes_seq; [auto with going|]. intros s. destruct (failed (snd s)); [exact Logic.I|]. apply goes_seq.
  - destruct (st_is_directory (fst s)); [|exact Logic.I]. eapply goes_bind; [apply go_ctor; exact H|]. intros i I. apply go_remove_loop; auto.
  - intros c. destruct (failed (snd c)); [exact Logic.I|]. apply goes_seq; [auto with going|]. intros r. destruct (fst r); exact Logic.I.
Qed.

Lemma go_copy_loop : forall cf n has from to rec, rooted to -> (forall a b, rooted a -> rooted b -> goes (rec a b) (fun _ => True)) -> forall k it e, rooted_iter it ->
  goes (copy_loop cf rec n has from to k it e) (fun _ => True).
Proof.
  intros cf n has from to rec Ht Hr. induction k as [|k IH]; intros it e H; cbn [copy_loop]; [exact Logic.I|].
  destruct (is_end it); [exact Logic.I|]. destruct (failed e); [going|]. apply goes_seq.
  - apply goes_unwinding; [|apply go_destroy]. eapply goes_bind; [apply go_deref; exact H|]. intros x X.
    destruct (gives_filename (de_path x) (proj1 X)) as (f & -> & F & _). cbn [lift pbind].
    destruct (rooted_div (cf_el cf) to f Ht F) as (q & -> & Q). cbn [lift pbind]. auto.
  - intros r. destruct (failed (snd r)); [going|]. eapply goes_bind; [apply go_increment; exact H|]. intros j J. apply IH. exact J.
Qed.
Lemma go_copy : forall cf n has from to o, rooted from -> rooted to -> goes (copy_impl cf n has from to o) (fun _ => True).
Proof.
  intros cf. induction n as [|n IH]; intros has from to o Hf Ht; cbn [copy_impl]; [exact Logic.I|]. assert (S1 := proj2 Hf). assert (S2 := proj2 Ht).
  cbv zeta. apply goes_seq; [destruct (_ || _); auto with going|]. intros [[f fs_] e1]. destruct (failed e1); [apply goes_report; exact Logic.I|].
  apply goes_seq; [destruct (_ || _); auto with going|]. intros [[t ts] e2]. destruct (negb (status_known t)); [apply goes_report; exact Logic.I|].
  destruct (_ || _); [apply goes_report; exact Logic.I|]. destruct (st_is_symlink f); [going|].
  destruct (st_is_regular_file f).
  - destruct (co_set co_directories_only o); [exact Logic.I|]. destruct (co_set co_create_symlinks o); [auto with going|].
    destruct (co_set co_create_hard_links o); [auto with going|]. destruct (st_is_directory t); [|going].
    destruct (gives_filename from (proj1 Hf)) as (x & -> & F & _). cbn [lift pbind].
    destruct (rooted_div (cf_el cf) to x Ht F) as (q & -> & [_ Q]). cbn [lift pbind]. going.
  - destruct (_ && _); [apply goes_report; exact Logic.I|]. destruct (_ && _); [|exact Logic.I].
    apply goes_seq; [going|]. intros c. destruct (failed (snd c)); [exact Logic.I|]. eapply goes_bind; [apply go_ctor; exact Hf|]. intros i I.
    destruct (failed (snd i)); [exact Logic.I|]. apply go_copy_loop; auto.
Qed.

Lemma go_permissions : forall cf has p prms o, starts_slash (native p) = true -> goes (permissions_impl cf has p prms o) (fun _ => True).
Proof. intros. unfold permissions_impl, simple. going. Qed.
Lemma go_canonical : forall cf has p, rooted p -> goes (canonical_impl cf has p) (fun _ => True).
Proof. intros cf has p [C S]. unfold canonical_impl, do_absolute_impl. rewrite canon_absolute, S by exact C. cbn [pbind]. going. Qed.
Lemma go_equivalent : forall has p q, starts_slash (native p) = true -> starts_slash (native q) = true -> goes (equivalent_impl has p q) (fun _ => True).
Proof.
  intros has p q H1 H2. assert (T : forall t, starts_slash t = true -> starts_slash (native (topath t)) = true).
  { intros t H. change (topath t) with (mkpath t). rewrite native_mkpath. destruct (reported_same t) as (_ & -> & _). exact H. }
  apply T in H1, H2. unfold equivalent_impl. going.
Qed.
#[local] Hint Resolve go_permissions go_canonical go_equivalent go_is_empty : going.

Lemma go_missing : forall has p l c, Forall (fun q => starts_slash (native q) = true) l -> goes (create_missing has p l c) (fun _ => True).
Proof.
  intros has p. induction l as [|x l IH]; intros c H; cbn [create_missing]; [exact Logic.I|]. inversion H as [|? ? H1 H2]; subst.
  cbv zeta. apply goes_seq; [auto with going|]. intros s. apply goes_seq; [going|]. intros e. apply goes_seq; [unfold is_directory, is_type; going|].
  intros [e2|]; [apply goes_report; exact Logic.I|]. apply IH. exact H2.
Qed.

Lemma rungs_rooted : forall rest pre l, rungs [slash] pre rest l -> Forall (fun q => starts_slash (native q) = true) l.
Proof.
  induction rest as [|x rest IH]; intros pre [|q l] H; cbn [rungs] in H; try contradiction; [constructor|]. destruct H as [[H1 _] H2].
  constructor; [exact H1|]. eapply IH; eauto.
Qed.

Lemma go_lift : forall (B : Type) (r : out B), goes (lift r) (fun _ => True).
Proof. intros B []; exact Logic.I. Qed.
#[local] Hint Resolve go_lift : going.

(** ** Weakly canonical paths *)

Lemma goes_mono : forall A (p : prog A) (Q R : A -> Prop), goes p Q -> (forall a, Q a -> R a) -> goes p R.
Proof. intros A. induction p as [a|e|c g IH]; intros Q R H G; cbn in *; auto. destruct H as [H1 H2]. split; [exact H1|]. intros a. eapply IH; eauto. Qed.

Lemma default_div : forall E x, rooted x -> exists q, path_div Posix E path_default x = Ok q /\ rooted q.
Proof.
  intros E x [C S]. destruct (gives_div E path_default x canon_default C) as (q & Q & Qc & Qn). exists q. split; [exact Q|]. split; [exact Qc|].
  rewrite Qn. destruct (reported_same (append_text (native path_default) (native x))) as (_ & -> & _). unfold append_text. rewrite S. exact S.
Qed.

Lemma go_prefix : forall cf l r, Forall canon l -> rooted r -> goes (existing_prefix cf l r) (fun x => rooted (fst (fst x))).
Proof.
  intros cf. induction l as [|a l IH]; intros r H R; cbn [existing_prefix]; [exact R|]. inversion H as [|? ? H1 H2]; subst.
  destruct (rooted_div (cf_el cf) r a R H1) as (q & -> & Q). cbn [lift pbind]. apply goes_seq; [apply go_status_impl; apply Q|].
  intros s. destruct (st_exists (fst s)); [apply IH; assumption|exact R].
Qed.

Lemma go_weakly : forall cf has p, rooted p -> goes (weakly_canonical_impl cf has p) (fun _ => True).
Proof.
  intros cf has p R. assert (S := proj2 R). unfold weakly_canonical_impl. destruct (empty p) eqn:Z.
  { unfold empty in Z. change (pathname p) with (native p) in Z. destruct (native p); discriminate. }
  apply goes_seq; [auto with going|]. intros s. destruct (negb (status_known (fst s))); [apply goes_report; exact Logic.I|].
  destruct (st_exists (fst s)); [apply go_canonical; exact R|].
  apply goes_bind with (Q := fun x => rooted (fst (fst x)) \/ empty (fst (fst x)) = true).
  - assert (E : elems p = map mkpath (elements (native p))).
    { destruct (proj1 (canon_cases p (proj1 R))) as [->|Hm]; [discriminate S|]. rewrite Hm at 1. apply PathNormal.elems_paths. }
    rewrite E. unfold elements. rewrite S. cbn [app map existing_prefix].
    destruct (default_div (cf_el cf) (mkpath [slash])) as (q & -> & Q); [split; [apply canon_mkpath|reflexivity]|]. cbn [lift pbind].
    apply goes_seq; [apply go_status_impl; apply Q|]. intros s1. destruct (st_exists (fst s1)); [|right; reflexivity].
    eapply goes_mono; [apply go_prefix; [|exact Q]|intros x Hx; left; exact Hx].
    apply Forall_map, Forall_forall. intros. apply canon_mkpath.
  - intros [[r rest] m] H. cbn [fst] in H. apply goes_seq.
    + destruct (negb (failed m) && negb (empty r)) eqn:Y; [|exact Logic.I]. apply go_canonical. destruct H as [H|H]; [exact H|]. rewrite H, andb_false_r in Y. discriminate.
    + intros [r1 m1]. destruct (failed m1); [exact Logic.I|]. apply goes_seq; [apply go_lift|]. intros r2. apply goes_seq; [apply go_lift|]. intros; exact Logic.I.
Qed.
#[local] Hint Resolve go_weakly : going.

(** * Absolute paths *)

(** Given absolute paths, the operations end the same way, with the same values, codes and exceptions, and leave the same files, whatever the current
    directory is; the text a symlink is to have need not be absolute. *)
Theorem C111_absolute : forall cf n has k s t p q x o z m, twins s t -> rooted p -> rooted q ->
  let unmoved {A} (f : prog A) := same_end (run (fsk k) f s) (run (fsk k) f t) in
  (unmoved (status_impl has p) /\ unmoved (symlink_status_impl has p) /\ unmoved (exists_ has p) /\ (forall y, unmoved (is_type y has p)) /\
   unmoved (is_symlink has p) /\ unmoved (is_other has p) /\ unmoved (file_size_impl has p) /\ unmoved (hard_link_count_impl has p) /\
   unmoved (last_write_time_impl cf has p) /\ unmoved (equivalent_impl has p q) /\ unmoved (is_empty_impl cf n has p) /\ unmoved (space_impl has p) /\
   unmoved (read_symlink_impl cf has p) /\ unmoved (absolute_impl cf has p) /\ unmoved (canonical_impl cf has p) /\
   unmoved (weakly_canonical_impl cf has p) /\ unmoved (relative_impl cf has p q) /\ unmoved (proximate_impl cf has p q)) /\
  (unmoved (create_directory_impl has p) /\ unmoved (create_directory_like_impl has p q) /\ unmoved (create_symlink_impl has x p) /\
   unmoved (create_directory_symlink_impl has x p) /\ unmoved (create_hard_link_impl has p q) /\ unmoved (copy_symlink_impl cf has p q) /\
   unmoved (copy_file_impl cf n has p q o) /\ unmoved (copy_impl cf n has p q o) /\ unmoved (remove_impl has p) /\ unmoved (remove_all_impl cf n has p) /\
   unmoved (rename_impl has p q) /\ unmoved (resize_file_impl has p z) /\ unmoved (permissions_impl cf has p m o) /\
   unmoved (set_last_write_time_impl cf has p z) /\ unmoved (set_current_path_impl has p)).
Proof.
  intros cf n has k s t p q x o z m T Hp Hq. assert (Sp := proj2 Hp). assert (Sq := proj2 Hq). cbv zeta beta.
  repeat match goal with |- _ /\ _ => split | |- forall _, _ => intros ? end; (eapply goes_run with (Q := fun _ => True); [|exact T]).
  - auto with going.
  - auto with going.
  - unfold exists_. going.
  - unfold is_type. going.
  - unfold is_symlink. going.
  - unfold is_other. going.
  - unfold file_size_impl. going.
  - unfold hard_link_count_impl. going.
  - unfold last_write_time_impl, ExtractLastWriteTime. going.
  - auto with going.
  - auto with going.
  - unfold space_impl. going.
  - auto with going.
  - unfold absolute_impl, do_absolute_impl. rewrite canon_absolute, Sp by apply Hp. exact Logic.I.
  - auto with going.
  - auto with going.
  - unfold relative_impl, relative_with. going.
  - unfold proximate_impl, relative_with. going.
  - auto with going.
  - auto with going.
  - auto with going.
  - unfold create_directory_symlink_impl, simple. going.
  - auto with going.
  - auto with going.
  - auto with going.
  - apply go_copy; assumption.
  - auto with going.
  - unfold remove_all_impl. destruct (empty p); [exact Logic.I|]. apply goes_seq; [apply go_do_remove_all; exact Hp|]. intros r. destruct (snd r); going.
  - unfold rename_impl, simple. going.
  - unfold resize_file_impl, simple. going.
  - auto with going.
  - unfold set_last_write_time_impl, simple. going.
  - unfold set_current_path_impl, simple. going.
Qed.

Lemma go_push : forall cf n p l, el_parent (cf_el cf) = false -> rooted p -> Forall (fun q => starts_slash (native q) = true) l ->
  goes (push_missing cf n p l) (fun m => Forall (fun q => starts_slash (native q) = true) m).
Proof.
  intros cf. induction n as [|n IH]; intros p l HE R Hl; cbn [push_missing]; [exact Logic.I|].
  apply goes_seq; [apply go_lift|]. intros hf. destruct (negb hf); [exact Hl|]. apply goes_seq; [apply go_lift|]. intros fn.
  destruct (gives_parent_path (cf_el cf) p HE (proj1 R)) as (q & -> & Qc & Qn). cbn [lift pbind]. apply IH; [exact HE| |].
  - split; [exact Qc|]. rewrite Qn. unfold parent_text, root_text. assert (S := proj2 R). destruct (names (native p)); cbn [is_nil]; [exact S|]. rewrite S. reflexivity.
  - destruct (is_dot fn || is_dotdot fn); [exact Hl|]. constructor; [apply R|exact Hl].
Qed.

(** create_directories. *)
Theorem C111_create_directories : forall cf n has k s t p, twins s t -> el_parent (cf_el cf) = false -> rooted p ->
  same_end (run (fsk k) (create_directories_impl cf n has p) s) (run (fsk k) (create_directories_impl cf n has p) t).
Proof.
  intros cf n has k s t p T HE R. eapply goes_run with (Q := fun _ => True); [|exact T]. unfold create_directories_impl.
  destruct (empty p); [apply goes_report; exact Logic.I|]. eapply goes_bind; [apply go_push; [exact HE|exact R|constructor]|].
  intros m Hm. destruct (is_nil m); [exact Logic.I|]. apply go_missing. exact Hm.
Qed.

(** The same where the copy of the result of parent_path is elided, for the paths of C26. *)
Theorem C111_create_directories_elided : forall cf n has k s u t, twins s u -> starts_slash t = true ->
  ends_slash t = false -> Forall (fun x => is_dots x = false) (names t) -> (el_parent (cf_el cf) = true -> few_slashes t) -> length (names t) < n ->
  same_end (run (fsk k) (create_directories_impl cf n has (topath t)) s) (run (fsk k) (create_directories_impl cf n has (topath t)) u).
Proof.
  intros cf n has k s u t T S He Hd HE Hn. assert (Hne : t <> []) by (destruct t; discriminate).
  destruct (create_loop_any cf n t Hne He Hd HE Hn) as (_ & l & Hl & R). rewrite !R.
  eapply goes_run; [|exact T]. apply go_missing. unfold root_text in Hl. rewrite S in Hl. eapply rungs_rooted; eauto.
Qed.

(** * Relative paths *)

Lemma steps_more : forall lk tg last l cs cur l1 q m, steps lk tg last l cur cs = Found l1 q -> l <= m ->
  exists m1, steps lk tg last m cur cs = Found m1 q.
Proof.
  intros lk tg last. induction l as [|l IHl]; (induction cs as [|x r IHr]; intros cur l1 q m; [rewrite !steps_nil; intros H _; injection H as _ <-; eauto|]);
  rewrite !steps_cons; (destruct (lk cur) as [[i|i]|]; try discriminate); (destruct (str_eqb x (lit ".")); [apply IHr|]); (destruct (str_eqb x (lit "..")); [apply IHr|]);
  (destruct (lk (cur ++ [x])) as [[j|j]|]; [|apply IHr|destruct (is_nil r); discriminate]);
  (destruct (tg j) as [t|]; [|destruct (is_nil r); [|discriminate]; intros H _; injection H as _ <-; eauto]);
  (destruct (is_nil r && negb last); [intros H _; injection H as _ <-; eauto|]); [discriminate|].
  intros H Hm. destruct m as [|m]; [lia|]. eapply IHl; [exact H|lia].
Qed.

Lemma steps_fewer : forall lk tg last l cs cur l1 q, steps lk tg last l cur cs = Found l1 q -> l1 <= l.
Proof.
  intros lk tg last. induction l as [|l IHl]; (induction cs as [|x r IHr]; intros cur l1 q; [rewrite !steps_nil; intros H; injection H as <- _; lia|]);
  rewrite !steps_cons; (destruct (lk cur) as [[i|i]|]; try discriminate); (destruct (str_eqb x (lit ".")); [apply IHr|]); (destruct (str_eqb x (lit "..")); [apply IHr|]);
  (destruct (lk (cur ++ [x])) as [[j|j]|]; [|apply IHr|destruct (is_nil r); discriminate]);
  (destruct (tg j) as [t|]; [|destruct (is_nil r); [|discriminate]; intros H; injection H as <- _; lia]);
  (destruct (is_nil r && negb last); [intros H; injection H as <- _; lia|]); [discriminate|].
  intros H. apply IHl in H. lia.
Qed.

(** After current_path(p), a relative path x leads where p / x led before, if that led anywhere; likewise for the entry itself, symlinks not
    followed. So status and symlink_status are those p / x had. *)
Theorem C111_relative : forall E k s has p x j s1, wf s -> canon p -> canon x -> native x <> [] -> starts_slash (native x) = false ->
  run (fsk k) (set_current_path_impl has p) s = Done (tt, None) s1 -> path_div Posix E p x = Ok j ->
  (forall q y, leads_to k s (native j) q y -> leads_to k s1 (native x) q y) /\
  (forall st, run (fsk k) (status_impl true j) s = Done (st, None) s -> run (fsk k) (status_impl true x) s1 = Done (st, None) s1) /\
  (forall st, run (fsk k) (symlink_status_impl true j) s = Done (st, None) s -> run (fsk k) (symlink_status_impl true x) s1 = Done (st, None) s1).
Proof.
  intros E k s has p x j s1 Hw Hp Hx Ne Sx H Hj.
  assert (C : exists l q i, find_at k s true (native p) = Found l q /\ look (f_root s) q = Some (NDir i) /\ s1 = set_cwd s q /\ l <= k_links k).
  { unfold set_current_path_impl in H. rewrite run_sys in H. cbn [fsk] in H. unfold sys_chdir in H.
    destruct (find_at k s true (native p)) as [l q|q n|e] eqn:F; cbn in H; try (destruct has; discriminate).
    destruct (look (f_root s) q) as [[i|i]|] eqn:L; cbn in H; try (destruct has; discriminate). injection H as <-.
    exists l, q, i. repeat split; auto. unfold find_at, resolve_comps in F. destruct (is_nil (native p)); [discriminate|]. eapply steps_fewer; eauto. }
  destruct C as (l & q0 & i & F & L & -> & Hl).
  destruct (gives_div E p x Hp Hx) as (j' & J & _ & Jn). rewrite J in Hj. injection Hj as ->.
  assert (G : forall last l1 q, find_at k s last (native j) = Found l1 q -> exists l2, find_at k (set_cwd s q0) last (native x) = Found l2 q).
  { intros last l1 q. rewrite Jn, find_reported, (find_under k s last _ _ l q0 i Hw F L Sx Ne). destruct (is_nil (FS.comps (native x))); [discriminate|].
    intros G. unfold find_at, resolve_comps. rewrite Sx. replace (is_nil (native x)) with false by (destruct (native x); [congruence|reflexivity]).
    eapply steps_more; [exact G|exact Hl]. }
  assert (N : forall last y, node_at s (find_at k s last (native j)) = Val y -> node_at (set_cwd s q0) (find_at k (set_cwd s q0) last (native x)) = Val y).
  { intros last y Y. apply node_at_Val in Y as (l1 & q & Y1 & Y2). destruct (G last l1 q Y1) as [l2 ->]. cbn [node_at set_cwd f_root]. rewrite Y2. reflexivity. }
  split; [|split].
  - intros q y (l1 & Y1 & Y2). destruct (G true l1 q Y1) as [l2 G2]. exists l2. auto.
  - intros st. rewrite !run_status. destruct (node_at s (find_at k s true (native j))) as [e|y] eqn:Y; cbn [stat_result fst snd]; [discriminate|].
    rewrite (N true y Y). intros [= <-]. reflexivity.
  - intros st. rewrite !run_symlink_status. destruct (node_at s (find_at k s false (native j))) as [e|y] eqn:Y; cbn [stat_result fst snd]; [discriminate|].
    rewrite (N false y Y). intros [= <-]. reflexivity.
Qed.

(** * Relative and absolute paths *)

(** Two texts no call tells apart in state [s]. *)
Definition alike (k : choices) (s : fs) (t u : str) : Prop :=
  (forall last, find_at k s last t = find_at k s last u) /\ find_entry k s t = find_entry k s u /\
  FS.last_name t = FS.last_name u /\ ends_slash t = ends_slash u /\ is_nil (names t) = is_nil (names u) /\ is_nil t = is_nil u.

Lemma alike_relative : forall k s t i, wf s -> look (f_root s) (f_cwd s) = Some (NDir i) -> starts_slash t = false -> t <> [] ->
  alike k s (append_text (place_text (f_cwd s)) t) t.
Proof.
  intros k s t i Hw L S Ne. assert (G := wf_place _ _ _ (wf_root s Hw) L). split; [intros last; eapply find_relative; eauto|].
  assert (Hn : names t <> []).
  { destruct t as [|d b]; [congruence|]. intros E. apply only_slashes_names in E. cbn in S, E. rewrite S in E. discriminate. }
  assert (N : names (append_text (place_text (f_cwd s)) t) = f_cwd s ++ names t).
  { rewrite append_text_before by auto. rewrite names_before. rewrite names_place by exact G. reflexivity. }
  split; [|split; [|split; [|split]]].
  - unfold find_entry, resolve_comps. rewrite N. rewrite append_text_before by auto. rewrite starts_before by auto. rewrite starts_place, S.
    replace (is_nil (before (place_text (f_cwd s)) ++ t)) with false by (unfold before; reflexivity).
    replace (is_nil t) with false by (destruct t; [congruence|reflexivity]).
    rewrite steps_app by exact Hn. rewrite (steps_place _ _ _ _ (f_cwd s) [] (NDir i)); [reflexivity|exact L|exact G|discriminate].
  - unfold FS.last_name. rewrite N. destruct (names t) as [|x l] using rev_ind; [congruence|]. rewrite app_assoc, !last_last. reflexivity.
  - rewrite append_text_before by auto. rewrite ends_before by auto. destruct t; [congruence|reflexivity].
  - rewrite N. destruct (names t); [congruence|]. destruct (f_cwd s); reflexivity.
  - rewrite append_text_before by auto. unfold before. destruct t; [congruence|reflexivity].
Qed.

Lemma alike_absolute : forall cf k s p r, wf s -> canon p -> native p <> [] -> starts_slash (native p) = true \/ has_cwd k s ->
  run (fsk k) (absolute_impl cf true p) s = Done (r, None) s -> alike k s (native r) (native p).
Proof.
  intros cf k s p r Hw Hp Ne Hc H. destruct (C44_absolute cf k s true p Hw Hp) as [C1 C2]. destruct (starts_slash (native p)) eqn:S.
  - rewrite (C1 eq_refl) in H. injection H as <-. repeat split; reflexivity.
  - destruct Hc as [Hc|Hc]; [discriminate|]. destruct (C2 eq_refl Hc) as (r' & R & _ & Rn & _). rewrite R in H. injection H as <-. rewrite Rn.
    destruct Hc as [[i L] _]. eapply alike_relative; eauto.
Qed.

(** An operation that changes the file system does to absolute(p) what it does to p, with the same code. *)
Theorem C111_effect : forall cf k s p r q u x z m o, wf s -> canon p -> canon q -> native p <> [] -> native q <> [] ->
  starts_slash (native p) = true /\ starts_slash (native q) = true \/ has_cwd k s ->
  run (fsk k) (absolute_impl cf true p) s = Done (r, None) s -> run (fsk k) (absolute_impl cf true q) s = Done (u, None) s ->
  let same {A} (f g : prog (A * ecode)) := run (fsk k) f s = run (fsk k) g s in
  same (create_directory_impl true r) (create_directory_impl true p) /\
  same (create_directory_like_impl true r u) (create_directory_like_impl true p q) /\
  same (create_symlink_impl true x r) (create_symlink_impl true x p) /\
  same (create_directory_symlink_impl true x r) (create_directory_symlink_impl true x p) /\
  same (create_hard_link_impl true r u) (create_hard_link_impl true p q) /\ same (remove_impl true r) (remove_impl true p) /\
  same (rename_impl true r u) (rename_impl true p q) /\ same (resize_file_impl true r z) (resize_file_impl true p z) /\
  same (permissions_impl cf true r m o) (permissions_impl cf true p m o) /\
  same (set_last_write_time_impl cf true r z) (set_last_write_time_impl cf true p z) /\
  same (set_current_path_impl true r) (set_current_path_impl true p).
Proof.
  intros cf k s p r q u x z m o Hw Hp Hq Np Nq Hc Hr Hu.
  destruct (alike_absolute cf k s p r Hw Hp Np ltac:(tauto) Hr) as (F & E & La & En & Nn & Em).
  destruct (alike_absolute cf k s q u Hw Hq Nq ltac:(tauto) Hu) as (F' & E' & La' & En' & Nn' & _).
  cbv zeta. 
  assert (St : run (fsk k) (status_impl true r) s = run (fsk k) (status_impl true p) s) by (rewrite !run_status, F; reflexivity).
  assert (Ls : run (fsk k) (symlink_status_impl true r) s = run (fsk k) (symlink_status_impl true p) s) by (rewrite !run_symlink_status, F; reflexivity).
  assert (Mk : forall mode, fsk k (c_mkdir (native r) mode) s = fsk k (c_mkdir (native p) mode) s) by (intros; cbn [fsk]; unfold sys_mkdir; rewrite E; reflexivity).
  assert (Sy : forall t, fsk k (c_symlink t (native r)) s = fsk k (c_symlink t (native p)) s) by (intros; cbn [fsk]; unfold sys_symlink; rewrite F; reflexivity).
  split; [|split; [|split; [|split; [|split; [|split; [|split; [|split; [|split; [|split]]]]]]]]].
  - unfold create_directory_impl. rewrite !run_sys, Mk. reflexivity.
  - unfold create_directory_like_impl. rewrite !run_bind, !run_GetFileStatus, F'. destruct (stat_result _ _) as [[st buf] mec].
    destruct (negb (status_known st)); [reflexivity|]. destruct (negb (st_is_directory st)); [reflexivity|]. rewrite !run_sys, Mk. reflexivity.
  - unfold create_symlink_impl. rewrite !run_sys, Sy. reflexivity.
  - unfold create_directory_symlink_impl. rewrite !run_sys, Sy. reflexivity.
  - unfold create_hard_link_impl. rewrite !run_sys. cbn [fsk]. unfold sys_link. rewrite F, F'. reflexivity.
  - unfold remove_impl. change (empty r) with (is_nil (native r)). change (empty p) with (is_nil (native p)). rewrite Em. destruct (is_nil (native p)); [reflexivity|].
    rewrite !run_sys. cbn [fsk]. unfold sys_remove. rewrite E, La, En. reflexivity.
  - unfold rename_impl. rewrite !run_sys. cbn [fsk]. unfold sys_rename. rewrite E, E', La, La', En, En', Nn'. reflexivity.
  - unfold resize_file_impl. rewrite !run_sys. cbn [fsk]. unfold sys_truncate. rewrite F. reflexivity.
  - assert (Ch : forall md fl, fsk k (c_fchmodat (native r) md fl) s = fsk k (c_fchmodat (native p) md fl) s) by (intros; cbn [fsk]; unfold sys_fchmodat; rewrite F; reflexivity).
    assert (As : forall b A (f g : prog A), run (fsk k) f s = run (fsk k) g s ->
      run (fsk k) (let! _ := asap_assert (cf_dbg cf) b in f) s = run (fsk k) (let! _ := asap_assert (cf_dbg cf) b in g) s).
    { intros b A f g H. unfold asap_assert. destruct (cf_dbg cf && negb b); [reflexivity|exact H]. }
    unfold permissions_impl. cbv zeta. apply As.
    destruct (negb (negb (has_popt po_nofollow o)) || (has_popt po_add o || has_popt po_remove o)); [|rewrite !run_sys, Ch; reflexivity].
    rewrite !run_bind. destruct (negb (has_popt po_nofollow o)); [rewrite St, run_status|rewrite Ls, run_symlink_status]; cbv zeta;
      destruct (stat_result _ _) as [[st buf] ec]; cbn [fst snd]; (destruct (failed ec); [reflexivity|]); apply As; rewrite !run_sys, Ch; reflexivity.
  - unfold set_last_write_time_impl. rewrite !run_bind. destruct (run (fsk k) (lift _) s) as [[ts|] s1|f s1] eqn:A; [|reflexivity|reflexivity].
    assert (s1 = s) as -> by (destruct (timespec_of_time (cf_mode cf) z); cbn in A; congruence).
    rewrite !run_sys. cbn [fsk]. unfold sys_utimensat. rewrite F. reflexivity.
  - unfold set_current_path_impl. rewrite !run_sys. cbn [fsk]. unfold sys_chdir. rewrite F. reflexivity.
Qed.

(** In the example, seen from /b as from the current directory /a: the absolute /a/f is the same file, while f is there only for one of them; after
    current_path of l (a symlink to ../b), h is what l/h was. *)
Example C111_example :
  let t := set_cwd demo [lit "b"] in let l := topath (lit "l") in let h := topath (lit "h") in
  twins demo t /\ rooted (topath (lit "/a/f")) /\ rooted (topath (lit "/a/d/new")) /\
  (exists n, run (fsk demo_choices) (file_size_impl true (topath (lit "/a/f"))) t = Done (n, None) t /\ n = 5%Z) /\
  run (fsk demo_choices) (exists_ true (topath (lit "f"))) demo = Done (true, None) demo /\
  run (fsk demo_choices) (exists_ true (topath (lit "f"))) t = Done (false, None) t /\
  (exists s1, run (fsk demo_choices) (set_current_path_impl true l) demo = Done (tt, None) s1 /\ f_cwd s1 = [lit "b"]) /\
  (exists j, path_div Posix (cf_el plain_config) l h = Ok j /\ native j = lit "l/h" /\
     exists st, run (fsk demo_choices) (status_impl true j) demo = Done (st, None) demo /\ st_type st = ft_regular).
Proof.
  cbv zeta. split; [reflexivity|]. split; [split; [apply canon_mkpath|vm_compute; reflexivity]|]. split; [split; [apply canon_mkpath|vm_compute; reflexivity]|].
  split; [eexists; vm_compute; split; reflexivity|]. split; [vm_compute; reflexivity|]. split; [vm_compute; reflexivity|].
  split; [eexists; vm_compute; split; reflexivity|]. eexists. split; [vm_compute; reflexivity|]. split; [vm_compute; reflexivity|].
  eexists; vm_compute; split; reflexivity.
Qed.

(** In the example: f to the free name d/new. *)
Example C111_effect_example : let p := topath (lit "f") in let q := topath (lit "d/new") in
  wf demo /\ has_cwd demo_choices demo /\
  (exists r u, run (fsk demo_choices) (absolute_impl plain_config true p) demo = Done (r, None) demo /\ native r = lit "/a/f" /\
     run (fsk demo_choices) (absolute_impl plain_config true q) demo = Done (u, None) demo /\ native u = lit "/a/d/new") /\
  (exists s1, run (fsk demo_choices) (rename_impl true p q) demo = Done (tt, None) s1 /\ look (f_root s1) [lit "a"; lit "d"; lit "new"] = look (f_root demo) [lit "a"; lit "f"]).
Proof.
  cbv zeta. split; [exact demo_wf|]. split; [split; [eexists; vm_compute; reflexivity|vm_compute; reflexivity]|]. split.
  - eexists. eexists. split; [vm_compute; reflexivity|]. split; [vm_compute; reflexivity|]. split; vm_compute; reflexivity.
  - eexists. split; vm_compute; reflexivity.
Qed.

Print Assumptions C111_absolute.
Print Assumptions C111_create_directories.
Print Assumptions C111_create_directories_elided.
Print Assumptions C111_relative.
Print Assumptions C111_effect.
