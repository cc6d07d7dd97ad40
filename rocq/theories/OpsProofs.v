(** Relations between programs over system calls: agreement of the two overloads of an operation,
    absence of exceptions, balance of opened handles. *)
From Coq Require Import Ascii String Bool Arith NArith ZArith Lia List.
From Verif Require Import Str PathModel FlagsModel TimeModel Prog DirModel OpsModel.
Import ListNotations.

(** ** Agreement *)

Definition is_throw (f : failure) : bool := match f with FThrow _ _ => true | _ => false end.

Definition all_ok : forall c : call, answer c -> Prop := fun _ _ => True.

Inductive agree {A} (ok : forall c : call, answer c -> Prop) (bad : A -> Prop) : prog (A * ecode) -> prog (A * ecode) -> Prop :=
| ag_ret a : agree ok bad (Ret (a, None)) (Ret (a, None))
| ag_err v e ps : bad v -> agree ok bad (Ret (v, Some e)) (Stop (FThrow (Some e) ps))
| ag_stop f : is_throw f = false -> agree ok bad (Stop f) (Stop f)
| ag_sys c k k' : (forall r, ok c r -> agree ok bad (k r) (k' r)) -> agree ok bad (Sys c k) (Sys c k').

(** A program that throws no filesystem_error. *)
Fixpoint quiet {A} (ok : forall c : call, answer c -> Prop) (p : prog A) : Prop :=
  match p with
  | Ret _ => True
  | Stop f => is_throw f = false
  | Sys c k => forall r, ok c r -> quiet ok (k r)
  end.

(** A property of the results of a program. *)
Fixpoint returns {A} (ok : forall c : call, answer c -> Prop) (P : A -> Prop) (p : prog A) : Prop :=
  match p with
  | Ret a => P a
  | Stop _ => True
  | Sys c k => forall r, ok c r -> returns ok P (k r)
  end.

Lemma returns_run : forall A ok (P : A -> Prop) (p : prog A), returns ok P p ->
  forall S (h : kernel S), (forall c s, ok c (fst (h c s))) ->
  forall s a s', run h p s = Done a s' -> P a.
Proof.
  intros A ok P p. induction p as [a|f|c k IH]; intros H S h Hok s x s' Hr; cbn in Hr, H.
  - injection Hr as <- <-; auto.
  - discriminate.
  - pose proof (Hok c s) as Ho. destruct (h c s) as [r s1]. eauto.
Qed.

Lemma returns_bind : forall A B ok (P : A -> Prop) (Q : B -> Prop) (p : prog A) (f : A -> prog B),
  returns ok P p -> (forall a, P a -> returns ok Q (f a)) -> returns ok Q (pbind p f).
Proof. intros A B ok P Q p f Hp Hf. induction p; cbn in *; auto. Qed.

Lemma returns_triv : forall A ok (p : prog A), returns ok (fun _ => True) p.
Proof. intros A ok p. induction p; cbn; auto. Qed.

Lemma returns_any : forall A B ok (Q : B -> Prop) (p : prog A) (f : A -> prog B),
  (forall a, returns ok Q (f a)) -> returns ok Q (pbind p f).
Proof. intros. apply returns_bind with (P := fun _ => True); auto using returns_triv. Qed.

Lemma quiet_bind : forall A B ok (p : prog A) (f : A -> prog B),
  quiet ok p -> (forall a, quiet ok (f a)) -> quiet ok (pbind p f).
Proof. intros A B ok p f Hp Hf. induction p; cbn in *; auto. Qed.

Lemma quiet_lift : forall A ok (x : out A), quiet ok (lift x).
Proof. intros A ok [a|e| |]; cbn; auto. Qed.

Lemma quiet_assert : forall ok d c, quiet ok (asap_assert d c).
Proof. intros ok d c. unfold asap_assert. destruct (d && negb c); cbn; auto. Qed.

Lemma quiet_report : forall A ok ps (v : A) e, quiet ok (report true ps v e).
Proof. intros. exact I. Qed.

Lemma quiet_scoped : forall A ok (p : prog A) c, quiet ok p -> quiet ok c -> quiet ok (scoped p c).
Proof.
  intros A ok p c Hp Hc. induction p as [a|f|q k IH]; cbn in *; auto.
  - apply quiet_bind; auto.
  - destruct (unwinds f); cbn; auto. apply quiet_bind; auto.
Qed.

Lemma quiet_unwinding : forall A ok (p : prog A) c, quiet ok p -> quiet ok c -> quiet ok (unwinding p c).
Proof.
  intros A ok p c Hp Hc. induction p as [a|f|q k IH]; cbn in *; auto.
  destruct (unwinds f); cbn; auto. apply quiet_bind; auto.
Qed.

Lemma agree_bind : forall A B ok bad (p : prog A) (f g : A -> prog (B * ecode)),
  quiet ok p -> (forall a, agree ok bad (f a) (g a)) -> agree ok bad (pbind p f) (pbind p g).
Proof. intros A B ok bad p f g Hp Hf. induction p; cbn in *; auto; constructor; auto. Qed.

(** A sub-operation that passes the caller's error_code on. *)
Lemma agree_seq : forall A B ok (badA : A -> Prop) (badB : B -> Prop) (p p' : prog (A * ecode)) (f g : A * ecode -> prog (B * ecode)),
  agree ok badA p p' ->
  (forall a, agree ok badB (f (a, None)) (g (a, None))) ->
  (forall v e, badA v -> exists w, badB w /\ f (v, Some e) = Ret (w, Some e)) ->
  agree ok badB (pbind p f) (pbind p' g).
Proof.
  intros A B ok badA badB p p' f g Hp Hn He. induction Hp as [a|v e ps Hv|x Hx|c k k' Hk IH]; cbn; auto.
  - destruct (He v e Hv) as (w & Hw & ->). constructor; auto.
  - constructor; auto.
  - constructor; auto.
Qed.

Lemma agree_scoped : forall A ok bad (p p' : prog (A * ecode)) c,
  agree ok bad p p' -> quiet ok c -> agree ok bad (scoped p c) (scoped p' c).
Proof.
  intros A ok bad p p' c Hp Hc. induction Hp as [a|v e ps Hv|x Hx|q k k' Hk IH]; cbn.
  - apply agree_bind; auto. intros; constructor.
  - clear -Hv Hc. induction c; cbn in *; constructor; auto.
  - destruct (unwinds x); [|constructor; auto]. apply agree_bind; auto. intros; constructor; auto.
  - constructor; auto.
Qed.

(** The body of a loop: an inner call, unwinding the iterator when it throws. *)
Lemma agree_try : forall A B ok (badA : A -> Prop) (badB : B -> Prop) (p p' : prog (A * ecode)) c (w : B) (f g : A -> prog (B * ecode)),
  agree ok badA p p' -> quiet ok c -> badB w ->
  (forall a, agree ok badB (f a) (g a)) ->
  agree ok badB
    (pbind (unwinding p c) (fun r => if failed (snd r) then pbind c (fun _ => Ret (w, snd r)) else f (fst r)))
    (pbind (unwinding p' c) (fun r => if failed (snd r) then pbind c (fun _ => Ret (w, snd r)) else g (fst r))).
Proof.
  intros A B ok badA badB p p' c w f g Hp Hc Hw Hf. induction Hp as [a|v e ps Hv|x Hx|q k k' Hk IH]; cbn; auto.
  - match goal with |- agree _ _ _ (pbind _ ?G) => generalize G end.
    clear -Hw Hc. intros G. induction c; cbn in *; constructor; auto.
  - destruct (unwinds x); cbn; [|constructor; auto].
    match goal with |- agree _ _ (pbind _ ?F) (pbind _ ?G) => generalize F G end.
    clear -Hc Hx. intros F G. induction c; cbn in *; constructor; auto.
  - constructor; auto.
Qed.

Lemma agree_report : forall A ok (bad : A -> Prop) ps v e, bad v -> agree ok bad (report true ps v (Some e)) (report false ps v (Some e)).
Proof. intros. cbn. constructor; auto. Qed.

Lemma agree_same : forall A ok (bad : A -> Prop) (p : prog (A * ecode)), quiet ok p ->
  returns ok (fun r => snd r = None) p -> agree ok bad p p.
Proof.
  intros A ok bad p. induction p as [[a e]|f|c k IH]; cbn; intros Hq Hr; subst; constructor; auto.
Qed.

(** ** Programs that throw nothing *)

Create HintDb quiet.
#[export] Hint Resolve quiet_lift quiet_assert quiet_report : quiet.

Ltac qt1 :=
  match goal with
  | |- quiet _ (pbind _ _) => apply quiet_bind; [|intros]
  | |- quiet _ (Ret _) => exact I
  | |- quiet _ (Stop _) => reflexivity
  | |- quiet _ (Sys _ _) => intros ? ?
  | |- quiet _ (scoped _ _) => apply quiet_scoped
  | |- quiet _ (unwinding _ _) => apply quiet_unwinding
  | |- quiet _ (let '(_, _) := ?x in _) => destruct x
  | |- quiet _ (match ?x with _ => _ end) => destruct x
  | |- quiet _ _ => solve [auto with quiet]
  end.
Ltac qt := repeat qt1.

Section Quiet.
Variable ok : forall c : call, answer c -> Prop.
Variable cf : config.

Lemma quiet_create_status : forall p r, quiet ok (CreateFileStatus true p r).
Proof. intros. unfold CreateFileStatus. qt. Qed.
Hint Resolve quiet_create_status : quiet.

Lemma quiet_get_status : forall p, quiet ok (GetFileStatus true p).
Proof. intros. unfold GetFileStatus. qt. Qed.
Lemma quiet_get_link_status : forall p, quiet ok (GetLinkStatus true p).
Proof. intros. unfold GetLinkStatus. qt. Qed.
Hint Resolve quiet_get_status quiet_get_link_status : quiet.

Lemma quiet_status : forall p, quiet ok (status_impl true p).
Proof. intros. unfold status_impl. qt. Qed.
Lemma quiet_symlink_status : forall p, quiet ok (symlink_status_impl true p).
Proof. intros. unfold symlink_status_impl. qt. Qed.
Hint Resolve quiet_status quiet_symlink_status : quiet.

Lemma quiet_extract : forall p st, quiet ok (ExtractLastWriteTime cf true p st).
Proof. intros. unfold ExtractLastWriteTime. qt. Qed.
Hint Resolve quiet_extract : quiet.

Lemma quiet_basic : forall f e, quiet ok (UpdateBasicFileInformation cf true f e).
Proof. intros. unfold UpdateBasicFileInformation. qt. Qed.
Hint Resolve quiet_basic : quiet.

Lemma quiet_extra : forall f e, quiet ok (UpdateExtraFileInformation cf true f e).
Proof. intros. unfold UpdateExtraFileInformation. qt. Qed.
Lemma quiet_perms : forall f e, quiet ok (UpdatePermissionsInformation cf true f e).
Proof. intros. unfold UpdatePermissionsInformation. qt. Qed.
Hint Resolve quiet_extra quiet_perms : quiet.

Lemma quiet_handle : forall p c a, quiet ok (HandleError true p c a).
Proof. intros. exact I. Qed.
Hint Resolve quiet_handle : quiet.

Lemma quiet_symlink_type : forall e, quiet ok (GetSymLinkFileType cf true e).
Proof. intros. unfold GetSymLinkFileType. qt. Qed.
Lemma quiet_file_type : forall e, quiet ok (GetFileType cf true e).
Proof. intros. unfold GetFileType. qt. Qed.
Lemma quiet_size : forall e, quiet ok (GetSize cf true e).
Proof. intros. unfold GetSize. qt. Qed.
Lemma quiet_hard_link_count : forall e, quiet ok (GetHardLinkCount cf true e).
Proof. intros. unfold GetHardLinkCount. qt. Qed.
Lemma quiet_last_write_time : forall e, quiet ok (GetLastWriteTime cf true e).
Proof. intros. unfold GetLastWriteTime. qt. Qed.
Lemma quiet_entry_status : forall e, quiet ok (GetStatus cf true e).
Proof. intros. unfold GetStatus. qt. Qed.
Lemma quiet_entry_symlink_status : forall e, quiet ok (GetSymLinkStatus cf true e).
Proof. intros. unfold GetSymLinkStatus. qt. Qed.
Lemma quiet_refresh : forall e, quiet ok (DoRefresh cf true e).
Proof. intros. unfold DoRefresh. qt. Qed.
Hint Resolve quiet_symlink_type quiet_file_type : quiet.

Lemma quiet_readdir : forall d, quiet ok (posix_readdir d).
Proof. intros. unfold posix_readdir, get_file_type. qt. Qed.
Hint Resolve quiet_readdir : quiet.

Lemma quiet_advance : forall n s, quiet ok (advance cf n s).
Proof. induction n; intros; cbn [advance]; qt; auto. Qed.
Hint Resolve quiet_advance : quiet.

Lemma quiet_stream_ctor : forall n p o, quiet ok (stream_ctor cf n p o).
Proof. intros. unfold stream_ctor. qt. Qed.
Hint Resolve quiet_stream_ctor : quiet.

Lemma quiet_stream_destroy : forall s, quiet ok (stream_destroy s).
Proof. intros. unfold stream_destroy. qt. Qed.
Hint Resolve quiet_stream_destroy : quiet.

Lemma quiet_iter_ctor : forall n p o, quiet ok (dir_iter_ctor cf n true p o).
Proof. intros. unfold dir_iter_ctor. qt. Qed.
Lemma quiet_iter_increment : forall n it, quiet ok (dir_iter_increment cf n true it).
Proof. intros. unfold dir_iter_increment. qt. Qed.
Lemma quiet_iter_deref : forall it, quiet ok (dir_iter_deref cf it).
Proof. intros. unfold dir_iter_deref. qt. Qed.
Lemma quiet_iter_destroy : forall it, quiet ok (dir_iter_destroy it).
Proof. intros. unfold dir_iter_destroy. qt. Qed.
Hint Resolve quiet_iter_ctor quiet_iter_increment quiet_iter_deref quiet_iter_destroy : quiet.

Lemma quiet_close_all : forall l, quiet ok (close_all l).
Proof. induction l; cbn [close_all]; qt; auto. Qed.
Lemma quiet_impl_reset : forall l, quiet ok (impl_reset l).
Proof. intros. apply quiet_close_all. Qed.
Hint Resolve quiet_close_all quiet_impl_reset : quiet.

Lemma quiet_advance_stack : forall n st, quiet ok (advance_stack cf n st).
Proof. intros n st. induction st; cbn [advance_stack]; qt; auto. Qed.
Hint Resolve quiet_advance_stack : quiet.

Lemma quiet_simple : forall ps r, quiet ok (simple true ps r).
Proof. intros. unfold simple. qt. Qed.
Hint Resolve quiet_simple : quiet.

Lemma quiet_create_directory : forall p, quiet ok (create_directory_impl true p).
Proof. intros. unfold create_directory_impl. qt. Qed.
Lemma quiet_remove : forall p, quiet ok (remove_impl true p).
Proof. intros. unfold remove_impl. qt. Qed.
Hint Resolve quiet_create_directory quiet_remove : quiet.

Lemma quiet_first_env : forall l, quiet ok (first_env l).
Proof. induction l; cbn [first_env]; qt; auto. Qed.
Hint Resolve quiet_first_env : quiet.

Lemma quiet_current_path : quiet ok (current_path_impl cf true).
Proof. unfold current_path_impl. qt. Qed.
Hint Resolve quiet_current_path : quiet.
Lemma quiet_do_absolute : forall p, quiet ok (do_absolute_impl cf true p).
Proof. intros. unfold do_absolute_impl. qt. Qed.
Hint Resolve quiet_do_absolute : quiet.
Lemma quiet_canonical : forall p, quiet ok (canonical_impl cf true p).
Proof. intros. unfold canonical_impl. qt. Qed.
Lemma quiet_read_symlink : forall p, quiet ok (read_symlink_impl cf true p).
Proof. intros. unfold read_symlink_impl. qt. Qed.
Hint Resolve quiet_canonical quiet_read_symlink : quiet.

Lemma quiet_close_fd : forall fd, quiet ok (close_fd fd).
Proof. intros. unfold close_fd. qt. Qed.
Hint Resolve quiet_close_fd : quiet.
Lemma quiet_sendfile_loop : forall n r w c, quiet ok (sendfile_loop n r w c).
Proof. induction n; intros; cbn [sendfile_loop]; qt; auto. Qed.
Lemma quiet_copy_default : forall n r w, quiet ok (do_copy_file_default n r w).
Proof. induction n; intros; cbn [do_copy_file_default]; qt; auto. Qed.
Hint Resolve quiet_sendfile_loop quiet_copy_default : quiet.
Lemma quiet_do_copy : forall n r w z, quiet ok (do_copy_file cf n r w z).
Proof. intros. unfold do_copy_file, do_copy_file_sendfile. qt. Qed.
Hint Resolve quiet_do_copy : quiet.

Lemma quiet_push_missing : forall n p l, quiet ok (push_missing cf n p l).
Proof. induction n; intros; cbn [push_missing]; qt; auto. Qed.
Hint Resolve quiet_push_missing : quiet.

Lemma quiet_existing_prefix : forall l r, quiet ok (existing_prefix cf l r).
Proof. induction l; intros; cbn [existing_prefix]; qt; auto. Qed.
Hint Resolve quiet_existing_prefix : quiet.

Lemma quiet_remove_loop : forall rec n k it ec cnt, (forall p, quiet ok (rec p)) ->
  quiet ok (remove_loop cf rec n k it ec cnt).
Proof. intros rec n k. induction k; intros; cbn [remove_loop]; qt; auto. Qed.
Lemma quiet_do_remove_all : forall n p, quiet ok (do_remove_all_impl cf n p).
Proof.
  induction n as [|n IH]; intros p; cbn [do_remove_all_impl]; qt.
  apply quiet_remove_loop. auto.
Qed.
Hint Resolve quiet_do_remove_all : quiet.

End Quiet.
#[export] Hint Resolve quiet_get_status quiet_get_link_status quiet_status quiet_symlink_status quiet_extract quiet_basic
  quiet_extra quiet_perms quiet_handle quiet_symlink_type quiet_file_type quiet_readdir quiet_advance quiet_stream_ctor
  quiet_stream_destroy quiet_iter_ctor quiet_iter_increment quiet_iter_deref quiet_iter_destroy quiet_close_all
  quiet_impl_reset quiet_advance_stack quiet_simple quiet_create_directory quiet_remove quiet_first_env
  quiet_current_path quiet_do_absolute quiet_canonical quiet_read_symlink quiet_close_fd quiet_sendfile_loop
  quiet_copy_default quiet_do_copy quiet_push_missing quiet_existing_prefix quiet_do_remove_all : quiet.

(** ** The two overloads *)

Lemma agree_bind_post : forall A B ok bad (P : A -> Prop) (p : prog A) (f g : A -> prog (B * ecode)),
  quiet ok p -> returns ok P p -> (forall a, P a -> agree ok bad (f a) (g a)) -> agree ok bad (pbind p f) (pbind p g).
Proof. intros A B ok bad P p f g Hp Hr Hf. induction p; cbn in *; auto; constructor; auto. Qed.

(** A status that is not known comes with an error. *)
Definition st_post (r : file_status * stat_t * ecode) : Prop :=
  status_known (fst (fst r)) = false -> exists e, snd r = Some e.

Lemma create_status_post : forall ok has p r,
  returns ok (fun x => has = true -> status_known (fst x) = false -> exists e, snd x = Some e) (CreateFileStatus has p r).
Proof.
  intros ok has p [e|st]; cbn [CreateFileStatus].
  - destruct (errno_eqb e ENOENT || errno_eqb e ENOTDIR); cbn; [intros ->; eauto|].
    unfold report. destruct has; cbn; eauto.
  - cbn. intros _. unfold status_known. cbn. unfold type_of_mode.
    destruct (is_fmt (st_mode st) s_iflnk); [discriminate|]. destruct (is_fmt (st_mode st) s_ifreg); [discriminate|].
    destruct (is_fmt (st_mode st) s_ifdir); [discriminate|]. destruct (is_fmt (st_mode st) s_ifblk); [discriminate|].
    destruct (is_fmt (st_mode st) s_ifchr); [discriminate|]. destruct (is_fmt (st_mode st) s_ififo); [discriminate|].
    destruct (is_fmt (st_mode st) s_ifsock); discriminate.
Qed.

Lemma get_status_post : forall ok p, returns ok st_post (GetFileStatus true p).
Proof.
  intros ok p. intros r _. eapply returns_bind; [apply create_status_post|].
  intros [s e] H. cbn in *. exact (H eq_refl).
Qed.
Lemma get_link_status_post : forall ok p, returns ok st_post (GetLinkStatus true p).
Proof.
  intros ok p. intros r _. eapply returns_bind; [apply create_status_post|].
  intros [s e] H. cbn in *. exact (H eq_refl).
Qed.

Definition st_post1 (r : file_status * ecode) : Prop :=
  status_known (fst r) = false -> exists e, snd r = Some e.
Lemma status_post : forall ok p, returns ok st_post1 (status_impl true p).
Proof. intros. eapply returns_bind; [apply get_status_post|]. intros [[a b] c] H. exact H. Qed.
Lemma symlink_status_post : forall ok p, returns ok st_post1 (symlink_status_impl true p).
Proof. intros. eapply returns_bind; [apply get_link_status_post|]. intros [[a b] c] H. exact H. Qed.

Lemma ag_err' : forall A ok (bad : A -> Prop) v e ps, bad v ->
  agree ok bad (Ret (v, Some e)) (Stop (FThrow (Some e) ps)).
Proof. intros; constructor; auto. Qed.

Ltac ag1 :=
  match goal with
  | |- agree _ _ (Ret (?a, None)) (Ret (?a, None)) => constructor
  | |- agree _ _ (Stop _) (Stop _) => constructor; reflexivity
  | |- agree _ _ (report true _ _ (Some _)) _ => apply agree_report; try reflexivity
  | |- agree _ _ (Sys _ _) (Sys _ _) => constructor; intros ? ?
  | |- agree _ _ (pbind (GetFileStatus true ?p) _) _ =>
      eapply agree_bind_post; [solve [auto with quiet] | apply get_status_post | let H := fresh "Hpost" in intros [[? ?] ?] H; unfold st_post in H; cbn [fst snd] in *]
  | |- agree _ _ (pbind (GetLinkStatus true ?p) _) _ =>
      eapply agree_bind_post; [solve [auto with quiet] | apply get_link_status_post | let H := fresh "Hpost" in intros [[? ?] ?] H; unfold st_post in H; cbn [fst snd] in *]
  | |- agree _ _ (pbind (status_impl true ?p) _) _ =>
      eapply agree_bind_post; [solve [auto with quiet] | apply status_post | let H := fresh "Hpost" in intros [? ?] H; unfold st_post1 in H; cbn [fst snd] in *]
  | |- agree _ _ (pbind (symlink_status_impl true ?p) _) _ =>
      eapply agree_bind_post; [solve [auto with quiet] | apply symlink_status_post | let H := fresh "Hpost" in intros [? ?] H; unfold st_post1 in H; cbn [fst snd] in *]
  | |- agree _ _ (pbind ?p _) (pbind ?p _) => apply agree_bind; [solve [qt] | intros]
  | |- agree _ _ (scoped _ ?c) (scoped _ ?c) => apply agree_scoped; [|solve [auto with quiet]]
  | |- agree _ _ (if negb (status_known ?s) then _ else _) _ =>
      let H := fresh "Hk" in destruct (status_known s) eqn:H; cbn [negb];
      [| match goal with Hp : _ = false -> exists _, _ |- _ => destruct (Hp eq_refl) as [? ->] end]
  | |- agree _ _ (if failed ?e then _ else _) _ => is_var e; destruct e; cbn [failed]
  | |- agree _ _ (let '(_, _) := ?x in _) _ => destruct x
  | |- agree _ _ (match ?x with _ => _ end) _ => destruct x
  end.
Ltac ag := repeat ag1.

Section Agree.
Variable ok : forall c : call, answer c -> Prop.
Variable cf : config.

Lemma agree_simple : forall ps r, agree ok (fun _ => True) (simple true ps r) (simple false ps r).
Proof. intros. unfold simple. ag; exact I. Qed.

Lemma agree_create_directory : forall p, agree ok (eq false) (create_directory_impl true p) (create_directory_impl false p).
Proof. intros. unfold create_directory_impl. ag. Qed.
Lemma agree_create_directory_like : forall p q, agree ok (eq false) (create_directory_like_impl true p q) (create_directory_like_impl false p q).
Proof. intros. unfold create_directory_like_impl. ag. Qed.
Lemma agree_create_directory_symlink : forall p q, agree ok (fun _ => True) (create_directory_symlink_impl true p q) (create_directory_symlink_impl false p q).
Proof. intros. unfold create_directory_symlink_impl. constructor; intros. apply agree_simple. Qed.
Lemma agree_create_hard_link : forall p q, agree ok (fun _ => True) (create_hard_link_impl true p q) (create_hard_link_impl false p q).
Proof. intros. unfold create_hard_link_impl. constructor; intros. apply agree_simple. Qed.
Lemma agree_create_symlink : forall p q, agree ok (fun _ => True) (create_symlink_impl true p q) (create_symlink_impl false p q).
Proof. intros. unfold create_symlink_impl. constructor; intros. apply agree_simple. Qed.
Lemma agree_set_current_path : forall p, agree ok (fun _ => True) (set_current_path_impl true p) (set_current_path_impl false p).
Proof. intros. unfold set_current_path_impl. constructor; intros. apply agree_simple. Qed.
Lemma agree_equivalent : forall p q, agree ok (eq false) (equivalent_impl true p q) (equivalent_impl false p q).
Proof. intros. unfold equivalent_impl. ag. Qed.
Lemma agree_file_size : forall p, agree ok (eq u64_max) (file_size_impl true p) (file_size_impl false p).
Proof.
  intros. unfold file_size_impl. ag1.
  destruct (negb (st_exists f) || negb (st_is_regular_file f)); [|ag].
  destruct e; cbn [failed]; ag.
Qed.
Lemma agree_hard_link_count : forall p, agree ok (eq u64_max) (hard_link_count_impl true p) (hard_link_count_impl false p).
Proof. intros. unfold hard_link_count_impl. ag. Qed.
Lemma agree_remove : forall p, agree ok (eq false) (remove_impl true p) (remove_impl false p).
Proof. intros. unfold remove_impl. ag. Qed.
Lemma agree_rename : forall p q, agree ok (fun _ => True) (rename_impl true p q) (rename_impl false p q).
Proof. intros. unfold rename_impl. constructor; intros. apply agree_simple. Qed.
Lemma agree_resize_file : forall p z, agree ok (fun _ => True) (resize_file_impl true p z) (resize_file_impl false p z).
Proof. intros. unfold resize_file_impl. constructor; intros. apply agree_simple. Qed.
Lemma agree_space : forall p, agree ok (eq space_unknown) (space_impl true p) (space_impl false p).
Proof. intros. unfold space_impl. ag. Qed.
Lemma agree_current_path : agree ok (eq path_default) (current_path_impl cf true) (current_path_impl cf false).
Proof. unfold current_path_impl. ag. Qed.

Lemma agree_absolute : forall p, agree ok (eq path_default) (absolute_impl cf true p) (absolute_impl cf false p).
Proof.
  intros p. unfold absolute_impl, do_absolute_impl.
  destruct (is_absolute Posix (cf_el cf) p); [constructor|].
  assert (H : agree ok (fun r => fst r = path_default)
     (let! r := current_path_impl cf true in let '(cwd, ec) := r in
      if failed ec then Ret (path_default, cwd, ec)
      else let! q := lift (path_div Posix (cf_el cf) cwd p) in Ret (q, cwd, ec))
     (let! r := current_path_impl cf false in let '(cwd, ec) := r in
      if failed ec then Ret (path_default, cwd, ec)
      else let! q := lift (path_div Posix (cf_el cf) cwd p) in Ret (q, cwd, ec))).
  { eapply agree_seq; [apply agree_current_path| |].
    - intros a. cbn [failed]. apply agree_bind; [auto with quiet|]. intros; constructor.
    - intros v e <-. cbn [failed]. exists (path_default, path_default). auto. }
  eapply agree_seq; [exact H| |].
  - intros [q c]. constructor.
  - intros [q c] e Hq. cbn in *. subst. eauto.
Qed.

Lemma agree_read_symlink : forall p, agree ok (eq path_default) (read_symlink_impl cf true p) (read_symlink_impl cf false p).
Proof. intros. unfold read_symlink_impl. ag. Qed.
Lemma agree_copy_symlink : forall p q, agree ok (fun _ => True) (copy_symlink_impl cf true p q) (copy_symlink_impl cf false p q).
Proof.
  intros. unfold copy_symlink_impl. apply agree_bind; [auto with quiet|].
  intros [a [e|]]; cbn [failed snd fst]; [constructor; auto|apply agree_create_symlink].
Qed.

(** do_copy_file reports an error exactly when it fails. *)
Lemma default_post : forall n r w, returns ok (fun x => fst x = false -> exists e, snd x = Some e) (do_copy_file_default n r w).
Proof.
  induction n; intros; cbn [do_copy_file_default]; [exact I|]. intros a _. destruct a as [e|[|c d]]; cbn.
  - eauto.
  - discriminate.
  - intros b _. destruct b; cbn; eauto.
Qed.
Lemma copy_post : forall n r w z, returns ok (fun x => fst x = false -> exists e, snd x = Some e) (do_copy_file cf n r w z).
Proof.
  intros. unfold do_copy_file. destruct (cf_sendfile cf); [|apply default_post].
  apply returns_any. intros [b e]. cbn [fst snd]. destruct b; [cbn; discriminate|apply default_post].
Qed.

Lemma agree_copy_body : forall n p q r w a b x,
  agree ok (eq false) (copy_file_body cf n true p q r w a b x) (copy_file_body cf n false p q r w a b x).
Proof.
  intros. unfold copy_file_body.
  assert (Hc : agree ok (eq false)
     (let! c := do_copy_file cf n r w (st_size a) in if fst c then Ret (true, None) else report true [q; p] false (snd c))
     (let! c := do_copy_file cf n r w (st_size a) in if fst c then Ret (true, None) else report false [q; p] false (snd c))).
  { eapply agree_bind_post; [auto with quiet|apply copy_post|]. intros [[] e] Hp; cbn [fst snd] in *; [constructor|].
    destruct (Hp eq_refl) as [y ->]. constructor; auto. }
  unfold refresh_status. ag1. destruct e; cbn [failed]; [constructor; auto|].
  destruct x; [|exact Hc]. destruct (negb _); [constructor; auto|].
  constructor; intros r1 _. destruct r1; [constructor; auto|].
  constructor; intros r2 _. destruct r2; [constructor; auto|]. exact Hc.
Qed.

Lemma agree_copy_from : forall n p q o r,
  agree ok (eq false) (copy_file_from cf n true p q o r) (copy_file_from cf n false p q o r).
Proof.
  intros. unfold copy_file_from, refresh_status. ag1. destruct e; cbn [failed]; [constructor; auto|].
  destruct (negb (st_is_regular_file f)); [ag|]. ag1.
  destruct (status_known f0); cbn [negb]; [|destruct (Hpost0 eq_refl) as [? ->]; constructor; auto].
  destruct (st_exists f0 && negb (st_is_regular_file f0)); [ag|].
  destruct (st_exists f0 && stat_equivalent s s0); [ag|].
  destruct (st_exists f0 && co_set co_skip_existing o); [ag|].
  eapply agree_seq with (badA := eq false).
  - ag.
  - intros a. cbn [fst snd]. destruct (negb a); [constructor|]. constructor. intros x Hx. destruct x; [ag|].
    apply agree_scoped; auto with quiet. apply agree_copy_body.
  - intros v e0 <-. cbn. eauto.
Qed.

Lemma agree_copy_file : forall n p q o,
  agree ok (eq false) (copy_file_impl cf n true p q o) (copy_file_impl cf n false p q o).
Proof.
  intros. unfold copy_file_impl. constructor. intros r _. destruct r; [constructor; auto|].
  apply agree_scoped; auto with quiet. apply agree_copy_from.
Qed.

(** Iterators. *)
Lemma agree_iter_ctor : forall n p o, agree ok (eq None) (dir_iter_ctor cf n true p o) (dir_iter_ctor cf n false p o).
Proof.
  intros. unfold dir_iter_ctor.
  eapply agree_bind_post with (P := fun r => good (snd r) = true -> fst r = None); [auto with quiet| |].
  - intros r _. destruct r as [e|d].
    + cbn. intros; discriminate.
    + assert (H : forall k s, returns ok (fun x => let '(_, ec, s1) := x in good s1 = true -> ec = None) (advance cf k s)).
      { induction k; intros s; cbn [advance]; [exact I|]. destruct (ds_handle s); [|exact I].
        apply returns_any. intros [[nm t] ec]. destruct (str_eqb nm (lit ".") || str_eqb nm (lit "..")); [apply IHk|].
        destruct ec; cbn [failed orb]; [intros ? _; cbn; discriminate|].
        destruct (is_nil nm); [intros ? _; cbn; discriminate|]. apply returns_any. intros q. cbn. reflexivity. }
      eapply returns_bind; [apply H|]. intros [[b ec] s] Hs. exact Hs.
  - intros [m s] Hg. cbn [fst snd] in *. destruct (good s); [rewrite Hg by reflexivity; constructor|].
    destruct m; cbn [failed]; [constructor; auto|constructor].
Qed.

Lemma agree_iter_increment : forall n it, agree ok (eq None) (dir_iter_increment cf n true it) (dir_iter_increment cf n false it).
Proof. intros. unfold dir_iter_increment. destruct it; [|ag]. apply agree_bind; [auto with quiet|]. intros [[b e] s]. ag. Qed.

Lemma agree_copy_loop : forall (rec rec' : path -> path -> prog (unit * ecode)) n p q k it m,
  (forall a b, agree ok (fun _ => True) (rec a b) (rec' a b)) ->
  agree ok (fun _ => True) (copy_loop cf rec n true p q k it m) (copy_loop cf rec' n false p q k it m).
Proof.
  intros rec rec' n p q k. induction k as [|k IH]; intros it m Hrec; cbn [copy_loop]; [constructor; reflexivity|].
  destruct (is_end it); [constructor|].
  destruct m; cbn [failed].
  - apply agree_scoped; [constructor; exact I|auto with quiet].
  - eapply agree_try with (badA := fun _ => True) (f := fun _ => let! j := dir_iter_increment cf n true it in copy_loop cf rec n true p q k (fst j) (snd j))
      (g := fun _ => let! j := dir_iter_increment cf n true it in copy_loop cf rec' n false p q k (fst j) (snd j)); auto with quiet.
    + do 3 (apply agree_bind; [auto with quiet|]; intros). auto.
    + intros _. apply agree_bind; [auto with quiet|]. intros j. auto.
Qed.

Lemma agree_copy : forall n p q o, agree ok (fun _ => True) (copy_impl cf n true p q o) (copy_impl cf n false p q o).
Proof.
  induction n as [|n IH]; intros p q o; cbn [copy_impl]; [constructor; reflexivity|].
  apply agree_bind; [destruct (_ || _); auto with quiet|]. intros [[f f_st] m1].
  destruct m1; cbn [failed]; [constructor; auto|].
  eapply agree_bind_post with (P := st_post); [destruct (_ || _); auto with quiet| |].
  { destruct (_ || _); [apply get_link_status_post|apply get_status_post]. }
  intros [[t t_st] m2] Hpost. unfold st_post in Hpost. cbn [fst snd] in Hpost.
  ag1; [|constructor; auto].
  destruct (_ || _ || _ || _ || _); [constructor; auto|].
  destruct (st_is_symlink f).
  { destruct (co_set co_skip_symlinks o); [constructor|]. destruct (negb (st_exists t)); [apply agree_copy_symlink|constructor; auto]. }
  destruct (st_is_regular_file f).
  { destruct (co_set co_directories_only o); [constructor|].
    destruct (co_set co_create_symlinks o); [apply agree_create_symlink|].
    destruct (co_set co_create_hard_links o); [apply agree_create_hard_link|].
    assert (Hf : forall a b, agree ok (fun _ => True) (let! r := copy_file_impl cf n true a b o in Ret (tt, snd r))
                     (let! r := copy_file_impl cf n false a b o in Ret (tt, snd r))).
    { intros. eapply agree_seq; [apply agree_copy_file| |].
      - intros. constructor.
      - intros. exists tt. auto. }
    destruct (st_is_directory t); [|apply Hf].
    do 2 (apply agree_bind; [auto with quiet|]; intros). apply Hf. }
  destruct (st_is_directory f && co_set co_create_symlinks o); [constructor; auto|].
  destruct (st_is_directory f && _); [|constructor].
  eapply agree_seq with (badA := fun _ => True).
  - destruct (negb (st_exists t)); [|constructor].
    pose proof (agree_create_directory_like q p) as H. clear -H. induction H; constructor; auto.
  - intros a. cbn [failed snd]. eapply agree_seq; [apply agree_iter_ctor| |].
    + intros it. cbn [failed fst snd]. apply agree_copy_loop. auto.
    + intros. exists tt. auto.
  - intros. exists tt. auto.
Qed.

Lemma agree_is_empty : forall n p, agree ok (eq false) (is_empty_impl cf n true p) (is_empty_impl cf n false p).
Proof.
  intros. unfold is_empty_impl. ag1. destruct e; cbn [failed]; [constructor; auto|].
  destruct (_ && _); [ag|]. destruct (st_is_directory f); [|ag].
  unfold is_empty_directory. eapply agree_seq; [apply agree_iter_ctor| |].
  - intros a. cbn [failed fst snd]. apply agree_bind; [auto with quiet|]. intros; constructor.
  - intros v e _. cbn [failed snd]. eauto.
Qed.

Lemma agree_last_write_time : forall p, agree ok (eq i64_min) (last_write_time_impl cf true p) (last_write_time_impl cf false p).
Proof. intros. unfold last_write_time_impl, ExtractLastWriteTime. ag. Qed.
Lemma agree_set_last_write_time : forall p t, agree ok (fun _ => True) (set_last_write_time_impl cf true p t) (set_last_write_time_impl cf false p t).
Proof.
  intros. unfold set_last_write_time_impl. apply agree_bind; [auto with quiet|]. intros [ts|]; [|constructor; auto].
  constructor; intros. apply agree_simple.
Qed.
Lemma agree_permissions : forall p a b, agree ok (fun _ => True) (permissions_impl cf true p a b) (permissions_impl cf false p a b).
Proof.
  intros. unfold permissions_impl. apply agree_bind; [auto with quiet|]. intros _.
  assert (Hf : forall m s, agree ok (fun _ => True) (sys r := c_fchmodat (native p) m s in simple true [p] r)
                 (sys r := c_fchmodat (native p) m s in simple false [p] r)).
  { intros. constructor. intros. apply agree_simple. }
  destruct (_ || _); [|apply Hf].
  apply agree_bind; [destruct (negb _); auto with quiet|].
  intros [st e]. destruct e; cbn [failed]; [constructor; auto|]. apply agree_bind; [auto with quiet|]. intros _. apply Hf.
Qed.
Lemma agree_remove_all : forall n p, agree ok (eq u64_max) (remove_all_impl cf n true p) (remove_all_impl cf n false p).
Proof.
  intros. unfold remove_all_impl. destruct (empty p); [constructor|]. apply agree_bind; [auto with quiet|].
  intros [c [e|]]; cbn [snd fst]; [|constructor]. destruct (errno_eqb e ENOENT); constructor; auto.
Qed.
Lemma agree_temp_directory_path : agree ok (eq path_default) (temp_directory_path_impl cf true) (temp_directory_path_impl cf false).
Proof. unfold temp_directory_path_impl. ag. Qed.

(** Recursive iterators; the error value is an end iterator. *)
Definition at_end (it : rdir_iter) : Prop := r_impl it = None.

Lemma agree_rdir_ctor : forall n p o, agree ok at_end (rdir_ctor cf n true p o) (rdir_ctor cf n false p o).
Proof.
  intros. unfold rdir_ctor.
  eapply agree_bind_post with (P := fun r => fst r <> None -> ds_handle (snd r) = None); [auto with quiet| |].
  - intros r _. destruct r as [e|d]; [cbn; auto|].
    assert (H : forall k s, returns ok (fun x => let '(_, ec, s1) := x in ec <> None -> ds_handle s1 = None) (advance cf k s)).
    { induction k; intros s; cbn [advance]; [exact I|]. destruct (ds_handle s); [|exact I].
      apply returns_any. intros [[nm t] ec]. destruct (str_eqb nm (lit ".") || str_eqb nm (lit "..")); [apply IHk|].
      destruct ec; cbn [failed orb]; [intros ? _; cbn; auto|].
      destruct (is_nil nm); [intros ? _; cbn; auto|]. apply returns_any. intros q. cbn. congruence. }
    eapply returns_bind; [apply H|]. intros [[b ec] s] Hs. exact Hs.
  - intros [m s] Hh. cbn [fst snd] in *. destruct m; cbn [failed].
    + cbn [report pbind]. unfold stream_destroy. rewrite Hh by discriminate. cbn. constructor. reflexivity.
    + destruct (negb (good s)); constructor.
Qed.

Lemma agree_rdir_advance : forall n it, agree ok at_end (rdir_advance cf n true it) (rdir_advance cf n false it).
Proof.
  intros. unfold rdir_advance. destruct (r_impl it) as [[st o]|] eqn:Hi; [|cbn; constructor; exact Hi].
  apply agree_bind; [auto with quiet|]. intros [[f m] r]. destruct f; [constructor|].
  apply agree_bind; [auto with quiet|]. intros _. destruct m; cbn; constructor. reflexivity.
Qed.
Lemma agree_rdir_pop : forall n it, agree ok at_end (rdir_pop cf n true it) (rdir_pop cf n false it).
Proof.
  intros. unfold rdir_pop. destruct (r_impl it) as [[[|s st] o]|] eqn:Hi; [ag| |cbn; constructor; exact Hi].
  apply agree_bind; [auto with quiet|]. intros _. destruct (is_nil st); [constructor|]. apply agree_rdir_advance.
Qed.
Lemma agree_rdir_increment : forall n it, agree ok at_end (rdir_increment cf n true it) (rdir_increment cf n false it).
Proof.
  intros. unfold rdir_increment. destruct (r_recursion it); [|cbn; apply agree_rdir_advance].
  unfold rdir_try. destruct (r_impl it) as [[[|s st] o]|] eqn:Hi; [cbn; constructor; reflexivity| |cbn; constructor; exact Hi].
  set (q := if has_dopt do_follow_directory_symlink o then _ else _).
  assert (Hq : quiet ok q) by (subst q; destruct (has_dopt _ o); auto with quiet).
  clearbody q. induction q as [a|f|c k IH]; cbn [quiet pbind] in *.
  2: constructor; auto.
  2: constructor; intros; auto.
  destruct a as [[t ec0] e1].
  set (m := if failed ec0 && status_known (status_of_type t) then None else ec0).
  set (sk := if has_dopt do_follow_directory_symlink o then _ else _). clearbody sk m.
  assert (Hx : quiet ok (if sk then Ret (m, None) else let! c := stream_ctor cf n (de_path e1) o in
     Ret (fst c, if good (snd c) then Some (snd c) else None))) by (destruct sk; qt).
  revert Hx. generalize (if sk then Ret (m, None) else let! c := stream_ctor cf n (de_path e1) o in
     Ret (fst c, if good (snd c) then Some (snd c) else None)).
  intros x. induction x as [[m2 ns]|f|c k IH]; cbn [quiet pbind]; intros Hx.
  2: constructor; auto.
  2: constructor; intros; auto.
  destruct ns as [ni|]; [cbn; constructor|].
  destruct m2 as [x|]; [|cbn [pbind orb failed]; apply agree_rdir_advance].
  destruct (_ && _); [cbn [pbind orb failed]; apply agree_rdir_advance|].
  clear Hx. pose proof (quiet_impl_reset ok (Stream (ds_handle s) (ds_root s) e1 :: st)) as Hr. revert Hr.
  generalize (impl_reset (Stream (ds_handle s) (ds_root s) e1 :: st)). intros y.
  induction y as [u|f|c k IH]; cbn [quiet pbind]; intros Hr.
  - cbn. constructor. reflexivity.
  - constructor; auto.
  - constructor; auto.
Qed.

End Agree.

(** ** Operations whose overloads agree only when some calls do not fail *)

Definition cwd_ok (c : call) : answer c -> Prop :=
  match c with c_getcwd _ => fun r => exists t, r = Val t | _ => fun _ => True end.

(** stat(2) fails only with ENOENT or ENOTDIR. *)
Definition stat_ok (c : call) : answer c -> Prop :=
  match c with c_stat _ => fun r => forall e, r = Err e -> e = ENOENT \/ e = ENOTDIR | _ => fun _ => True end.

Section AgreeCwd.
Variable cf : config.

Lemma absolute_cwd : forall has p, returns cwd_ok (fun r => snd r = None) (do_absolute_impl cf has p).
Proof.
  intros. unfold do_absolute_impl, current_path_impl. destruct (is_absolute _ _ p); [reflexivity|].
  cbn. intros size _. unfold asap_assert. destruct (cf_dbg cf && _); cbn; [exact I|].
  destruct (size <? 0)%Z; cbn; [exact I|]. intros r [t ->]. cbn.
  destruct (path_div _ _ _ _); cbn; auto.
Qed.

Lemma absolute_cwd_same : forall p A (bad : A -> Prop) f g,
  (forall a c, agree cwd_ok bad (f (a, c, None)) (g (a, c, None))) ->
  agree cwd_ok bad (pbind (do_absolute_impl cf true p) f) (pbind (do_absolute_impl cf false p) g).
Proof.
  intros p A bad f g H. unfold do_absolute_impl, current_path_impl.
  destruct (is_absolute _ _ p); [apply H|].
  cbn. constructor. intros size _. unfold asap_assert. destruct (cf_dbg cf && _); cbn; [constructor; auto|].
  destruct (size <? 0)%Z; cbn; [constructor; auto|]. constructor. intros r [t ->]. cbn.
  destruct (path_div _ _ _ _); cbn; [apply H| | |]; constructor; auto.
Qed.

Lemma agree_canonical : forall p, agree cwd_ok (eq path_default) (canonical_impl cf true p) (canonical_impl cf false p).
Proof.
  intros p. unfold canonical_impl. apply absolute_cwd_same. intros a c. constructor.
  intros r _. destruct r; constructor; auto.
Qed.

Lemma agree_weakly_canonical : forall p, agree cwd_ok (eq path_default) (weakly_canonical_impl cf true p) (weakly_canonical_impl cf false p).
Proof.
  intros p. unfold weakly_canonical_impl. destruct (empty p); [apply agree_canonical|].
  ag1. ag1; [|constructor; auto]. destruct (st_exists f); [apply agree_canonical|].
  apply agree_bind; [auto with quiet|]. intros [[res rest] m]. apply agree_bind.
  { destruct (_ && _); auto with quiet. exact I. }
  intros [res1 m1]. destruct (failed m1); [constructor|].
  do 2 (apply agree_bind; [auto with quiet|]; intros). constructor.
Qed.

Lemma agree_relative_with : forall rel p b, agree cwd_ok (eq path_default) (relative_with cf rel true p b) (relative_with cf rel false p b).
Proof.
  intros. unfold relative_with. eapply agree_seq; [apply agree_weakly_canonical| |].
  - intros a. cbn [failed snd]. eapply agree_seq; [apply agree_weakly_canonical| |].
    + intros c. cbn [failed snd]. apply agree_bind; [auto with quiet|]. intros; constructor.
    + intros v e _. cbn. eauto.
  - intros v e _. cbn. eauto.
Qed.

Lemma agree_relative_cwd_with : forall rel p,
  agree cwd_ok (eq path_default) (let! c := current_path_impl cf false in relative_with cf rel true p (fst c))
        (let! c := current_path_impl cf false in relative_with cf rel false p (fst c)).
Proof.
  intros. unfold current_path_impl. cbn. constructor. intros size _. unfold asap_assert.
  destruct (cf_dbg cf && _); cbn; [constructor; auto|]. destruct (size <? 0)%Z; cbn; [constructor; auto|].
  constructor. intros r [t ->]. cbn. apply agree_relative_with.
Qed.

Lemma agree_create_missing : forall p m c, agree stat_ok (eq false) (create_missing true p m c) (create_missing false p m c).
Proof.
  intros p m. induction m as [|top rest IH]; intros c; cbn [create_missing]; [constructor|].
  apply agree_bind; [auto with quiet|]. intros [s se]. cbn [fst snd].
  apply agree_bind; [destruct (file_type_eqb (st_type s) ft_not_found); qt|]. intros me.
  apply agree_bind.
  { destruct (failed me); [|exact I]. apply quiet_bind; [|intros; exact I].
    unfold is_directory, is_type, status_impl, GetFileStatus. cbn. intros r Hr. destruct r as [e|st]; cbn; auto.
    cbn in Hr. destruct (Hr e eq_refl) as [->| ->]; cbn; auto. }
  intros me2. destruct me2; [constructor; auto|apply IH].
Qed.

Lemma agree_create_directories : forall n p, agree stat_ok (eq false) (create_directories_impl cf n true p) (create_directories_impl cf n false p).
Proof.
  intros. unfold create_directories_impl. destruct (empty p); [constructor; auto|].
  apply agree_bind; [apply quiet_push_missing|]. intros m. destruct (is_nil m); [constructor|]. apply agree_create_missing.
Qed.

Lemma agree_exists : forall ok p, agree ok (eq false) (exists_ true p) (exists_ false p).
Proof.
  intros. unfold exists_, status_impl, GetFileStatus. cbn. constructor. intros r _. destruct r as [e|st]; cbn.
  - destruct (errno_eqb e ENOENT || errno_eqb e ENOTDIR); cbn; constructor. reflexivity.
  - match goal with |- agree _ _ (Ret (_, if ?b then _ else _)) _ => destruct b end; constructor.
Qed.

End AgreeCwd.

(** ** From trees to executions *)

Definition overloads_agree_ok {A} (ok : forall c : call, answer c -> Prop) (bad : A -> Prop) (p p' : prog (A * ecode)) : Prop :=
  forall S (h : kernel S), (forall c s, ok c (fst (h c s))) -> forall s,
  match run h p s with
  | Done (v, None) s' => run h p' s = Done (v, None) s'
  | Done (v, Some e) s' => bad v /\ exists paths, run h p' s = Failed (FThrow (Some e) paths) s'
  | Failed f s' => (forall e paths, f <> FThrow e paths) /\ run h p' s = Failed f s'
  end.

Lemma agree_run : forall A ok (bad : A -> Prop) p p', agree ok bad p p' -> overloads_agree_ok ok bad p p'.
Proof.
  intros A ok bad p p' H S h Hok. induction H as [a|v e ps Hv|f Hf|c k k' Hk IH]; intros s; cbn; eauto.
  - split; auto. intros e ps ->. discriminate.
  - pose proof (Hok c s) as Ho. destruct (h c s) as [r s1]. apply IH. exact Ho.
Qed.
