(** C66: functions declared noexcept. An exception that leaves such a function ends the program (std::terminate), so
    none may, whatever the system answers. *)
From Coq Require Import Ascii String Bool Arith NArith ZArith Lia List.
From Verif Require Import Str PathModel FlagsModel TimeModel Prog DirModel OpsModel OpsProofs OpsProps.
Import ListNotations.

(** * Specification *)

(** The run ends with an exception: a filesystem_error or an exception of class path. *)
Definition exception_escapes {A S} (o : outcome A S) : Prop :=
  match o with
  | Failed (FThrow _ _) _ => True
  | Failed (FPath _) _ => True
  | _ => False
  end.

(** No exception leaves the function, with any system in any state. *)
Definition never_throws {A} (p : prog A) : Prop :=
  forall S (h : kernel S) s, ~ exception_escapes (run h p s).

(** * Proofs *)

Fixpoint quiet {A} (p : prog A) : Prop :=
  match p with
  | Ret _ => True
  | Stop f => unwinds f = false
  | Sys c k => forall r, quiet (k r)
  end.

Lemma quiet_never : forall A (p : prog A), quiet p -> never_throws p.
Proof.
  intros A p. induction p as [a|f|c k IH]; intros H S h s.
  - exact (fun x => x).
  - destruct f; cbn in *; try discriminate; exact (fun x => x).
  - cbn. destruct (h c s) as [r s']. apply IH, H.
Qed.

Lemma quiet_bind : forall A B (p : prog A) (f : A -> prog B), quiet p -> (forall a, quiet (f a)) -> quiet (pbind p f).
Proof. induction p as [a|x|c k IH]; intros f Hp Hf; cbn in *; auto. Qed.

Lemma quiet_report : forall A l (v : A) e, quiet (report true l v e).
Proof. intros. exact Logic.I. Qed.

Lemma quiet_assert : forall d c, quiet (asap_assert d c).
Proof. intros d c. unfold asap_assert. destruct (d && negb c); cbn; auto. Qed.

Definition calm {A} (x : out A) : Prop := match x with Throw _ => False | _ => True end.
Lemma quiet_lift : forall A (x : out A), calm x -> quiet (lift x).
Proof. intros A [a|e| |] H; cbn in *; auto; contradiction. Qed.
Lemma calm_bind : forall A B (x : out A) (f : A -> out B), calm x -> (forall a, calm (f a)) -> calm (bind x f).
Proof. intros A B [a|e| |] f Hx Hf; cbn in *; auto. Qed.
Lemma calm_sint : forall m z, calm (sint m z).
Proof. intros [|] z; unfold sint; destruct (in_i64 z); exact Logic.I. Qed.

Lemma calm_from : forall m t, calm (extract_last_write_time m t).
Proof.
  intros m t. unfold extract_last_write_time, FileTimeIsRepresentable, FileTimeTypeFromPosixTimeSpec, to_ns.
  repeat first [apply calm_bind; [|intros] | apply calm_sint | exact Logic.I
               | match goal with |- calm (if ?b then _ else _) => destruct b end].
Qed.
Lemma calm_to : forall m t, calm (timespec_of_time m t).
Proof.
  intros m t. unfold timespec_of_time, to_ns.
  repeat first [apply calm_bind; [|intros] | apply calm_sint | exact Logic.I
               | match goal with |- calm (if ?b then _ else _) => destruct b end
               | match goal with |- calm (let '(_, _) := ?x in _) => destruct x end].
Qed.

Ltac calm_down :=
  repeat first
    [ exact Logic.I
    | reflexivity
    | apply quiet_assert
    | apply quiet_lift; first [apply calm_from | apply calm_to]
    | apply quiet_bind; [|intros]
    | match goal with
      | |- quiet (match ?x with _ => _ end) => destruct x
      | |- quiet (if ?x then _ else _) => destruct x
      | |- quiet (let '(_, _) := ?x in _) => destruct x
      | |- quiet (Sys _ _) => let r := fresh "r" in intros r; cbv beta
      | |- quiet (pbind (Sys _ _) _) => cbn [pbind]
      | |- quiet (Ret _) => exact Logic.I
      | |- quiet (Stop _) => reflexivity
      end ].

Lemma quiet_create_status : forall p r, quiet (CreateFileStatus true p r).
Proof. intros p r. unfold CreateFileStatus. calm_down. Qed.
Lemma quiet_file_status : forall p, quiet (GetFileStatus true p).
Proof. intros p. unfold GetFileStatus. intros r. apply quiet_bind; [apply quiet_create_status|intros; exact Logic.I]. Qed.
Lemma quiet_link_status : forall p, quiet (GetLinkStatus true p).
Proof. intros p. unfold GetLinkStatus. intros r. apply quiet_bind; [apply quiet_create_status|intros; exact Logic.I]. Qed.
Lemma quiet_status : forall p, quiet (status_impl true p).
Proof. intros. apply quiet_bind; [apply quiet_file_status|intros; exact Logic.I]. Qed.
Lemma quiet_symlink_status : forall p, quiet (symlink_status_impl true p).
Proof. intros. apply quiet_bind; [apply quiet_link_status|intros; exact Logic.I]. Qed.
Lemma quiet_extract : forall cf p st, quiet (ExtractLastWriteTime cf true p st).
Proof. intros. unfold ExtractLastWriteTime. calm_down. Qed.

Lemma quiet_basic : forall cf f e, quiet (UpdateBasicFileInformation cf true f e).
Proof.
  intros cf f e. unfold UpdateBasicFileInformation.
  apply quiet_bind; [apply quiet_file_status|intros r]. cbv zeta.
  match goal with |- quiet (if ?b then _ else _) => destruct b end; [exact Logic.I|].
  apply quiet_bind; [|intros; exact Logic.I].
  match goal with |- quiet (if ?b then _ else _) => destruct b end; [|exact Logic.I].
  apply quiet_bind; [apply quiet_extract|intros; exact Logic.I].
Qed.
Lemma quiet_extra : forall cf f e, quiet (UpdateExtraFileInformation cf true f e).
Proof.
  intros cf f e. unfold UpdateExtraFileInformation. apply quiet_bind; [apply quiet_assert|intros _].
  apply quiet_bind; [|intros; exact Logic.I].
  match goal with |- quiet (if ?b then _ else _) => destruct b end; [apply quiet_basic|exact Logic.I].
Qed.
Lemma quiet_perms : forall cf f e, quiet (UpdatePermissionsInformation cf true f e).
Proof.
  intros cf f e. unfold UpdatePermissionsInformation. apply quiet_bind; [apply quiet_assert|intros _].
  apply quiet_bind; [|intros; exact Logic.I].
  match goal with |- quiet (if ?b then _ else _) => destruct b end; [apply quiet_basic|exact Logic.I].
Qed.
Lemma quiet_handle : forall p c a, quiet (HandleError true p c a).
Proof. intros. exact Logic.I. Qed.

Ltac calm_down2 :=
  repeat first
    [ exact Logic.I
    | apply quiet_file_status | apply quiet_link_status | apply quiet_status | apply quiet_symlink_status
    | apply quiet_extract | apply quiet_basic | apply quiet_extra | apply quiet_perms
    | reflexivity
    | apply quiet_assert
    | apply quiet_lift; first [apply calm_from | apply calm_to]
    | match goal with
      | |- quiet (pbind (Sys _ _) _) => cbn [pbind]
      | |- quiet (pbind _ _) => apply quiet_bind; [|intros]
      | |- quiet (match ?x with _ => _ end) => destruct x
      | |- quiet (Sys _ _) => let r := fresh "r" in intros r; cbv beta
      | |- quiet (let x := _ in _) => cbv zeta
      end ].

Lemma quiet_symlink_type : forall cf e, quiet (GetSymLinkFileType cf true e).
Proof. intros. unfold GetSymLinkFileType. calm_down2. Qed.
Lemma quiet_type : forall cf e, quiet (GetFileType cf true e).
Proof. intros. unfold GetFileType. calm_down2. Qed.

Ltac calm_all :=
  repeat first [ apply quiet_symlink_type | apply quiet_type | progress calm_down2 ].

(** * C66 *)

(** The functions of fs_ops.h declared noexcept. *)
Theorem C66_operations_never_throw : forall (cf : config) (p q : path),
  never_throws (set_current_path_impl true p) /\
  never_throws (copy_symlink_impl cf true p q) /\
  never_throws (create_directory_impl true p) /\
  never_throws (create_directory_like_impl true p q) /\
  never_throws (create_directory_symlink_impl true p q) /\
  never_throws (create_hard_link_impl true p q) /\
  never_throws (create_symlink_impl true p q) /\
  never_throws (exists_ true p) /\
  never_throws (equivalent_impl true p q) /\
  never_throws (file_size_impl true p) /\
  never_throws (hard_link_count_impl true p) /\
  never_throws (is_block_file true p) /\
  never_throws (is_character_file true p) /\
  never_throws (is_directory true p) /\
  never_throws (is_fifo true p) /\
  never_throws (is_regular_file true p) /\
  never_throws (is_socket true p) /\
  never_throws (is_symlink true p) /\
  never_throws (is_other true p) /\
  never_throws (last_write_time_impl cf true p) /\
  (forall t, never_throws (set_last_write_time_impl cf true p t)) /\
  (forall prms opts, never_throws (permissions_impl cf true p prms opts)) /\
  never_throws (remove_impl true p) /\
  never_throws (rename_impl true p q) /\
  (forall size, never_throws (resize_file_impl true p size)) /\
  never_throws (space_impl true p) /\
  never_throws (status_impl true p) /\
  never_throws (symlink_status_impl true p).
Proof.
  intros cf p q. repeat match goal with |- _ /\ _ => split end; intros; apply quiet_never;
    unfold set_current_path_impl, copy_symlink_impl, read_symlink_impl, create_directory_impl, create_directory_like_impl,
      create_directory_symlink_impl, create_hard_link_impl, create_symlink_impl, exists_, equivalent_impl, file_size_impl,
      hard_link_count_impl, is_block_file, is_character_file, is_directory, is_fifo, is_regular_file, is_socket, is_symlink,
      is_other, is_type, last_write_time_impl, set_last_write_time_impl, permissions_impl, remove_impl, rename_impl,
      resize_file_impl, space_impl, simple; cbv zeta; calm_all.
Qed.

(** A system that refuses everything: the codes arrive in the error_code. *)
Example C66_operations_example :
  run (failing EACCES) (create_directory_impl true (topath (lit "/a"))) tt = Done (false, Some EACCES) tt /\
  run (failing EACCES) (copy_symlink_impl plain_config true (topath (lit "/a")) (topath (lit "/b"))) tt = Done (tt, Some EACCES) tt /\
  run (failing EACCES) (permissions_impl plain_config true (topath (lit "/a")) 256 2) tt = Done (tt, Some EACCES) tt /\
  exception_escapes (run (failing EACCES) (create_directory_impl false (topath (lit "/a"))) tt).
Proof. vm_compute. auto. Qed.

(** The members of directory_entry declared noexcept (fs_dir.h:76-229, 310), on an entry with any cache. *)
Theorem C66_entries_never_throw : forall (cf : config) (e : dir_entry),
  never_throws (entry_refresh cf true e) /\
  never_throws (entry_exists cf true e) /\
  (forall t, never_throws (entry_is cf t true e)) /\
  never_throws (entry_is_other cf true e) /\
  never_throws (entry_is_symlink cf true e) /\
  never_throws (GetSize cf true e) /\
  never_throws (GetHardLinkCount cf true e) /\
  never_throws (GetLastWriteTime cf true e) /\
  never_throws (GetStatus cf true e) /\
  never_throws (GetSymLinkStatus cf true e).
Proof.
  intros cf e. repeat match goal with |- _ /\ _ => split end; intros; apply quiet_never;
    unfold entry_refresh, DoRefresh, entry_exists, entry_is, entry_is_other, entry_is_symlink, GetSize, GetHardLinkCount,
      GetLastWriteTime, GetStatus, GetSymLinkStatus; cbv zeta; calm_all.
Qed.

Example C66_entries_example :
  run (failing EACCES) (GetSize (Config (Elision true true true) false Strict false) true (Entry (topath (lit "/a")) cache_reset)) tt
    = Done ((2 ^ 64 - 1)%Z, None, Entry (topath (lit "/a")) (set_cache cache_reset CEXTRA)) tt.
Proof. vm_compute. reflexivity. Qed.

Print Assumptions C66_operations_never_throw.
Print Assumptions C66_entries_never_throw.
