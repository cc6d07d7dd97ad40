(** What operations leave alone: those that only ask change nothing, those that create something change nothing that exists. *)
From Coq Require Import Ascii String Bool Arith NArith ZArith Lia.
From Verif Require Import Str PathModel PathSpec StrProofs PathProofs PathOps PathOps2 PathReach PathLaws
  FlagsModel TimeModel Prog DirModel OpsModel OpsProps FS FSProofs FSSpec FSOps FSPlace FSProps IterProps FSIter FSRemove RaceProps EntryProps FSCopy RaceCopy FSCopyTree FSMerge.
From Coq Require Import List.
Import ListNotations.

(** * Vocabulary *)

(** The two states have the same files with the same contents and attributes, the same current directory and the same environment. *)
Definition same_files (s s' : fs) : Prop :=
  f_root s' = f_root s /\ f_body s' = f_body s /\ f_meta s' = f_meta s /\ f_next s' = f_next s /\ f_cwd s' = f_cwd s /\ f_env s' = f_env s.

(** Everything that exists in [s] is in [s'] under the same names with the same content, permissions and times, and has lost no
    names; the current directory is the same. *)
Definition intact (s s' : fs) : Prop :=
  (forall p x, look (f_root s) p = Some x -> look (f_root s') p = Some x) /\
  (forall i, (i < f_next s)%N -> f_body s' i = f_body s i /\ m_perm (f_meta s' i) = m_perm (f_meta s i) /\ m_mtime (f_meta s' i) = m_mtime (f_meta s i) /\
     m_atime (f_meta s' i) = m_atime (f_meta s i) /\ (m_nlink (f_meta s i) <= m_nlink (f_meta s' i))%Z) /\
  f_cwd s' = f_cwd s /\ f_env s' = f_env s /\ (f_next s <= f_next s')%N.

(** However the operation ends (with a result, an error code or an exception, or cut short after any number of steps). *)
Definition changes_nothing {A} (p : prog A) : Prop := forall k s, same_files s (state_of (run (fsk k) p s)).
Definition harms_nothing {A} (p : prog A) : Prop := forall k s, intact s (state_of (run (fsk k) p s)).

(** * Calls *)

Definition asks (c : call) : Prop :=
  match c with
  | c_stat _ | c_lstat _ | c_open _ O_READ _ | c_close _ | c_readlink _ _ | c_statvfs _ | c_getcwd _ | c_pathconf | c_realpath _ | c_getenv _ | c_read _ _
  | c_opendir _ | c_readdir _ | c_closedir _ => True
  | _ => False
  end.
Definition adds (c : call) : Prop := match c with c_mkdir _ _ | c_symlink _ _ | c_link _ _ => True | _ => asks c end.

Lemma same_files_refl : forall s, same_files s s.
Proof. intros. repeat split. Qed.
Lemma same_files_trans : forall a b c, same_files a b -> same_files b c -> same_files a c.
Proof. unfold same_files. intros a b c (? & ? & ? & ? & ? & ?) (? & ? & ? & ? & ? & ?). repeat split; congruence. Qed.
Lemma same_intact : forall s s', same_files s s' -> intact s s'.
Proof. intros s s' (H1 & H2 & H3 & H4 & H5 & H6). unfold intact. rewrite H1, H2, H3, H4. repeat split; auto; lia. Qed.
Lemma intact_trans : forall a b c, intact a b -> intact b c -> intact a c.
Proof.
  intros a b c (A1 & A2 & A3 & A4 & A5) (B1 & B2 & B3 & B4 & B5). split; [auto|]. split; [|repeat split; [congruence|congruence|lia]].
  intros i Hi. destruct (A2 i Hi) as (? & ? & ? & ? & ?). destruct (B2 i) as (? & ? & ? & ? & ?); [lia|]. repeat split; try congruence; lia.
Qed.
Lemma intact_refl : forall s, intact s s.
Proof. intros. apply same_intact, same_files_refl. Qed.

Lemma asks_same : forall k c s, asks c -> same_files s (snd (fsk k c s)).
Proof.
  intros k c s H. destruct c as [p|p|p fl m|fd|p m|a b|a b|p n|p|a b|p n|fd n|fd m|p m b|p t|p|p|n| |p|x|a b n|fd n|fd d|p|d|d];
    try destruct H; try apply same_files_refl; cbn [fsk snd]; try (repeat split; fail).
  - destruct fl; try destruct H. unfold sys_open. destruct (find_at k s true p) as [l q|q n|e]; try apply same_files_refl.
    destruct (look (f_root s) q) as [[i|i]|]; repeat split.
  - unfold sys_read. destruct (nassoc fd (f_fds s)) as [[i o]|]; [|apply same_files_refl]. destruct (f_body s i); repeat split.
  - unfold sys_opendir. destruct (find_at k s true p) as [l q|q n|e]; try apply same_files_refl. destruct (get (f_root s) q) as [[i|i es]|]; repeat split.
  - unfold sys_readdir. destruct (nassoc d (f_dirs s)) as [[|e r]|]; repeat split.
Qed.

Lemma make_intact : forall k s p n c perm nl i l, get (f_root s) p = Some (Dir i l) -> assoc n l = None -> intact s (make k s p n c perm nl).
Proof.
  intros k s p n c perm nl i l Hp Hn. unfold make, intact. cbn. split; [|split; [|repeat split; lia]].
  - intros q x Hq. eapply look_insert; eauto.
  - intros j Hj. unfold upd. destruct (N.eqb j (f_next s)) eqn:E; [apply N.eqb_eq in E; lia|]. repeat split; lia.
Qed.
Lemma body_intact : forall s s' i b, intact s s' -> (f_next s <= i)%N -> intact s (set_body s' i b).
Proof.
  intros s s' i b (H1 & H2 & H3) Hi. split; [exact H1|]. split; [|exact H3]. intros j Hj. cbn. unfold upd. destruct (N.eqb j i) eqn:E; [apply N.eqb_eq in E; lia|]. auto.
Qed.

Lemma adds_intact : forall k c s, adds c -> intact s (snd (fsk k c s)).
Proof.
  intros k c s H. destruct c as [p|p|p fl m|fd|p m|a b|a b|p n|p|a b|p n|fd n|fd m|p m b|p t|p|p|n| |p|x|a b n|fd n|fd d|p|d|d];
    try (apply same_intact, asks_same; exact H); try destruct H; cbn [fsk].
  - unfold sys_mkdir. destruct (find_entry k s p) as [l q|q n|e] eqn:F; try apply intact_refl. destruct (entry_missing _ _ _ _ _ F) as (i & es & Hp & Hn & _).
    eapply make_intact; eauto.
  - unfold sys_symlink. destruct (is_nil a); [apply intact_refl|]. destruct (find_at k s false b) as [l q|q n|e] eqn:F; try apply intact_refl.
    destruct (find_missing _ _ _ _ _ _ F) as (i & es & Hp & Hn & _). apply body_intact; [eapply make_intact; eauto|lia].
  - unfold sys_link. destruct (node_at s (find_at k s false a)) as [e|x]; [apply intact_refl|]. destruct (find_at k s false b) as [l q|q n|e] eqn:F; try apply intact_refl.
    destruct x as [i|i]; [|apply intact_refl]. destruct (find_missing _ _ _ _ _ _ F) as (j & es & Hp & Hn & _). unfold intact. cbn. split; [|split; [|repeat split; lia]].
    + intros r x Hr. eapply look_insert; eauto.
    + intros x Hx. unfold upd. destruct (N.eqb x i) eqn:E; [|repeat split; lia]. apply N.eqb_eq in E. subst x. cbn. repeat split; lia.
Qed.

Lemma asks_nothing : forall A (p : prog A), calls asks p -> changes_nothing p.
Proof.
  intros A p Hp k s. apply (inv_run fs (fsk k) (same_files s) asks); auto using same_files_refl.
  intros c st Hc Hs. eapply same_files_trans; [exact Hs|]. apply asks_same, Hc.
Qed.
Lemma adds_nothing : forall A (p : prog A), calls adds p -> harms_nothing p.
Proof.
  intros A p Hp k s. apply (inv_run fs (fsk k) (intact s) adds); auto using intact_refl.
  intros c st Hc Hs. eapply intact_trans; [exact Hs|]. apply adds_intact, Hc.
Qed.
Lemma asks_adds : forall A (p : prog A), calls asks p -> calls adds p.
Proof. intros A p. apply calls_weaken. intros c H. destruct c; try destruct H; try exact Logic.I. exact H. Qed.

(** * The calls of the operations *)

Lemma calls_lift : forall A P (x : out A), calls P (lift x).
Proof. intros A P [a|e| |]; exact Logic.I. Qed.
Lemma calls_unwinding : forall A P (p : prog A) c, calls P p -> calls P c -> calls P (unwinding p c).
Proof.
  induction p; cbn; intros q H1 H2; auto.
  - destruct (unwinds _); [apply calls_bind; auto; intros; exact Logic.I|exact Logic.I].
  - destruct H1. split; auto.
Qed.
Lemma calls_assert : forall P d c, calls P (asap_assert d c).
Proof. intros. unfold asap_assert. destruct (d && negb c); exact Logic.I. Qed.

Ltac split_and := match goal with |- _ /\ _ => split end.
Ltac only_calls := cbv zeta; repeat first
  [ exact Logic.I | assumption | solve [auto with only]
  | lazymatch goal with
    | |- calls _ (pbind _ _) => apply calls_bind; [|intros]
    | |- calls _ (Sys _ _) => split; [exact Logic.I|intros]
    | |- calls _ (scoped _ _) => apply calls_scoped
    | |- calls _ (unwinding _ _) => apply calls_unwinding
    | |- calls _ (match ?x with _ => _ end) => destruct x
    end ].

Create HintDb only.
#[local] Hint Resolve calls_lift calls_report calls_assert : only.

Lemma ask_status : forall has p, calls asks (GetFileStatus has p).
Proof. intros. unfold GetFileStatus, CreateFileStatus. only_calls. Qed.
Lemma ask_link_status : forall has p, calls asks (GetLinkStatus has p).
Proof. intros. unfold GetLinkStatus, CreateFileStatus. only_calls. Qed.
#[local] Hint Resolve ask_status ask_link_status : only.
Lemma ask_status_impl : forall has p, calls asks (status_impl has p).
Proof. intros. unfold status_impl. only_calls. Qed.
Lemma ask_symlink_status : forall has p, calls asks (symlink_status_impl has p).
Proof. intros. unfold symlink_status_impl. only_calls. Qed.
#[local] Hint Resolve ask_status_impl ask_symlink_status : only.
Lemma ask_exists : forall has p, calls asks (exists_ has p).
Proof. intros. unfold exists_. only_calls. Qed.
Lemma ask_is : forall t has p, calls asks (is_type t has p).
Proof. intros. unfold is_type. only_calls. Qed.
Lemma ask_is_symlink : forall has p, calls asks (is_symlink has p).
Proof. intros. unfold is_symlink. only_calls. Qed.
Lemma ask_is_other : forall has p, calls asks (is_other has p).
Proof. intros. unfold is_other. only_calls. Qed.
Lemma ask_extract : forall cf has p st, calls asks (ExtractLastWriteTime cf has p st).
Proof. intros. unfold ExtractLastWriteTime. only_calls. Qed.
#[local] Hint Resolve ask_exists ask_is ask_is_symlink ask_is_other ask_extract : only.
Lemma ask_file_size : forall has p, calls asks (file_size_impl has p).
Proof. intros. unfold file_size_impl. only_calls. Qed.
Lemma ask_count : forall has p, calls asks (hard_link_count_impl has p).
Proof. intros. unfold hard_link_count_impl. only_calls. Qed.
Lemma ask_equivalent : forall has p q, calls asks (equivalent_impl has p q).
Proof. intros. unfold equivalent_impl. only_calls. Qed.
Lemma ask_space : forall has p, calls asks (space_impl has p).
Proof. intros. unfold space_impl. only_calls. Qed.
Lemma ask_current : forall cf has, calls asks (current_path_impl cf has).
Proof. intros. unfold current_path_impl. only_calls. Qed.
#[local] Hint Resolve ask_file_size ask_count ask_equivalent ask_space ask_current : only.
Lemma ask_do_absolute : forall cf has p, calls asks (do_absolute_impl cf has p).
Proof. intros. unfold do_absolute_impl. only_calls. Qed.
#[local] Hint Resolve ask_do_absolute : only.
Lemma ask_absolute : forall cf has p, calls asks (absolute_impl cf has p).
Proof. intros. unfold absolute_impl. only_calls. Qed.
Lemma ask_canonical : forall cf has p, calls asks (canonical_impl cf has p).
Proof. intros. unfold canonical_impl. only_calls. Qed.
Lemma ask_read_symlink : forall cf has p, calls asks (read_symlink_impl cf has p).
Proof. intros. unfold read_symlink_impl. only_calls. Qed.
#[local] Hint Resolve ask_absolute ask_canonical ask_read_symlink : only.
Lemma ask_readdir : forall d, calls asks (posix_readdir d).
Proof. intros. unfold posix_readdir, get_file_type. only_calls. Qed.
#[local] Hint Resolve ask_readdir : only.
Lemma ask_advance : forall cf n st, calls asks (advance cf n st).
Proof. induction n as [|n IH]; intros st; [exact Logic.I|]. cbn [advance]. only_calls. Qed.
#[local] Hint Resolve ask_advance : only.
Lemma ask_stream : forall cf n p o, calls asks (stream_ctor cf n p o).
Proof. intros. unfold stream_ctor. only_calls. Qed.
Lemma ask_destroy_stream : forall st, calls asks (stream_destroy st).
Proof. intros. unfold stream_destroy. only_calls. Qed.
#[local] Hint Resolve ask_stream ask_destroy_stream : only.
Lemma ask_ctor : forall cf n has p o, calls asks (dir_iter_ctor cf n has p o).
Proof. intros. unfold dir_iter_ctor. only_calls. Qed.
Lemma ask_increment : forall cf n has it, calls asks (dir_iter_increment cf n has it).
Proof. intros. unfold dir_iter_increment. only_calls. Qed.
Lemma ask_deref : forall cf it, calls asks (dir_iter_deref cf it).
Proof. intros. unfold dir_iter_deref. only_calls. Qed.
Lemma ask_destroy : forall it, calls asks (dir_iter_destroy it).
Proof. intros. unfold dir_iter_destroy. only_calls. Qed.
#[local] Hint Resolve ask_ctor ask_increment ask_deref ask_destroy : only.
Lemma ask_close_all : forall l, calls asks (close_all l).
Proof. induction l as [|a l IH]; [exact Logic.I|]. cbn [close_all]. only_calls. Qed.
#[local] Hint Resolve ask_close_all : only.
Lemma ask_reset : forall l, calls asks (impl_reset l).
Proof. intros. apply ask_close_all. Qed.
Lemma ask_advance_stack : forall cf n st, calls asks (advance_stack cf n st).
Proof. induction st as [|a st IH]; [exact Logic.I|]. cbn [advance_stack]. only_calls. Qed.
#[local] Hint Resolve ask_reset ask_advance_stack : only.
Lemma ask_rctor : forall cf n has p o, calls asks (rdir_ctor cf n has p o).
Proof. intros. unfold rdir_ctor. only_calls. Qed.
Lemma ask_radvance : forall cf n has it, calls asks (rdir_advance cf n has it).
Proof. intros. unfold rdir_advance. only_calls. Qed.
#[local] Hint Resolve ask_rctor ask_radvance : only.
Lemma ask_pop : forall cf n has it, calls asks (rdir_pop cf n has it).
Proof. intros. unfold rdir_pop. only_calls. Qed.
Lemma ask_update_basic : forall cf has f e, calls asks (UpdateBasicFileInformation cf has f e).
Proof. intros. unfold UpdateBasicFileInformation. only_calls. Qed.
#[local] Hint Resolve ask_pop ask_update_basic : only.
Lemma ask_link_type : forall cf has e, calls asks (GetSymLinkFileType cf has e).
Proof. intros. unfold GetSymLinkFileType, HandleError. only_calls. Qed.
Lemma ask_file_type : forall cf has e, calls asks (GetFileType cf has e).
Proof. intros. unfold GetFileType, HandleError. only_calls. Qed.
#[local] Hint Resolve ask_link_type ask_file_type : only.
Lemma ask_try : forall cf n has it, calls asks (rdir_try cf n has it).
Proof. intros. unfold rdir_try. only_calls. Qed.
#[local] Hint Resolve ask_try : only.
Lemma ask_rincrement : forall cf n has it, calls asks (rdir_increment cf n has it).
Proof. intros. unfold rdir_increment. only_calls. Qed.
Lemma ask_rdestroy : forall it, calls asks (rdir_destroy it).
Proof. intros. unfold rdir_destroy. only_calls. Qed.
#[local] Hint Resolve ask_rincrement ask_rdestroy : only.
Lemma ask_handle : forall has p c b, calls asks (HandleError has p c b).
Proof. intros. unfold HandleError. only_calls. Qed.
Lemma ask_update_extra : forall cf has f e, calls asks (UpdateExtraFileInformation cf has f e).
Proof. intros. unfold UpdateExtraFileInformation. only_calls. Qed.
Lemma ask_update_perms : forall cf has f e, calls asks (UpdatePermissionsInformation cf has f e).
Proof. intros. unfold UpdatePermissionsInformation. only_calls. Qed.
#[local] Hint Resolve ask_handle ask_update_extra ask_update_perms : only.
Lemma ask_entry : forall cf q has e, calls asks (ask cf q has e).
Proof.
  intros cf q has e. destruct q; cbn [ask]; unfold answered, entry_exists, entry_is, entry_is_other, entry_is_symlink, GetSize, GetHardLinkCount, GetLastWriteTime, GetStatus, GetSymLinkStatus; only_calls.
Qed.
Lemma ask_refresh : forall cf has e, calls asks (DoRefresh cf has e).
Proof. intros. unfold DoRefresh. only_calls. Qed.
#[local] Hint Resolve ask_entry ask_refresh : only.
Lemma ask_is_empty : forall cf n has p, calls asks (is_empty_impl cf n has p).
Proof. intros. unfold is_empty_impl, is_empty_directory. only_calls. Qed.
Lemma ask_time : forall cf has p, calls asks (last_write_time_impl cf has p).
Proof. intros. unfold last_write_time_impl. only_calls. Qed.
Lemma ask_env : forall l, calls asks (first_env l).
Proof. induction l as [|a l IH]; [exact Logic.I|]. cbn [first_env]. only_calls. Qed.
#[local] Hint Resolve ask_is_empty ask_time ask_env : only.
Lemma ask_temp : forall cf has, calls asks (temp_directory_path_impl cf has).
Proof. intros. unfold temp_directory_path_impl. only_calls. Qed.
Lemma ask_prefix : forall cf l r, calls asks (existing_prefix cf l r).
Proof. induction l as [|a l IH]; intros r; [exact Logic.I|]. cbn [existing_prefix]. only_calls. Qed.
#[local] Hint Resolve ask_prefix ask_temp : only.
Lemma ask_weakly : forall cf has p, calls asks (weakly_canonical_impl cf has p).
Proof. intros. unfold weakly_canonical_impl. only_calls. Qed.
#[local] Hint Resolve ask_weakly : only.
Lemma ask_relative : forall cf r has p b, calls asks (relative_with cf r has p b).
Proof. intros. unfold relative_with. only_calls. Qed.
#[local] Hint Resolve ask_relative : only.

(** * C100 What operations leave alone *)

(** Functions that ask for something change no file, whatever they find and however they end. *)
Theorem C100_queries : forall cf n has p p2 t o q e it rit,
  changes_nothing (status_impl has p) /\ changes_nothing (symlink_status_impl has p) /\ changes_nothing (exists_ has p) /\
  changes_nothing (is_type t has p) /\ changes_nothing (is_symlink has p) /\ changes_nothing (is_other has p) /\ changes_nothing (is_empty_impl cf n has p) /\
  changes_nothing (file_size_impl has p) /\ changes_nothing (hard_link_count_impl has p) /\ changes_nothing (last_write_time_impl cf has p) /\
  changes_nothing (equivalent_impl has p p2) /\ changes_nothing (space_impl has p) /\ changes_nothing (read_symlink_impl cf has p) /\
  changes_nothing (current_path_impl cf has) /\ changes_nothing (temp_directory_path_impl cf has) /\ changes_nothing (absolute_impl cf has p) /\
  changes_nothing (canonical_impl cf has p) /\ changes_nothing (weakly_canonical_impl cf has p) /\
  changes_nothing (relative_impl cf has p p2) /\ changes_nothing (proximate_impl cf has p p2) /\
  changes_nothing (relative_cwd_impl cf has p) /\ changes_nothing (proximate_cwd_impl cf has p) /\
  changes_nothing (entry_of cf p) /\ changes_nothing (entry_of_ec cf p) /\ changes_nothing (entry_assign cf has e p) /\
  changes_nothing (entry_replace_filename cf has e p) /\ changes_nothing (entry_refresh cf has e) /\ changes_nothing (ask cf q has e) /\
  changes_nothing (dir_iter_ctor cf n has p o) /\ changes_nothing (dir_iter_increment cf n has it) /\ changes_nothing (dir_iter_destroy it) /\
  changes_nothing (rdir_ctor cf n has p o) /\ changes_nothing (rdir_increment cf n has rit) /\ changes_nothing (rdir_pop cf n has rit) /\
  changes_nothing (rdir_destroy rit).
Proof.
  intros. repeat split_and; apply asks_nothing; unfold relative_impl, proximate_impl, relative_cwd_impl, proximate_cwd_impl, entry_of, entry_of_ec, entry_assign, entry_replace_filename, entry_refresh, relative_impl, proximate_impl; only_calls.
Qed.

Lemma adds_asks : forall A (p : prog A), calls asks p -> harms_nothing p.
Proof. intros A p H. apply adds_nothing, asks_adds, H. Qed.
Lemma harms_bind : forall A B (p : prog A) (f : A -> prog B), harms_nothing p -> (forall a, harms_nothing (f a)) -> harms_nothing (pbind p f).
Proof.
  intros A B p f Hp Hf k s. rewrite run_bind. specialize (Hp k s). destruct (run (fsk k) p s) as [a s1|e s1]; [|exact Hp]. cbn [state_of] in Hp.
  eapply intact_trans; [exact Hp|apply Hf].
Qed.
Lemma scoped_from : forall A k (p : prog A) c s0 s, calls asks c -> intact s0 (state_of (run (fsk k) p s)) -> intact s0 (state_of (run (fsk k) (scoped p c) s)).
Proof.
  intros A k p c s0 s Hc H. rewrite run_scoped. destruct (run (fsk k) p s) as [a s1|e s1]; cbn [state_of] in H.
  - pose proof (adds_asks _ _ Hc k s1) as H1. destruct (run (fsk k) c s1); cbn [state_of] in *; eapply intact_trans; eauto.
  - destruct (unwinds e); [|exact H]. pose proof (adds_asks _ _ Hc k s1) as H1. destruct (run (fsk k) c s1); cbn [state_of] in *; eapply intact_trans; eauto.
Qed.
Lemma unwinding_from : forall A k (p : prog A) c, calls asks c -> forall s0 s, intact s0 (state_of (run (fsk k) p s)) -> intact s0 (state_of (run (fsk k) (unwinding p c) s)).
Proof.
  intros A k p c Hc. induction p as [a|e|q f IH]; intros s0 s H; [exact H| |].
  - cbn [unwinding]. destruct (unwinds e); [|exact H]. rewrite run_bind. pose proof (adds_asks _ _ Hc k s) as H1. destruct (run (fsk k) c s); cbn [state_of run] in *; eapply intact_trans; eauto.
  - cbn [unwinding]. rewrite run_sys in *. apply IH, H.
Qed.

(** The destination is open for a new object. *)
Definition opened_new (s0 : fs) (wfd : N) (s : fs) : Prop := intact s0 s /\ exists i o, nassoc wfd (f_fds s) = Some (i, o) /\ (f_next s0 <= i)%N.

Lemma fds_intact : forall s0 s l, intact s0 s -> intact s0 (set_fds s l).
Proof. intros s0 s l H. exact H. Qed.
Lemma tick_intact : forall s0 s, intact s0 s -> intact s0 (tick s).
Proof. intros s0 s H. exact H. Qed.
Lemma meta_intact : forall s0 s i m, intact s0 s -> (f_next s0 <= i)%N -> intact s0 (set_meta s i m).
Proof.
  intros s s' i b (H1 & H2 & H3) Hi. split; [exact H1|]. split; [|exact H3]. intros j Hj. cbn. unfold upd. destruct (N.eqb j i) eqn:E; [apply N.eqb_eq in E; lia|]. auto.
Qed.

Lemma copying_new : forall k s0 t rfd wfd c s, copying t rfd wfd c -> opened_new s0 wfd s -> opened_new s0 wfd (snd (fsk k c s)).
Proof.
  intros k s0 t rfd wfd c s Hc (H & i & o & Hf & Hi). destruct Hc as [->|[[m ->]|[[m ->]|[[m ->]|[[m ->]|[d ->]]]]]]; cbn [fsk].
  - split; [exact H|eauto].
  - unfold with_fd. rewrite Hf. cbn [snd]. split; [apply meta_intact; auto|cbn; eauto].
  - unfold with_fd. rewrite Hf. unfold resize_obj. destruct (f_body s i); try (split; [exact H|solve [cbn; eauto]]). destruct (m <? 0)%Z; cbn [snd]; [split; [exact H|eauto]|].
    split; [apply body_intact; auto|cbn; eauto].
  - unfold sys_sendfile. rewrite Hf. destruct (nassoc rfd (f_fds s)) as [[i2 o2]|] eqn:Hr; [|split; [exact H|eauto]].
    destruct (f_body s i2); try (split; [exact H|solve [eauto]]). destruct (f_body s i); try (split; [exact H|solve [eauto]]). cbn [snd]. split; [apply tick_intact, fds_intact, body_intact; auto|].
    cbn [tick set_fds f_fds]. rewrite nassoc_nupdate, N.eqb_refl. rewrite nassoc_nupdate. destruct (N.eqb wfd rfd); rewrite Hf; eauto.
  - unfold sys_read. destruct (nassoc rfd (f_fds s)) as [[i2 o2]|] eqn:Hr; [|split; [exact H|eauto]]. destruct (f_body s i2); try (split; [exact H|solve [eauto]]).
    cbn [snd]. split; [exact H|]. cbn [tick set_fds f_fds]. rewrite nassoc_nupdate. destruct (N.eqb wfd rfd) eqn:E; [|eauto]. apply N.eqb_eq in E. subst rfd. rewrite Hf in Hr. injection Hr as <- <-. rewrite Hf. eauto.
  - unfold sys_write. rewrite Hf. destruct (f_body s i); try (split; [exact H|solve [eauto]]). cbn [snd]. split; [apply tick_intact, fds_intact, body_intact; auto|].
    cbn [tick set_fds f_fds]. rewrite nassoc_nupdate, N.eqb_refl, Hf. eauto.
Qed.

(** The options let no existing file be written. *)
Definition sparing (l : list copt_name) : Prop := In co_skip_existing l \/ (~ In co_update_existing l /\ ~ In co_overwrite_existing l).

Lemma copy_from_harms : forall cf n has from to l rfd, sparing l -> harms_nothing (copy_file_from cf n has from to (options l) rfd).
Proof.
  intros cf n has from to l rfd Hl k s. unfold copy_file_from, refresh_status. rewrite run_bind, run_GetLinkStatus.
  destruct (stat_result s (node_at s (find_at k s false (native from)))) as [[from_st from_stat] ec].
  assert (Hbad : forall e, intact s (state_of (run (fsk k) (report has [to; from] false e) s))). { intros e. unfold report. destruct has; apply intact_refl. }
  destruct (failed ec); [apply Hbad|]. destruct (negb (st_is_regular_file from_st)); [apply Hbad|]. rewrite run_bind, run_GetFileStatus.
  destruct (node_at s (find_at k s true (native to))) as [e|x] eqn:Hx; cbn [stat_result].
  - destruct (negb (status_known (missing_status e))); [apply Hbad|]. rewrite missing_not_exists. cbn [andb negb orb]. cbn [pbind fst negb].
    rewrite run_sys. cbn [fsk]. unfold sys_open. destruct (find_at k s true (native to)) as [lk q|q m|e'] eqn:F; cbn [fst snd]; [|
      |apply Hbad].
    + cbn [node_at] in Hx. destruct (look (f_root s) q); [discriminate|]. apply Hbad.
    + unfold new_fd. cbn [fst snd]. apply scoped_from; [unfold close_fd; only_calls|].
      match goal with |- intact _ (state_of (run _ (copy_file_body _ _ _ _ _ _ ?w _ _ _) ?s1)) => assert (HJ : opened_new s w s1) end.
      { destruct (find_missing _ _ _ _ _ _ F) as (j & es & Hp & Hn & _). split.
        - change (intact s (set_body (make k s q m (Leaf (f_next s)) (mode_bits (st_mode from_stat)) 1) (f_next s) (BReg []))). apply body_intact; [eapply make_intact; eauto|lia].
        - cbn. rewrite N.eqb_refl. exists (f_next s), 0. split; [reflexivity|lia]. }
      match goal with |- intact _ (state_of (run _ (copy_file_body _ _ _ _ _ _ ?w ?a ?b ?e) ?s1)) =>
        exact (proj1 (inv_run fs (fsk k) (opened_new s w) (copying (native to) rfd w) (fun cl st => copying_new k s (native to) rfd w cl st) _ _ (calls_body cf n has from to rfd w a b e) s1 HJ)) end.
  - destruct (status_of_exists s x) as [-> ->]. cbn [negb andb orb]. destruct (negb (st_is_regular_file (status_of s x))); [apply Hbad|].
    destruct (stat_equivalent from_stat (stat_of s x)); [apply Hbad|]. destruct (co_set co_skip_existing (options l)) eqn:Sk; [apply intact_refl|].
    destruct Hl as [Hl|[Hu Ho]]; [apply options_set in Hl; congruence|]. apply options_unset in Hu, Ho. rewrite Hu, Ho. unfold report. destruct has; apply intact_refl.
Qed.

Lemma copy_file_harms : forall cf n has from to l, sparing l -> harms_nothing (copy_file_impl cf n has from to (options l)).
Proof.
  intros cf n has from to l Hl k s. unfold copy_file_impl. rewrite run_sys. pose proof (asks_same k (c_open (native from) O_READ 0) s Logic.I) as H1.
  destruct (fsk k (c_open (native from) O_READ 0) s) as [[e|rfd] s1]; cbn [fst snd] in *.
  - unfold report. destruct has; apply same_intact, H1.
  - apply scoped_from; [unfold close_fd; only_calls|]. eapply intact_trans; [apply same_intact, H1|]. apply copy_from_harms, Hl.
Qed.

Lemma add_simple : forall P has ps r, calls P (simple has ps r).
Proof. intros. unfold simple. only_calls. Qed.
#[local] Hint Resolve add_simple : only.
#[local] Hint Extern 2 (calls adds _) => apply asks_adds : only.
Lemma add_symlink : forall has a b, calls adds (create_symlink_impl has a b).
Proof. intros. unfold create_symlink_impl. only_calls. Qed.
Lemma adds_link : forall has a b, calls adds (create_hard_link_impl has a b).
Proof. intros. unfold create_hard_link_impl. only_calls. Qed.
Lemma add_directory : forall has p, calls adds (create_directory_impl has p).
Proof. intros. unfold create_directory_impl. only_calls. Qed.
Lemma add_directory_like : forall has p t, calls adds (create_directory_like_impl has p t).
Proof. intros. unfold create_directory_like_impl. only_calls. Qed.
#[local] Hint Resolve add_symlink adds_link add_directory add_directory_like : only.
Lemma add_copy_symlink : forall cf has a b, calls adds (copy_symlink_impl cf has a b).
Proof. intros. unfold copy_symlink_impl. only_calls. Qed.
Lemma add_push : forall cf n p l, calls adds (push_missing cf n p l).
Proof. induction n as [|n IH]; intros p l; [exact Logic.I|]. cbn [push_missing]. only_calls. Qed.
Lemma add_missing : forall has p l b, calls adds (create_missing has p l b).
Proof. induction l as [|a l IH]; intros b; [exact Logic.I|]. cbn [create_missing]. unfold is_directory. only_calls. Qed.
#[local] Hint Resolve add_copy_symlink add_push add_missing : only.
Lemma add_directories : forall cf n has p, calls adds (create_directories_impl cf n has p).
Proof. intros. unfold create_directories_impl. only_calls. Qed.
#[local] Hint Resolve add_directories : only.

Ltac harmless_run := cbv zeta; repeat first
  [ assumption | solve [apply adds_nothing; only_calls] | solve [auto with only]
  | lazymatch goal with
    | |- harms_nothing (pbind _ _) => apply harms_bind; [|intros]
    | |- harms_nothing (match ?x with _ => _ end) => destruct x
    end ].

Lemma loop_harms : forall cf rec n has from to, (forall a b, harms_nothing (rec a b)) -> forall m it ec, harms_nothing (copy_loop cf rec n has from to m it ec).
Proof.
  intros cf rec n has from to Hr. induction m as [|m IH]; intros it ec; [apply adds_nothing; exact Logic.I|]. cbn [copy_loop]. destruct (is_end it); [apply adds_nothing; exact Logic.I|].
  destruct (failed ec); [apply adds_nothing; apply calls_scoped; only_calls|]. apply harms_bind; [|intros r; harmless_run].
  intros k s. apply unwinding_from; [only_calls|]. assert (H : harms_nothing (let! e := dir_iter_deref cf it in let! fn := lift (filename Posix (de_path e)) in let! to2 := lift (path_div Posix (cf_el cf) to fn) in rec (de_path e) to2)) by harmless_run.
  apply H.
Qed.

Lemma copy_harms : forall cf l, sparing l -> forall n has from to, harms_nothing (copy_impl cf n has from to (options l)).
Proof.
  intros cf l Hl. induction n as [|n IH]; intros has from to; [apply adds_nothing; exact Logic.I|]. cbn [copy_impl].
  pose proof (copy_file_harms cf n has). pose proof (fun has from to => loop_harms cf (fun a b => copy_impl cf n has a b (options l)) n has from to (IH has)). harmless_run.
Qed.

(** Operations that create something change nothing that exists, whatever they find and however they end; so does copying unless an option
    asks for existing files to be written. *)
Theorem C100_creators : forall cf n has p p2 l,
  harms_nothing (create_directory_impl has p) /\ harms_nothing (create_directory_like_impl has p p2) /\ harms_nothing (create_directories_impl cf n has p) /\
  harms_nothing (create_symlink_impl has p p2) /\ harms_nothing (create_directory_symlink_impl has p p2) /\ harms_nothing (create_hard_link_impl has p p2) /\
  harms_nothing (copy_symlink_impl cf has p p2) /\
  (sparing l -> harms_nothing (copy_file_impl cf n has p p2 (options l)) /\ harms_nothing (copy_impl cf n has p p2 (options l))).
Proof.
  intros. repeat split_and; try (apply adds_nothing; unfold create_directory_symlink_impl; only_calls). intros Hl. split; [apply copy_file_harms|apply copy_harms]; exact Hl.
Qed.

(** A file copied over with skip_existing stays as it was, and what is missing is created; without an option the copy ends with an
    error, having created what came before. *)
Example C100_example : let s := demo_merge in sparing [co_recursive; co_skip_existing] /\ sparing [co_recursive] /\ ~ sparing [co_recursive; co_overwrite_existing] /\
  match run (fsk demo_choices) (copy_impl plain_config 40 true (topath (lit "/s")) (topath (lit "/t")) (options [co_recursive; co_skip_existing])) s with
  | Done (_, None) s' => f_body s' 8%N = BReg (lit "old") /\ (exists j, look (f_root s') [lit "t"; lit "e"] = Some (NDir j)) /\ look (f_root s) [lit "t"; lit "e"] = None
  | _ => False
  end /\
  match run (fsk demo_choices) (copy_impl plain_config 40 true (topath (lit "/t")) (topath (lit "/s/e")) (options [co_recursive])) s with
  | Done (_, None) s' => (exists j, look (f_root s') [lit "s"; lit "e"; lit "k"] = Some (NLeaf j)) /\ f_body s' 9%N = BReg (lit "k")
  | _ => False
  end /\
  match run (fsk demo_choices) (copy_impl plain_config 40 true (topath (lit "/s")) (topath (lit "/t")) (options [co_recursive])) s with
  | Done (_, Some EEXIST) s' => f_body s' 8%N = BReg (lit "old")
  | _ => False
  end.
Proof.
  split; [left; cbn; auto|]. split; [right; cbn; intuition discriminate|]. split; [intros [H|[_ H]]; [cbn in H; intuition discriminate|apply H; cbn; auto]|].
  split; [vm_compute; split; [reflexivity|]; split; [eexists; reflexivity|reflexivity]|]. split; [vm_compute; split; [eexists; reflexivity|reflexivity]|]. vm_compute. reflexivity.
Qed.

(** * Removing, renaming and setting *)

(** What is in [s'] is in [s]; contents, permissions and times are the same, and nothing has more names. *)
Definition diminished (s s' : fs) : Prop :=
  (forall p x, look (f_root s') p = Some x -> look (f_root s) p = Some x) /\ f_body s' = f_body s /\
  (forall i, m_perm (f_meta s' i) = m_perm (f_meta s i) /\ m_mtime (f_meta s' i) = m_mtime (f_meta s i) /\ m_atime (f_meta s' i) = m_atime (f_meta s i) /\
     (m_nlink (f_meta s' i) <= m_nlink (f_meta s i))%Z) /\
  f_next s' = f_next s /\ f_cwd s' = f_cwd s /\ f_env s' = f_env s.

Lemma diminished_same : forall s s', same_files s s' -> diminished s s'.
Proof. intros s s' (H1 & H2 & H3 & H4 & H5 & H6). unfold diminished. rewrite H1, H2, H3. repeat split; auto; lia. Qed.
Lemma diminished_trans : forall a b c, diminished a b -> diminished b c -> diminished a c.
Proof.
  intros a b c (A1 & A2 & A3 & A4 & A5 & A6) (B1 & B2 & B3 & B4 & B5 & B6). split; [auto|]. split; [congruence|]. split; [|repeat split; congruence].
  intros i. destruct (A3 i) as (? & ? & ? & ?), (B3 i) as (? & ? & ? & ?). repeat split; try congruence; lia.
Qed.

Definition removes (c : call) : Prop := match c with c_remove _ => True | _ => asks c end.
Lemma removes_less : forall k c s, wf s -> removes c -> diminished s (snd (fsk k c s)).
Proof.
  intros k c s Hw H. destruct c as [p|p|p fl m|fd|p m|a b|a b|p n|p|a b|p n|fd n|fd m|p m b|p t|p|p|n| |p|x|a b n|fd n|fd d|p|d|d];
    try (apply diminished_same, asks_same; exact H); try destruct H. cbn [fsk]. unfold sys_remove.
  assert (H0 : diminished s s) by apply diminished_same, same_files_refl.
  destruct (find_entry k s p) as [l q|q n|e]; auto. destruct (is_nil q); auto. destruct (str_eqb _ _); auto. destruct (str_eqb _ _); auto.
  destruct (get (f_root s) q) as [[i|i es]|]; auto.
  - destruct (ends_slash p); auto. unfold unlink, diminished. cbn. split; [intros r x; apply look_delete_sub, Hw|]. split; [auto|]. split; [|auto].
    intros j. unfold upd. destruct (N.eqb j i) eqn:E; [apply N.eqb_eq in E; subst j; cbn; repeat split; lia|repeat split; lia].
  - destruct (is_nil es); auto. unfold diminished. cbn. split; [intros r x; apply look_delete_sub, Hw|]. split; [auto|]. split; [|auto]. intros j. repeat split; lia.
Qed.

Lemma removes_only : forall A (p : prog A), calls removes p -> forall k s, wf s -> diminished s (state_of (run (fsk k) p s)).
Proof.
  intros A p Hp k s Hw. apply (inv_run fs (fsk k) (fun st => wf st /\ diminished s st) removes); auto; [|split; [exact Hw|apply diminished_same, same_files_refl]].
  intros c st Hc [Hs Hd]. split; [apply wf_step, Hs|]. eapply diminished_trans; [exact Hd|]. apply removes_less; auto.
Qed.
Lemma asks_removes : forall A (p : prog A), calls asks p -> calls removes p.
Proof. intros A p. apply calls_weaken. intros c H. destruct c; try destruct H; try exact Logic.I. exact H. Qed.
#[local] Hint Extern 2 (calls removes _) => apply asks_removes : only.
Lemma rem_remove : forall has p, calls removes (remove_impl has p).
Proof. intros. unfold remove_impl. only_calls. Qed.
#[local] Hint Resolve rem_remove : only.
Lemma rem_loop : forall cf rec n, (forall p, calls removes (rec p)) -> forall m it ec c, calls removes (remove_loop cf rec n m it ec c).
Proof. intros cf rec n Hr. induction m as [|m IH]; intros it ec c; [exact Logic.I|]. cbn [remove_loop]. only_calls. Qed.
Lemma rem_do : forall cf n p, calls removes (do_remove_all_impl cf n p).
Proof. induction n as [|n IH]; intros p; [exact Logic.I|]. cbn [do_remove_all_impl]. pose proof (rem_loop cf _ n IH). only_calls. Qed.
#[local] Hint Resolve rem_do : only.

(** remove and remove_all create nothing and change no content, whatever they find and however they end. *)
Theorem C100_removers : forall cf n has p k s, wf s ->
  diminished s (state_of (run (fsk k) (remove_impl has p) s)) /\ diminished s (state_of (run (fsk k) (remove_all_impl cf n has p) s)).
Proof. intros. split; apply removes_only; auto; unfold remove_all_impl; only_calls. Qed.

(** The same names for the same things, and the same current directory and environment. *)
Definition same_names (s s' : fs) : Prop := f_root s' = f_root s /\ f_next s' = f_next s /\ f_cwd s' = f_cwd s /\ f_env s' = f_env s.

Lemma rel_run : forall k (R : fs -> fs -> Prop) (P : call -> Prop), (forall s, R s s) -> (forall a b c, R a b -> R b c -> R a c) -> (forall c s, P c -> R s (snd (fsk k c s))) ->
  forall A (p : prog A), calls P p -> forall s, R s (state_of (run (fsk k) p s)).
Proof. intros k R P H0 Ht Hs A p Hp s. apply (inv_run fs (fsk k) (R s) P); auto. intros c st Hc Hr. eapply Ht; [exact Hr|auto]. Qed.

Definition perms_only (s s' : fs) : Prop := same_names s s' /\ f_body s' = f_body s /\ forall i, exists m, f_meta s' i = with_perm (f_meta s i) m.
Definition times_only (s s' : fs) : Prop := same_names s s' /\ f_body s' = f_body s /\ forall i, exists t, f_meta s' i = with_mtime (f_meta s i) t.
Definition contents_only (s s' : fs) : Prop :=
  same_names s s' /\ f_meta s' = f_meta s /\ forall i, f_body s' i = f_body s i \/ exists d d', f_body s i = BReg d /\ f_body s' i = BReg d'.
Definition directory_only (s s' : fs) : Prop := f_root s' = f_root s /\ f_body s' = f_body s /\ f_meta s' = f_meta s /\ f_next s' = f_next s /\ f_env s' = f_env s.
Definition names_only (s s' : fs) : Prop := f_body s' = f_body s /\ f_next s' = f_next s /\ f_env s' = f_env s /\ forall i, exists d, f_meta s' i = add_link (f_meta s i) d.

Lemma same_names_of : forall s s', same_files s s' -> same_names s s'.
Proof. intros s s' (? & ? & ? & ? & ? & ?). repeat split; auto. Qed.
Lemma same_names_trans : forall a b c, same_names a b -> same_names b c -> same_names a c.
Proof. intros a b c (? & ? & ? & ?) (? & ? & ? & ?). repeat split; congruence. Qed.
Lemma with_perm_self : forall m, m = with_perm m (m_perm m).
Proof. intros []. reflexivity. Qed.
Lemma with_mtime_self : forall m, m = with_mtime m (m_mtime m).
Proof. intros []. reflexivity. Qed.
Lemma add_link_self : forall m, m = FS.add_link m 0.
Proof. intros [p n t a]. unfold FS.add_link. cbn. f_equal. lia. Qed.

Lemma perms_of : forall s s', same_files s s' -> perms_only s s'.
Proof. intros s s' H. split; [apply same_names_of, H|]. destruct H as (_ & H2 & H3 & _). split; [exact H2|]. intros i. rewrite H3. eauto using with_perm_self. Qed.
Lemma times_of : forall s s', same_files s s' -> times_only s s'.
Proof. intros s s' H. split; [apply same_names_of, H|]. destruct H as (_ & H2 & H3 & _). split; [exact H2|]. intros i. rewrite H3. eauto using with_mtime_self. Qed.
Lemma contents_of : forall s s', same_files s s' -> contents_only s s'.
Proof. intros s s' H. split; [apply same_names_of, H|]. destruct H as (_ & H2 & H3 & _). split; [exact H3|]. intros i. rewrite H2. auto. Qed.
Lemma directory_of : forall s s', same_files s s' -> directory_only s s'.
Proof. intros s s' (? & ? & ? & ? & ? & ?). repeat split; auto. Qed.
Lemma names_of : forall s s', same_files s s' -> names_only s s'.
Proof. intros s s' (? & ? & H & ? & ? & ?). repeat split; auto. intros i. rewrite H. eauto using add_link_self. Qed.

Lemma perms_trans : forall a b c, perms_only a b -> perms_only b c -> perms_only a c.
Proof.
  intros a b c (A1 & A2 & A3) (B1 & B2 & B3). split; [eapply same_names_trans; eauto|]. split; [congruence|]. intros i. destruct (A3 i) as [m Hm], (B3 i) as [m2 Hm2].
  exists m2. rewrite Hm2, Hm. reflexivity.
Qed.
Lemma times_trans : forall a b c, times_only a b -> times_only b c -> times_only a c.
Proof.
  intros a b c (A1 & A2 & A3) (B1 & B2 & B3). split; [eapply same_names_trans; eauto|]. split; [congruence|]. intros i. destruct (A3 i) as [m Hm], (B3 i) as [m2 Hm2].
  exists m2. rewrite Hm2, Hm. reflexivity.
Qed.
Lemma contents_trans : forall a b c, contents_only a b -> contents_only b c -> contents_only a c.
Proof.
  intros a b c (A1 & A2 & A3) (B1 & B2 & B3). split; [eapply same_names_trans; eauto|]. split; [congruence|]. intros i.
  destruct (B3 i) as [H2|(d2 & d3 & H2 & H3)], (A3 i) as [H|(d & d' & H & H')]; [left; congruence|right; exists d, d'; split; congruence|right; exists d2, d3; split; congruence|right; exists d, d3; split; congruence].
Qed.
Lemma directory_trans : forall a b c, directory_only a b -> directory_only b c -> directory_only a c.
Proof. intros a b c (? & ? & ? & ? & ?) (? & ? & ? & ? & ?). repeat split; congruence. Qed.
Lemma names_trans : forall a b c, names_only a b -> names_only b c -> names_only a c.
Proof.
  intros a b c (? & ? & ? & A) (? & ? & ? & B). repeat split; try congruence. intros i. destruct (A i) as [d Hd], (B i) as [d2 Hd2]. exists (d + d2)%Z. rewrite Hd2, Hd.
  unfold FS.add_link. cbn. f_equal. lia.
Qed.

Definition sets_perm (c : call) : Prop := match c with c_fchmodat _ _ _ => True | _ => asks c end.
Definition sets_time (c : call) : Prop := match c with c_utimensat _ _ => True | _ => asks c end.
Definition sets_size (c : call) : Prop := match c with c_truncate _ _ => True | _ => asks c end.
Definition sets_cwd (c : call) : Prop := match c with c_chdir _ => True | _ => asks c end.
Definition renames (c : call) : Prop := match c with c_rename _ _ => True | _ => asks c end.

Lemma perm_step : forall k c s, sets_perm c -> perms_only s (snd (fsk k c s)).
Proof.
  intros k c s H. destruct c as [p|p|p fl m|fd|p m|a b|a b|p n|p|a b|p n|fd n|fd m|p m b|p t|p|p|n| |p|x|a b n|fd n|fd d|p|d|d];
    try (apply perms_of, asks_same; exact H); try destruct H. cbn [fsk]. unfold sys_fchmodat. destruct (node_at _ _) as [e|x]; [apply perms_of, same_files_refl|].
  destruct (match x with NLeaf _ => _ | NDir _ => _ end); [apply perms_of, same_files_refl|]. cbn [snd]. split; [repeat split|]. split; [reflexivity|]. intros i. cbn. unfold upd.
  destruct (N.eqb i _) eqn:E; [apply N.eqb_eq in E; subst i; eauto|eauto using with_perm_self].
Qed.
Lemma time_step : forall k c s, sets_time c -> times_only s (snd (fsk k c s)).
Proof.
  intros k c s H. destruct c as [p|p|p fl m|fd|p m|a b|a b|p n|p|a b|p n|fd n|fd m|p m b|p t|p|p|n| |p|x|a b n|fd n|fd d|p|d|d];
    try (apply times_of, asks_same; exact H); try destruct H. cbn [fsk]. unfold sys_utimensat. destruct (node_at _ _) as [e|x]; [apply times_of, same_files_refl|].
  cbv zeta. destruct (_ || _); [apply times_of, same_files_refl|]. cbn [snd]. split; [repeat split|]. split; [reflexivity|]. intros i. cbn. unfold upd.
  destruct (N.eqb i _) eqn:E; [apply N.eqb_eq in E; subst i; eauto|eauto using with_mtime_self].
Qed.
Lemma size_step : forall k c s, sets_size c -> contents_only s (snd (fsk k c s)).
Proof.
  intros k c s H. destruct c as [p|p|p fl m|fd|p m|a b|a b|p n|p|a b|p n|fd n|fd m|p m b|p t|p|p|n| |p|x|a b n|fd n|fd d|p|d|d];
    try (apply contents_of, asks_same; exact H); try destruct H. cbn [fsk]. unfold sys_truncate. destruct (node_at _ _) as [e|[i|i]]; try apply contents_of, same_files_refl.
  unfold resize_obj. destruct (f_body s i) as [d|t|b] eqn:B; try apply contents_of, same_files_refl. destruct (n <? 0)%Z; [apply contents_of, same_files_refl|].
  cbn [snd]. split; [repeat split|]. split; [reflexivity|]. intros j. cbn. unfold upd. destruct (N.eqb j i) eqn:E; [apply N.eqb_eq in E; subst j; eauto|auto].
Qed.
Lemma cwd_step : forall k c s, sets_cwd c -> directory_only s (snd (fsk k c s)).
Proof.
  intros k c s H. destruct c as [p|p|p fl m|fd|p m|a b|a b|p n|p|a b|p n|fd n|fd m|p m b|p t|p|p|n| |p|x|a b n|fd n|fd d|p|d|d];
    try (apply directory_of, asks_same; exact H); try destruct H. cbn [fsk]. unfold sys_chdir. destruct (find_at _ _ _ _); try apply directory_of, same_files_refl.
  destruct (look _ _) as [[?|?]|]; try apply directory_of, same_files_refl. repeat split.
Qed.
Lemma unlink_names : forall s p n i, names_only s (unlink s p n i).
Proof.
  intros. unfold unlink, names_only. cbn. repeat split; auto. intros j. unfold upd. destruct (N.eqb j i) eqn:E; [apply N.eqb_eq in E; subst j; eauto|eauto using add_link_self].
Qed.
Lemma move_names : forall s q c p n, names_only s (move_entry s q c p n).
Proof. intros. unfold move_entry, names_only. cbn. repeat split; auto. intros j. eauto using add_link_self. Qed.
Lemma rename_step : forall k c s, renames c -> names_only s (snd (fsk k c s)).
Proof.
  intros k c s H. destruct c as [p|p|p fl m|fd|p m|a b|a b|p n|p|a b|p n|fd n|fd m|p m b|p t|p|p|n| |p|x|a b n|fd n|fd d|p|d|d];
    try (apply names_of, asks_same; exact H); try destruct H. assert (H0 : names_only s s) by apply names_of, same_files_refl. cbn [fsk]. unfold sys_rename.
  destruct (find_entry k s a) as [l q|? ?|?]; auto. destruct (get (f_root s) q) as [c|]; auto. cbv zeta. destruct (_ || _); auto. destruct (_ && _); auto.
  destruct (find_entry k s b) as [l2 q2|p n|?]; auto.
  - destruct (get (f_root s) q2) as [[j|j es]|]; destruct c as [i|i es2]; auto.
    + destruct (N.eqb i j); auto. eapply names_trans; [apply unlink_names|apply move_names].
    + destruct (same_loc q q2); auto. destruct (below q q2); auto. destruct (is_nil es); auto.
  - destruct (_ && _); auto.
Qed.

(** permissions changes nothing but permissions, last_write_time nothing but modification times, resize_file nothing but contents of
    regular files, current_path nothing but the current directory, and rename neither contents nor attributes other than numbers of names. *)
Theorem C100_setters : forall cf has p p2 z prms opts k s,
  perms_only s (state_of (run (fsk k) (permissions_impl cf has p prms opts) s)) /\
  times_only s (state_of (run (fsk k) (set_last_write_time_impl cf has p z) s)) /\
  contents_only s (state_of (run (fsk k) (resize_file_impl has p z) s)) /\
  directory_only s (state_of (run (fsk k) (set_current_path_impl has p) s)) /\
  names_only s (state_of (run (fsk k) (rename_impl has p p2) s)).
Proof.
  intros. split; [|split; [|split; [|split]]].
  - apply (rel_run k perms_only sets_perm); auto using perm_step; [intros; apply perms_of, same_files_refl|exact perms_trans|].
    unfold permissions_impl, simple, status_impl, symlink_status_impl, GetFileStatus, GetLinkStatus, CreateFileStatus. only_calls.
  - apply (rel_run k times_only sets_time); auto using time_step; [intros; apply times_of, same_files_refl|exact times_trans|].
    unfold set_last_write_time_impl, simple. only_calls.
  - apply (rel_run k contents_only sets_size); auto using size_step; [intros; apply contents_of, same_files_refl|exact contents_trans|].
    unfold resize_file_impl, simple. only_calls.
  - apply (rel_run k directory_only sets_cwd); auto using cwd_step; [intros; apply directory_of, same_files_refl|exact directory_trans|].
    unfold set_current_path_impl, simple. only_calls.
  - apply (rel_run k names_only renames); auto using rename_step; [intros; apply names_of, same_files_refl|exact names_trans|].
    unfold rename_impl, simple. only_calls.
Qed.

(** The operations do something in the states the theorems are about. *)
Example C100_effects : let s := demo_merge in let final A (p : prog A) := state_of (run (fsk demo_choices) p s) in
  wf s /\ look (f_root s) [lit "s"; lit "d"; lit "g"] = Some (NLeaf 5) /\
  look (f_root (final _ (remove_all_impl plain_config 40 true (topath (lit "/s/d"))))) [lit "s"; lit "d"] = None /\
  m_perm (f_meta (final _ (permissions_impl plain_config true (topath (lit "/s/f")) 256 (popt_value po_replace))) 3) = 256%N /\ m_perm (f_meta s 3) = 384%N /\
  f_body (final _ (resize_file_impl true (topath (lit "/s/f")) 2)) 3%N = BReg (lit "ne") /\
  f_cwd (final _ (set_current_path_impl true (topath (lit "/s/d")))) = [lit "s"; lit "d"] /\
  look (f_root (final _ (rename_impl true (topath (lit "/s/f")) (topath (lit "/t/f"))))) [lit "t"; lit "f"] = Some (NLeaf 3).
Proof. split; [exact (proj1 C99_example)|]. repeat split; vm_compute; reflexivity. Qed.
Print Assumptions C100_queries.
Print Assumptions C100_creators.
Print Assumptions C100_removers.
Print Assumptions C100_setters.
