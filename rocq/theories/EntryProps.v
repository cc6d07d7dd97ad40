(** Directory entries: what their queries answer after a refresh, without one, and as delivered by an iterator (C51, C52, C61). *)
From Coq Require Import Ascii String Bool Arith NArith ZArith Lia.
From Verif Require Import Str PathModel PathSpec PathProofs PathOps FlagsModel TimeModel ArithProps Prog DirModel OpsModel OpsProps FS FSProofs FSSpec FSOps FSPlace FSProps FSProps3 FSProps4 IterProps FSIter FSCopyTree.
From Coq Require Import List.
Import ListNotations.

(** * Vocabulary *)

(** The queries of directory_entry, fs_dir.h:91-220. *)
Inductive query := q_exists | q_is (t : file_type) | q_is_other | q_is_symlink | q_file_size | q_hard_link_count
  | q_last_write_time | q_status | q_symlink_status.

(** What a query can answer. *)
Inductive reply := r_bool (b : bool) | r_number (z : Z) | r_status (s : file_status).

(** The entry answers the query: the reply, the code in ec, and the entry, whose cache the query may change. *)
Definition answered {A} (f : A -> reply) (p : prog (A * ecode * dir_entry)) : prog (reply * ecode * dir_entry) :=
  let! r := p in Ret (f (fst (fst r)), snd (fst r), snd r).
Definition ask (cf : config) (q : query) (has : bool) (e : dir_entry) : prog (reply * ecode * dir_entry) :=
  match q with
  | q_exists => answered r_bool (entry_exists cf has e)
  | q_is t => answered r_bool (entry_is cf t has e)
  | q_is_other => answered r_bool (entry_is_other cf has e)
  | q_is_symlink => answered r_bool (entry_is_symlink cf has e)
  | q_file_size => answered r_number (GetSize cf has e)
  | q_hard_link_count => answered r_number (GetHardLinkCount cf has e)
  | q_last_write_time => answered r_number (GetLastWriteTime cf has e)
  | q_status => answered r_status (GetStatus cf has e)
  | q_symlink_status => answered r_status (GetSymLinkStatus cf has e)
  end.

(** The free function of the same name, for a path. *)
Definition answered_free {A} (f : A -> reply) (p : prog (A * ecode)) : prog (reply * ecode) :=
  let! r := p in Ret (f (fst r), snd r).
Definition free (cf : config) (q : query) (has : bool) (p : path) : prog (reply * ecode) :=
  match q with
  | q_exists => answered_free r_bool (exists_ has p)
  | q_is t => answered_free r_bool (is_type t has p)
  | q_is_other => answered_free r_bool (is_other has p)
  | q_is_symlink => answered_free r_bool (is_symlink has p)
  | q_file_size => answered_free r_number (file_size_impl has p)
  | q_hard_link_count => answered_free r_number (hard_link_count_impl has p)
  | q_last_write_time => answered_free r_number (last_write_time_impl cf has p)
  | q_status => answered_free r_status (status_impl has p)
  | q_symlink_status => answered_free r_status (symlink_status_impl has p)
  end.

(** The entry [e] was made or refreshed in state [s] by one of the constructors, assign, replace_filename or refresh. *)
Inductive refreshed (cf : config) {S} (h : kernel S) (s : S) (e : dir_entry) (s' : S) : Prop :=
| by_constructor p : run h (entry_of cf p) s = Done e s' -> refreshed cf h s e s'
| by_constructor_ec p ec : run h (entry_of_ec cf p) s = Done (ec, e) s' -> refreshed cf h s e s'
| by_assign has e0 p ec : run h (entry_assign cf has e0 p) s = Done (ec, e) s' -> refreshed cf h s e s'
| by_replace_filename has e0 p ec : run h (entry_replace_filename cf has e0 p) s = Done (ec, e) s' -> refreshed cf h s e s'
| by_refresh has e0 ec : run h (entry_refresh cf has e0) s = Done (ec, e) s' -> refreshed cf h s e s'.

(** [e] has become [e'] by answering queries, each on any system in any state. *)
Inductive queried (cf : config) : dir_entry -> dir_entry -> Prop :=
| queried_none e : queried cf e e
| queried_more e e1 e2 q has S (h : kernel S) s r ec s' :
    run h (ask cf q has e) s = Done (r, ec, e1) s' -> queried cf e1 e2 -> queried cf e e2.

(** stat follows symlinks: it does not answer with one. *)
Definition stat_follows {S} (h : kernel S) (s : S) (p : path) : Prop :=
  forall st, fst (h (c_stat (native p)) s) = Val st -> type_of_mode (st_mode st) <> ft_symlink.

(** * Proofs about the cache *)

Definition filled (st : stat_t) (t : Z) : cached :=
  Cached CFULL false false false false (type_of_mode (st_mode st)) u64_max
    (if file_type_eqb (type_of_mode (st_mode st)) ft_regular then to_u64 (st_size st) else u64_max) t perms_unknown perms_unknown.

Definition stamp (cf : config) (st : stat_t) : out Z :=
  match extract_last_write_time (cf_mode cf) (st_mtim st) with
  | Ok (Some v) => Ok v | Ok None => Ok i64_min | Throw e => Throw e | AssertFail => AssertFail | UB => UB
  end.

Lemma type_of_mode_known : forall m, type_of_mode m <> ft_none /\ type_of_mode m <> ft_not_found.
Proof.
  intros m. unfold type_of_mode.
  repeat match goal with |- context [if ?c then _ else _] => destruct c end; split; discriminate.
Qed.
Lemma eqb_false : forall a b, a <> b -> file_type_eqb a b = false.
Proof. intros a b H. unfold file_type_eqb. destruct (file_type_eq_dec a b); congruence. Qed.
Lemma eqb_same : forall a, file_type_eqb a a = true.
Proof. intros a. unfold file_type_eqb. destruct (file_type_eq_dec a a); congruence. Qed.
Lemma eqb_true : forall a b, file_type_eqb a b = true -> a = b.
Proof. intros a b. unfold file_type_eqb. destruct (file_type_eq_dec a b); congruence. Qed.
Lemma mode_exists : forall m x, st_exists (FStatus (type_of_mode m) x) = true.
Proof.
  intros m x. unfold st_exists, status_known. cbn [st_type]. destruct (type_of_mode_known m).
  rewrite !eqb_false by auto. reflexivity.
Qed.
Lemma mode_status_known : forall m x, status_known (FStatus (type_of_mode m) x) = true.
Proof. intros m x. unfold status_known. cbn [st_type]. destruct (type_of_mode_known m). rewrite eqb_false by auto. reflexivity. Qed.

Lemma run_stat_ec : forall S (h : kernel S) s p,
  run h (GetFileStatus true p) s =
  match h (c_stat (native p)) s with
  | (Val st, s1) => Done (FStatus (type_of_mode (st_mode st)) (op_and width_perms (st_mode st) perms_mask), st, None) s1
  | (Err e, s1) => Done (missing_status e, stat_zero, Some e) s1
  end.
Proof.
  intros. unfold GetFileStatus. cbn [run]. destruct (h (c_stat (native p)) s) as [[e|st] s1]; [|reflexivity].
  unfold CreateFileStatus, missing_status, report. destruct (errno_eqb e ENOENT || errno_eqb e ENOTDIR); reflexivity.
Qed.

Lemma run_lift : forall A B S (h : kernel S) (x : out A) (f : A -> prog B) s,
  run h (pbind (lift x) f) s = match x with
    | Ok a => run h (f a) s | Throw e => Failed (FPath e) s | AssertFail => Failed FAssert s | UB => Failed FUB s end.
Proof. intros A B S h x f s. destruct x; reflexivity. Qed.

Lemma run_basic_empty : forall cf S (h : kernel S) s has follow p, stat_follows h s p ->
  run h (UpdateBasicFileInformation cf has follow (Entry p cache_reset)) s =
  match h (c_stat (native p)) s with
  | (Err e, s1) => if has then Done (Some e, Entry p cache_reset) s1 else Failed (FThrow (Some e) [p]) s1
  | (Val st, s1) =>
      match stamp cf st with
      | Ok t => Done (None, Entry p (filled st t)) s1
      | Throw e => Failed (FPath e) s1 | AssertFail => Failed FAssert s1 | UB => Failed FUB s1
      end
  end.
Proof.
  intros cf S h s has follow p Hf. unfold UpdateBasicFileInformation. rewrite run_bind. cbn [de_path de_data].
  rewrite run_stat_ec. unfold stat_follows in Hf.
  destruct (h (c_stat (native p)) s) as [[e|st] s1]; cbn [fst snd cache_reset cd_cache cache_eqb failed andb orb].
  - destruct has; reflexivity.
  - specialize (Hf st eq_refl). rewrite mode_status_known. cbn [negb].
    rewrite mode_exists. unfold st_is_symlink, st_is_regular_file, has_type. cbn [st_type]. rewrite (eqb_false _ _ Hf).
    cbn [cd_symlink andb]. unfold ExtractLastWriteTime, stamp.
    rewrite run_bind, run_bind. rewrite run_bind. unfold filled.
    destruct (extract_last_write_time (cf_mode cf) (st_mtim st)) as [[v|]|x| |]; cbn [lift run report fst]; try reflexivity;
      destruct (file_type_eqb (type_of_mode (st_mode st)) ft_regular); reflexivity.
Qed.

Lemma run_refresh : forall cf S (h : kernel S) s has e, stat_follows h s (de_path e) ->
  run h (DoRefresh cf has e) s =
  match h (c_stat (native (de_path e))) s with
  | (Err x, s1) =>
      if has then Done (Some x, Entry (de_path e) cache_reset) s1
      else if errno_eqb x ENOENT || errno_eqb x ENOTDIR then Done (None, Entry (de_path e) cache_reset) s1
      else Failed (FThrow (Some x) [de_path e]) s1
  | (Val st, s1) =>
      match stamp cf st with
      | Ok t => Done (None, Entry (de_path e) (filled st t)) s1
      | Throw x => Failed (FPath x) s1 | AssertFail => Failed FAssert s1 | UB => Failed FUB s1
      end
  end.
Proof.
  intros cf S h s has e Hf. unfold DoRefresh, with_data. rewrite run_bind, run_basic_empty by auto.
  destruct (h (c_stat (native (de_path e))) s) as [[x|st] s1].
  - cbn [fst snd]. rewrite run_bind. unfold HandleError. destruct has; [reflexivity|].
    destruct (errno_eqb x ENOENT || errno_eqb x ENOTDIR); reflexivity.
  - destruct (stamp cf st); try reflexivity. rewrite run_bind. destruct has; reflexivity.
Qed.

Lemma refresh_path : forall cf S (h : kernel S) s has e ec e1 s1,
  run h (DoRefresh cf has e) s = Done (ec, e1) s1 -> de_path e1 = de_path e.
Proof.
  intros cf S h s has e ec e1 s1. unfold DoRefresh. rewrite run_bind.
  destruct (run h (UpdateBasicFileInformation cf true true (with_data e cache_reset)) s) as [[c e'] s'|f s'] eqn:E; [|discriminate].
  assert (He : de_path e' = de_path e).
  { revert E. unfold UpdateBasicFileInformation. rewrite run_bind.
    destruct (run h (GetFileStatus true (de_path (with_data e cache_reset))) s) as [[[st b] m] s2|f s2]; [|discriminate].
    cbn [fst snd]. match goal with |- context [if ?c then _ else _] => destruct c end.
    - cbn. intros [= <- <- <-]. reflexivity.
    - rewrite run_bind. match goal with |- match ?r with _ => _ end = _ -> _ => destruct r end; [|discriminate].
      cbn. intros [= <- <- <-]. reflexivity. }
  rewrite run_bind. destruct (run h (HandleError has (de_path e) (fst (c, e')) true) s') as [c2 s3|f s3]; [|discriminate].
  cbn. intros [= <- <- <-]. auto.
Qed.

Lemma refreshed_is : forall cf S (h : kernel S) s e s1, refreshed cf h s e s1 ->
  exists has e0 ec, de_path e0 = de_path e /\ run h (DoRefresh cf has e0) s = Done (ec, e) s1.
Proof.
  intros cf S h s e s1 [p H|p ec H|has e0 p ec H|has e0 p ec H|has e0 ec H].
  - unfold entry_of in H. rewrite run_bind in H.
    destruct (run h (DoRefresh cf true _) s) as [[ec e'] s'|f s'] eqn:E; [|discriminate].
    cbn in H. injection H as -> ->. exists true, (Entry (fst (move_ctor Posix p)) cache_reset), ec. split; auto.
    symmetry. eapply refresh_path; eauto.
  - unfold entry_of_ec in H. do 3 eexists. split; [|exact H]. symmetry. eapply refresh_path; eauto.
  - unfold entry_assign in H. do 3 eexists. split; [|exact H]. symmetry. eapply refresh_path; eauto.
  - unfold entry_replace_filename in H. rewrite run_lift in H.
    destruct (replace_filename Posix (cf_el cf) (de_path e0) p); try discriminate.
    do 3 eexists. split; [|exact H]. symmetry. eapply refresh_path; eauto.
  - do 3 eexists. split; [|exact H]. symmetry. eapply refresh_path; eauto.
Qed.

Lemma refreshed_filled : forall cf S (h : kernel S) s e s1, refreshed cf h s e s1 -> stat_follows h s (de_path e) ->
  match h (c_stat (native (de_path e))) s with
  | (Err _, s2) => e = Entry (de_path e) cache_reset /\ s1 = s2
  | (Val st, s2) => exists t, stamp cf st = Ok t /\ e = Entry (de_path e) (filled st t) /\ s1 = s2
  end.
Proof.
  intros cf S h s e s1 H Hf. destruct (refreshed_is _ _ _ _ _ _ H) as (has & e0 & ec & Hp & Hr).
  rewrite run_refresh in Hr by (rewrite Hp; auto). rewrite Hp in Hr.
  destruct (h (c_stat (native (de_path e))) s) as [[x|st] s2].
  - destruct has; [|destruct (errno_eqb x ENOENT || errno_eqb x ENOTDIR)]; try discriminate; injection Hr as <- <- <-; auto.
  - destruct (stamp cf st) as [t| | |]; try discriminate. injection Hr as <- <- <-. eauto.
Qed.

(** What a filled cache answers. *)
Definition cached_answer (q : query) (has : bool) (st : stat_t) (t : Z) : reply * ecode :=
  let ty := type_of_mode (st_mode st) in
  match q with
  | q_exists => (r_bool (negb has), None)
  | q_is x => (r_bool (file_type_eqb (if has then ft_none else ty) x), None)
  | q_is_other => (r_bool (if has then false else st_is_other (status_of_type ty)), None)
  | q_is_symlink => (r_bool (file_type_eqb ty ft_symlink), None)
  | q_file_size => (r_number (if file_type_eqb ty ft_regular then to_u64 (st_size st) else u64_max), None)
  | q_hard_link_count => (r_number u64_max, None)
  | q_last_write_time => (r_number t, if Z.eqb t i64_min then Some EOVERFLOW else None)
  | q_status => (r_status (FStatus ty perms_unknown), None)
  | q_symlink_status => (r_status (FStatus ty perms_unknown), None)
  end.

Lemma type_exists : forall m, st_exists (status_of_type (type_of_mode m)) = true.
Proof. intros m. apply mode_exists. Qed.

Lemma run_cached : forall cf S (h : kernel S) s q has p st t,
  run h (ask cf q has (Entry p (filled st t))) s =
  match cached_answer q has st t with
  | (r, Some c) => if has then Done (r, Some c, Entry p (filled st t)) s else Failed (FThrow (Some c) [p]) s
  | (r, None) => Done (r, None, Entry p (filled st t)) s
  end.
Proof.
  intros cf S h s q has p st t.
  destruct q; unfold ask, answered; rewrite run_bind;
    unfold entry_exists, entry_is, entry_is_other, entry_is_symlink, GetFileType, GetSymLinkFileType, GetSize, GetHardLinkCount,
      GetLastWriteTime, GetStatus, GetSymLinkStatus, UpdatePermissionsInformation, asap_assert;
    cbn [de_data filled cd_cache cache_eqb cd_symlink cd_type cd_perms_resolved negb andb cd_write_time cd_size cd_nlink]; rewrite ?andb_false_r;
    rewrite ?run_bind; cbn [run pbind fst snd]; rewrite ?run_bind; cbn [run pbind fst snd];
    cbn [de_data filled cd_cache cache_eqb cd_symlink cd_type cd_perms_resolved negb andb cd_write_time cd_size cd_nlink];
    rewrite ?type_exists; cbn [negb andb];
    try (destruct has; cbn [run fst snd cached_answer]; rewrite ?type_exists; reflexivity).
  cbn [cached_answer]. destruct (Z.eqb t i64_min) eqn:E; [|destruct has; reflexivity].
  unfold report. apply Z.eqb_eq in E. subst t. destruct has; reflexivity.
Qed.

Lemma queried_filled : forall cf e e2, queried cf e e2 -> forall p st t, e = Entry p (filled st t) -> e2 = e.
Proof.
  intros cf e e2 H. induction H as [e|e e1 e2 q has S h s r ec s' H Hq IH]; intros p st t ->; auto.
  rewrite run_cached in H. assert (e1 = Entry p (filled st t)).
  { destruct (cached_answer q has st t) as [r' [c|]]; [destruct has|]; try discriminate; injection H; auto. }
  subst e1. eauto.
Qed.

(** The free functions in terms of the answer of stat. *)
Lemma exists_val : forall S (h : kernel S) s p s1, run h (exists_ false p) s = Done (true, None) s1 ->
  exists st, h (c_stat (native p)) s = (Val st, s1).
Proof.
  intros S h s p s1. unfold exists_, status_impl, GetFileStatus. rewrite !run_bind. cbn [run].
  destruct (h (c_stat (native p)) s) as [[e|st] s2]; unfold CreateFileStatus.
  - destruct (errno_eqb e ENOENT || errno_eqb e ENOTDIR); cbn; discriminate.
  - cbn [pbind run fst snd]. rewrite mode_exists. cbn. intros [= <-]. eauto.
Qed.

(** The queries kept by the cache: exists() and the is_x() that follow symlinks, without error_code, and file_size and last_write_time. *)
Definition kept (q : query) (has : bool) : Prop :=
  match q with
  | q_exists | q_is _ | q_is_other => has = false
  | q_file_size | q_last_write_time => True
  | _ => False
  end.

Lemma free_cached : forall cf S (h : kernel S) s p st s1 t q has r,
  h (c_stat (native p)) s = (Val st, s1) -> stamp cf st = Ok t -> kept q has ->
  run h (free cf q false p) s = Done (r, None) s1 ->
  (q = q_last_write_time -> r <> r_number i64_min) ->
  cached_answer q has st t = (r, None).
Proof.
  intros cf S h s p st s1 t q has r Hst Ht Hk H Hr.
  assert (Hs : run h (status_impl false p) s =
    Done (FStatus (type_of_mode (st_mode st)) (op_and width_perms (st_mode st) perms_mask), None) s1).
  { unfold status_impl, GetFileStatus. rewrite run_bind. cbn [run]. rewrite Hst. reflexivity. }
  destruct q; cbn [kept] in Hk; try contradiction; subst; unfold free, answered_free in H; rewrite run_bind in H.
  - unfold exists_ in H. rewrite run_bind, Hs in H. cbn [run fst snd] in H. rewrite mode_exists in H. injection H as <-. reflexivity.
  - unfold is_type in H. rewrite run_bind, Hs in H. cbn [run fst snd] in H. injection H as <-. reflexivity.
  - unfold is_other in H. rewrite run_bind, Hs in H. cbn [run fst snd] in H. injection H as <-. reflexivity.
  - unfold file_size_impl in H. rewrite run_bind, run_stat_ec, Hst in H. cbn [failed] in H. rewrite mode_exists in H. cbn [negb orb] in H.
    unfold st_is_regular_file, has_type in H. cbn [st_type] in H. cbn [cached_answer].
    destruct (file_type_eqb (type_of_mode (st_mode st)) ft_regular); cbn [negb] in H; cbn in H; [|discriminate].
    injection H as <-. reflexivity.
  - unfold last_write_time_impl in H. rewrite run_bind, run_stat_ec, Hst in H. cbn [failed fst snd] in H.
    unfold ExtractLastWriteTime in H. rewrite run_lift in H. unfold stamp in Ht.
    destruct (extract_last_write_time (cf_mode cf) (st_mtim st)) as [[v|]| | |]; try discriminate.
    injection Ht as <-. cbn in H. injection H as <-. cbn [cached_answer].
    destruct (Z.eqb v i64_min) eqn:E; auto. apply Z.eqb_eq in E. subst. elim Hr; auto.
Qed.

(** * C51 queries after a refresh *)

(** After a constructor, assign, replace_filename or refresh that found the object, and any queries in between, in any later
    state of any system: exists(), is_x(), file_size and last_write_time answer what the free function answered
    for the path in the state of the refresh, without a system call and leaving the entry as it was.
    Missing: hard_link_count, status, symlink_status, is_symlink and the is_x(ec), below and C52; the time
    must not be file_time_type::min(), with which the class marks an unrepresentable time. *)
Theorem C51_cached_partial : forall cf S (h : kernel S) s e s1 e2 S2 (h2 : kernel S2) s2 q has r,
  refreshed cf h s e s1 -> stat_follows h s (de_path e) ->
  run h (exists_ false (de_path e)) s = Done (true, None) s1 ->
  queried cf e e2 -> kept q has ->
  run h (free cf q false (de_path e)) s = Done (r, None) s1 ->
  (q = q_last_write_time -> r <> r_number i64_min) ->
  run h2 (ask cf q has e2) s2 = Done (r, None, e2) s2 /\ e2 = e.
Proof.
  intros cf S h s e s1 e2 S2 h2 s2 q has r Hr Hf He Hq Hk Ha Ht.
  destruct (exists_val _ _ _ _ _ He) as [st Hst].
  pose proof (refreshed_filled _ _ _ _ _ _ Hr Hf) as H. rewrite Hst in H. destruct H as (t & Hs & Hd & _).
  assert (e2 = e) as -> by (eapply queried_filled; eauto). split; auto.
  rewrite Hd, run_cached. rewrite (free_cached _ _ _ _ _ _ _ _ _ _ _ Hst Hs Hk Ha Ht). reflexivity.
Qed.

(** On the file system of FS.v stat follows symlinks. *)
Lemma fs_stat_follows : forall k s p, wf s -> stat_follows (fsk k) s p.
Proof.
  intros k s p Hw st H. cbn [fsk fst] in H. rewrite sys_stat_node in H.
  destruct (node_at s (find_at k s true (native p))) as [e|x] eqn:E; [discriminate|]. injection H as <-.
  rewrite stat_of_type. apply node_at_leads in E as (q & l & E1 & E2). unfold type_of. destruct x as [i|i]; [|discriminate].
  pose proof (find_no_link _ _ _ _ _ _ Hw E1 E2) as H. unfold link_text in H. destruct (f_body s i) as [d|t|[]]; discriminate.
Qed.

(** The entry of f in the demonstration file system (5 bytes, last written 1000 s and 5 ns after 1970): after the file was
    truncated to 1 byte, and after it was removed, the entry still answers as at the refresh. *)
Example C51_example :
  match run (fsk demo_choices) (entry_of plain_config (mkpath (lit "f"))) demo with
  | Done e s1 =>
      refreshed plain_config (fsk demo_choices) demo e s1 /\
      stat_follows (fsk demo_choices) demo (de_path e) /\
      run (fsk demo_choices) (exists_ false (de_path e)) demo = Done (true, None) s1 /\
      run (fsk demo_choices) (free plain_config q_file_size false (de_path e)) demo = Done (r_number 5, None) s1 /\
      match run (fsk demo_choices) (resize_file_impl true (mkpath (lit "f")) 1) s1 with
      | Done (_, None) s2 =>
          run (fsk demo_choices) (free plain_config q_file_size false (de_path e)) s2 = Done (r_number 1, None) s2 /\
          match run (fsk demo_choices) (ask plain_config q_status true e) s2 with
          | Done (_, _, e2) _ =>
              queried plain_config e e2 /\
              run (fsk demo_choices) (ask plain_config q_file_size true e2) s2 = Done (r_number 5, None, e2) s2 /\
              run (fsk demo_choices) (ask plain_config q_last_write_time false e2) s2 = Done (r_number 1000000000005, None, e2) s2 /\
              match run (fsk demo_choices) (remove_impl true (mkpath (lit "f"))) s2 with
              | Done (true, None) s3 =>
                  run (fsk demo_choices) (free plain_config q_exists false (de_path e)) s3 = Done (r_bool false, None) s3 /\
                  run (fsk demo_choices) (ask plain_config q_exists false e2) s3 = Done (r_bool true, None, e2) s3 /\
                  run (fsk demo_choices) (ask plain_config (q_is ft_regular) false e2) s3 = Done (r_bool true, None, e2) s3
              | _ => False end
          | _ => False end
      | _ => False end
  | _ => False
  end.
Proof.
  destruct (run (fsk demo_choices) (entry_of plain_config (mkpath (lit "f"))) demo) as [e s1|f s1] eqn:E.
  2: vm_compute in E; discriminate.
  split; [exact (by_constructor _ _ _ _ _ _ E)|]. split; [apply fs_stat_follows, demo_wf|].
  vm_compute in E. injection E as <- <-. split; [vm_compute; reflexivity|]. split; [vm_compute; reflexivity|].
  match goal with |- match ?r with _ => _ end => destruct r as [[[] [c|]] s2|f s2] eqn:E2 end; try (vm_compute in E2; discriminate).
  vm_compute in E2. injection E2 as <-. split; [vm_compute; reflexivity|].
  match goal with |- match ?r with _ => _ end => destruct r as [[[v c] e2] s3|f s3] eqn:E3 end; [|vm_compute in E3; discriminate].
  split; [exact (queried_more _ _ _ _ _ _ _ _ _ _ _ _ E3 (queried_none _ _))|].
  vm_compute in E3. injection E3 as <- <- <- <-. split; [vm_compute; reflexivity|]. split; [vm_compute; reflexivity|].
  vm_compute. auto.
Qed.

(** ** With nothing cached *)

(** An entry with nothing cached: default constructed, or its last refresh did not find the object. *)
Definition uncached (e : dir_entry) : Prop := de_data e = cache_reset.

(** The refresh of a path that names nothing leaves nothing cached. *)
Lemma refresh_missing : forall cf S (h : kernel S) s e s1, refreshed cf h s e s1 -> stat_follows h s (de_path e) ->
  (forall s2, run h (exists_ false (de_path e)) s <> Done (true, None) s2) -> uncached e.
Proof.
  intros cf S h s e s1 Hr Hf Hn. pose proof (refreshed_filled _ _ _ _ _ _ Hr Hf) as H.
  destruct (h (c_stat (native (de_path e))) s) as [[x|st] s2] eqn:E; [destruct H as [-> _]; reflexivity|].
  elim (Hn s2). unfold exists_, status_impl, GetFileStatus. rewrite !run_bind. cbn [run]. rewrite E.
  cbn [CreateFileStatus run pbind fst snd]. rewrite mode_exists. reflexivity.
Qed.

Definition extra (st : stat_t) (t : Z) : cached := set_cache (filled st t) CEXTRA.

Lemma run_extra : forall cf S (h : kernel S) s has follow p st t,
  run h (UpdateExtraFileInformation cf has follow (Entry p (filled st t))) s = Done (None, Entry p (extra st t)) s.
Proof.
  intros. unfold UpdateExtraFileInformation, asap_assert. cbn [de_data filled cd_cache cache_eqb cd_symlink negb andb].
  rewrite andb_false_r. reflexivity.
Qed.
Lemma run_perms : forall cf S (h : kernel S) s has follow p st t,
  run h (UpdatePermissionsInformation cf has follow (Entry p (extra st t))) s =
  if cf_dbg cf then Failed FAssert s else Done (None, Entry p (filled st t)) s.
Proof.
  intros. unfold UpdatePermissionsInformation, asap_assert.
  cbn [de_data extra set_cache filled cd_cache cache_eqb cd_symlink negb andb]. rewrite andb_true_r. destruct (cf_dbg cf); reflexivity.
Qed.

(** Where an uncached entry ends after a query that found the object. *)
Definition after_query (q : query) (st : stat_t) (t : Z) : cached :=
  match q with
  | q_file_size => if file_type_eqb (type_of_mode (st_mode st)) ft_regular then extra st t else filled st t
  | q_hard_link_count | q_last_write_time => extra st t
  | _ => filled st t
  end.

(** The reply of an uncached entry that finds the object. *)
Definition live_answer (q : query) (has : bool) (st : stat_t) (t : Z) : reply * ecode :=
  match q with
  | q_file_size =>
      if file_type_eqb (type_of_mode (st_mode st)) ft_regular then (r_number (to_u64 (st_size st)), None)
      else (r_number u64_max, Some (if file_type_eqb (type_of_mode (st_mode st)) ft_directory then EISDIR else ENOTSUP))
  | _ => cached_answer q has st t
  end.

Definition asserts (q : query) : bool := match q with q_status | q_symlink_status => true | _ => false end.

Lemma run_uncached : forall cf S (h : kernel S) s q has e st s1, uncached e -> stat_follows h s (de_path e) ->
  h (c_stat (native (de_path e))) s = (Val st, s1) ->
  run h (ask cf q has e) s =
  match stamp cf st with
  | Ok t =>
      if asserts q && cf_dbg cf then Failed FAssert s1
      else match live_answer q has st t with
           | (r, Some c) => if has then Done (r, Some c, Entry (de_path e) (after_query q st t)) s1
                            else Failed (FThrow (Some c) [de_path e]) s1
           | (r, None) => Done (r, None, Entry (de_path e) (after_query q st t)) s1
           end
  | Throw x => Failed (FPath x) s1 | AssertFail => Failed FAssert s1 | UB => Failed FUB s1
  end.
Proof.
  intros cf S h s q has e st s1 Hu Hf Hst. unfold uncached in Hu. destruct e as [p d]. cbn [de_data de_path] in *. subst d.
  assert (Hb : forall has follow, run h (UpdateBasicFileInformation cf has follow (Entry p cache_reset)) s =
    match stamp cf st with
    | Ok t => Done (None, Entry p (filled st t)) s1
    | Throw x => Failed (FPath x) s1 | AssertFail => Failed FAssert s1 | UB => Failed FUB s1 end).
  { intros. rewrite run_basic_empty, Hst by auto. reflexivity. }
  assert (Hns : file_type_eqb (type_of_mode (st_mode st)) ft_symlink = false).
  { apply eqb_false, Hf. rewrite Hst. reflexivity. }
  destruct q as [|ty| | | | | | |]; unfold ask, answered; rewrite run_bind;
    unfold entry_exists, entry_is, entry_is_other, entry_is_symlink, GetFileType, GetSymLinkFileType, GetSize, GetHardLinkCount,
      GetLastWriteTime, GetStatus, GetSymLinkStatus; cbn [de_data cache_reset cd_cache cache_eqb];
    fold cache_reset;
    rewrite ?run_bind, ?Hb; destruct (stamp cf st) as [t|x| |]; try reflexivity;
    cbn [fst snd run]; rewrite ?run_bind; cbn [fst snd run asserts andb live_answer cached_answer].
  - (* exists *) destruct has; cbn [run fst snd]; [reflexivity|].
    cbn [de_data filled cd_type]. rewrite type_exists. cbn [negb run fst snd]. rewrite type_exists. reflexivity.
  - destruct has; cbn [run fst snd]; [reflexivity|].
    cbn [de_data filled cd_type]. rewrite type_exists. reflexivity.
  - destruct has; cbn [run fst snd]; [reflexivity|].
    cbn [de_data filled cd_type]. rewrite type_exists. reflexivity.
  - (* is_symlink *) rewrite Hns. destruct has; cbn [run fst snd]; [reflexivity|].
    cbn [de_data filled cd_symlink cd_type]. rewrite type_exists. cbn [negb run fst snd]. rewrite Hns. reflexivity.
  - (* size *) cbn [de_data filled cd_type]. rewrite type_exists. unfold st_is_regular_file, st_is_directory, has_type. cbn [st_type status_of_type].
    unfold after_query. destruct (file_type_eqb (type_of_mode (st_mode st)) ft_regular) eqn:Ereg; cbn [negb andb].
    + rewrite run_bind.
      change (Cached CFULL false false false false (type_of_mode (st_mode st)) u64_max
        (if file_type_eqb (type_of_mode (st_mode st)) ft_regular then to_u64 (st_size st) else u64_max) t perms_unknown perms_unknown) with (filled st t).
      rewrite run_extra. cbn [run fst snd]. unfold extra, set_cache, filled. cbn [de_data cd_size]. rewrite Ereg. reflexivity.
    + rewrite run_bind. unfold report. destruct has; reflexivity.
  - (* links *) rewrite run_extra. reflexivity.
  - (* time *) rewrite run_extra. cbn [de_data extra set_cache filled cd_type cd_write_time]. rewrite type_exists. cbn [andb].
    destruct (Z.eqb t i64_min) eqn:E; [|reflexivity]. apply Z.eqb_eq in E. subst t. rewrite run_bind. unfold report. destruct has; reflexivity.
  - rewrite run_extra. cbn [fst snd]. rewrite run_perms. destruct (cf_dbg cf); reflexivity.
  - rewrite run_extra. cbn [fst snd]. rewrite run_perms. destruct (cf_dbg cf); reflexivity.
Qed.

(** An entry with nothing cached answers the same queries as the free function in the current state, with the same error
    code, when the object exists and its time can be converted. The entry then keeps the answer. *)
Theorem C51_live_partial : forall cf S (h : kernel S) s e s1 x q has r ec,
  uncached e -> stat_follows h s (de_path e) ->
  run h (exists_ false (de_path e)) s = Done (true, None) s1 ->
  run h (last_write_time_impl cf true (de_path e)) s = Done x s1 -> fst x <> i64_min ->
  kept q has ->
  run h (free cf q has (de_path e)) s = Done (r, ec) s1 ->
  exists e1, run h (ask cf q has e) s = Done (r, ec, e1) s1 /\ de_path e1 = de_path e /\
    (ec = None -> cf_dbg cf = false \/ q = q_exists \/ (exists t, q = q_is t) \/ q = q_is_other ->
     forall S2 (h2 : kernel S2) s2, run h2 (ask cf q has e1) s2 = Done (r, ec, e1) s2).
Proof.
  intros cf S h s e s1 x q has r ec Hu Hf He Hx Hm Hk Ha. destruct (exists_val _ _ _ _ _ He) as [st Hst].
  assert (Ht : exists t, stamp cf st = Ok t /\ t <> i64_min).
  { unfold last_write_time_impl in Hx. rewrite run_bind, run_stat_ec, Hst in Hx. cbn [failed fst snd] in Hx.
    unfold ExtractLastWriteTime in Hx. rewrite run_lift in Hx. unfold stamp.
    destruct (extract_last_write_time (cf_mode cf) (st_mtim st)) as [[v|]| | |]; try discriminate; cbn in Hx; injection Hx as <-; cbn in Hm; try congruence; eauto. }
  destruct Ht as (t & Ht & Htm). pose proof (proj2 (Z.eqb_neq _ _) Htm) as Htb.
  assert (Hl : live_answer q has st t = (r, ec)).
  { assert (Hs : forall has, run h (status_impl has (de_path e)) s =
      Done (FStatus (type_of_mode (st_mode st)) (op_and width_perms (st_mode st) perms_mask), None) s1).
    { intros. unfold status_impl, GetFileStatus. rewrite run_bind. cbn [run]. rewrite Hst. reflexivity. }
    destruct q; cbn [kept] in Hk; try contradiction; subst; unfold free, answered_free in Ha; rewrite run_bind in Ha.
    - unfold exists_ in Ha. rewrite run_bind, Hs in Ha. cbn [run fst snd] in Ha. rewrite mode_exists in Ha. injection Ha as <- <-. reflexivity.
    - unfold is_type in Ha. rewrite run_bind, Hs in Ha. cbn [run fst snd] in Ha. injection Ha as <- <-. reflexivity.
    - unfold is_other in Ha. rewrite run_bind, Hs in Ha. cbn [run fst snd] in Ha. injection Ha as <- <-. reflexivity.
    - unfold file_size_impl in Ha. rewrite run_bind, run_stat_ec, Hst in Ha. cbn [failed] in Ha. rewrite mode_exists in Ha. cbn [negb orb] in Ha.
      unfold st_is_regular_file, st_is_directory, has_type in Ha. cbn [st_type] in Ha. cbn [live_answer].
      destruct (file_type_eqb (type_of_mode (st_mode st)) ft_regular); cbn [negb] in Ha; cbn in Ha; [injection Ha as <- <-; reflexivity|].
      destruct has; cbn in Ha; [|discriminate]. injection Ha as <- <-. reflexivity.
    - unfold last_write_time_impl in Ha. rewrite run_bind, run_stat_ec, Hst in Ha. cbn [failed fst snd] in Ha.
      unfold ExtractLastWriteTime in Ha. rewrite run_lift in Ha. unfold stamp in Ht.
      destruct (extract_last_write_time (cf_mode cf) (st_mtim st)) as [[v|]| | |]; try discriminate; injection Ht as <-; [|congruence].
      cbn in Ha. injection Ha as <- <-. cbn [live_answer cached_answer]. rewrite Htb. reflexivity. }
  pose proof (run_uncached cf S h s q has e st s1 Hu Hf Hst) as Hr. rewrite Ht, Hl in Hr.
  assert (Has : asserts q = false) by (destruct q; auto; contradiction). rewrite Has in Hr. cbn [andb] in Hr.
  exists (Entry (de_path e) (after_query q st t)). split; [|split; [reflexivity|]].
  - rewrite Hr. destruct ec; [|reflexivity]. destruct has; [reflexivity|].
    destruct q; cbn [kept] in Hk; try contradiction; cbn [live_answer cached_answer] in Hl; try discriminate.
    + exfalso. unfold free, answered_free, file_size_impl in Ha. rewrite run_bind, run_bind, run_stat_ec, Hst in Ha. cbn [failed] in Ha. rewrite mode_exists in Ha. cbn [negb orb] in Ha.
      unfold st_is_regular_file, st_is_directory, has_type in Ha. cbn [st_type] in Ha.
      destruct (file_type_eqb (type_of_mode (st_mode st)) ft_regular); cbn in Ha; discriminate.
    + rewrite Htb in Hl. discriminate.
  - intros -> Hor S2 h2 s2.
    destruct q; cbn [kept] in Hk; try contradiction; subst; cbn [after_query]; try (rewrite run_cached; cbn [live_answer] in Hl; rewrite Hl; reflexivity).
    + destruct Hor as [Hd|[H|[[? H]|H]]]; try discriminate.
      cbn [live_answer] in Hl. destruct (file_type_eqb (type_of_mode (st_mode st)) ft_regular) eqn:Er; [|discriminate]. injection Hl as <-.
      unfold ask, answered, GetSize. cbn [de_data extra set_cache filled cd_cache cd_extra_resolved negb]. rewrite run_bind, run_bind.
      unfold UpdateExtraFileInformation, asap_assert. cbn [de_data extra set_cache filled cd_cache cache_eqb cd_symlink negb andb]. rewrite Hd.
      cbn. rewrite Er. reflexivity.
    + destruct Hor as [Hd|[H|[[? H]|H]]]; try discriminate. cbn [live_answer cached_answer] in Hl. rewrite Htb in Hl. injection Hl as <-.
      unfold ask, answered, GetLastWriteTime. cbn [de_data extra set_cache filled cd_cache cd_extra_resolved negb]. rewrite run_bind, run_bind.
      unfold UpdateExtraFileInformation, asap_assert. cbn [de_data extra set_cache filled cd_cache cache_eqb cd_symlink negb andb]. rewrite Hd.
      cbn [andb pbind run fst snd with_data de_data set_cache cd_type cd_write_time extra filled]. rewrite type_exists, Htb. reflexivity.
Qed.

(** An entry made when the file did not exist yet answers about the file made since. *)
Example C51_live_example :
  match run (fsk demo_choices) (entry_of plain_config (mkpath (lit "new"))) demo with
  | Done e s0 =>
      uncached e /\
      match run (fsk demo_choices) (copy_file_impl plain_config 20 true (mkpath (lit "f")) (mkpath (lit "new")) 0) s0 with
      | Done (true, None) s1 =>
          run (fsk demo_choices) (exists_ false (de_path e)) s1 = Done (true, None) s1 /\
          run (fsk demo_choices) (last_write_time_impl plain_config true (de_path e)) s1 = Done (2000000000000%Z, None) s1 /\
          run (fsk demo_choices) (free plain_config q_file_size true (de_path e)) s1 = Done (r_number 5, None) s1 /\
          match run (fsk demo_choices) (ask plain_config q_file_size true e) s1 with
          | Done (r, None, _) _ => r = r_number 5 | _ => False end
      | _ => False end
  | _ => False end.
Proof. vm_compute. auto 10. Qed.

(** ** What the queries do not keep *)

(** hard_link_count of a refreshed entry is always 2^64 - 1, whatever the number of links was. *)
Theorem C51_hard_link_count_refuted : forall cf S (h : kernel S) s e s1 e2 S2 (h2 : kernel S2) s2 has,
  refreshed cf h s e s1 -> stat_follows h s (de_path e) -> run h (exists_ false (de_path e)) s = Done (true, None) s1 -> queried cf e e2 ->
  run h2 (ask cf q_hard_link_count has e2) s2 = Done (r_number u64_max, None, e2) s2.
Proof.
  intros cf S h s e s1 e2 S2 h2 s2 has Hr Hf He Hq. destruct (exists_val _ _ _ _ _ He) as [st Hst].
  pose proof (refreshed_filled _ _ _ _ _ _ Hr Hf) as H. rewrite Hst in H. destruct H as (t & Hs & Hd & _).
  assert (e2 = e) as -> by (eapply queried_filled; eauto). rewrite Hd, run_cached. reflexivity.
Qed.

(** status and symlink_status of a refreshed entry have no permissions, and symlink_status the type of the target. *)
Theorem C51_status_refuted : forall cf S (h : kernel S) s e s1 e2 S2 (h2 : kernel S2) s2 has st,
  refreshed cf h s e s1 -> stat_follows h s (de_path e) -> run h (exists_ false (de_path e)) s = Done (true, None) s1 -> queried cf e e2 ->
  run h (status_impl false (de_path e)) s = Done (st, None) s1 ->
  run h2 (ask cf q_status has e2) s2 = Done (r_status (FStatus (st_type st) perms_unknown), None, e2) s2 /\
  run h2 (ask cf q_symlink_status has e2) s2 = Done (r_status (FStatus (st_type st) perms_unknown), None, e2) s2.
Proof.
  intros cf S h s e s1 e2 S2 h2 s2 has x Hr Hf He Hq Hx. destruct (exists_val _ _ _ _ _ He) as [st Hst].
  pose proof (refreshed_filled _ _ _ _ _ _ Hr Hf) as H. rewrite Hst in H. destruct H as (t & Hs & Hd & _).
  assert (e2 = e) as -> by (eapply queried_filled; eauto). rewrite Hd, !run_cached.
  unfold status_impl, GetFileStatus in Hx. rewrite run_bind in Hx. cbn [run] in Hx. rewrite Hst in Hx. cbn in Hx. injection Hx as <-. auto.
Qed.

(** is_symlink() of a refreshed entry is false even for a symlink. *)
Theorem C51_is_symlink_refuted : forall cf S (h : kernel S) s e s1 e2 S2 (h2 : kernel S2) s2 has,
  refreshed cf h s e s1 -> stat_follows h s (de_path e) -> run h (exists_ false (de_path e)) s = Done (true, None) s1 -> queried cf e e2 ->
  run h2 (ask cf q_is_symlink has e2) s2 = Done (r_bool false, None, e2) s2.
Proof.
  intros cf S h s e s1 e2 S2 h2 s2 has Hr Hf He Hq. destruct (exists_val _ _ _ _ _ He) as [st Hst].
  pose proof (refreshed_filled _ _ _ _ _ _ Hr Hf) as H. rewrite Hst in H. destruct H as (t & Hs & Hd & _).
  assert (e2 = e) as -> by (eapply queried_filled; eauto). rewrite Hd, run_cached. cbn [cached_answer].
  rewrite eqb_false; auto. apply Hf. rewrite Hst. reflexivity.
Qed.

(** file_size of a refreshed entry that is no regular file is 2^64 - 1 without an error, where the free function reports one. *)
Theorem C51_directory_size_refuted : forall cf S (h : kernel S) s e s1 e2 S2 (h2 : kernel S2) s2 has,
  refreshed cf h s e s1 -> stat_follows h s (de_path e) -> run h (exists_ false (de_path e)) s = Done (true, None) s1 -> queried cf e e2 ->
  run h (is_regular_file false (de_path e)) s = Done (false, None) s1 ->
  (exists c, run h (free cf q_file_size false (de_path e)) s = Failed (FThrow (Some c) [de_path e]) s1) /\
  run h2 (ask cf q_file_size has e2) s2 = Done (r_number u64_max, None, e2) s2.
Proof.
  intros cf S h s e s1 e2 S2 h2 s2 has Hr Hf He Hq Hx. destruct (exists_val _ _ _ _ _ He) as [st Hst].
  pose proof (refreshed_filled _ _ _ _ _ _ Hr Hf) as H. rewrite Hst in H. destruct H as (t & Hs & Hd & _).
  assert (e2 = e) as -> by (eapply queried_filled; eauto).
  unfold is_regular_file, is_type, status_impl, GetFileStatus in Hx. rewrite !run_bind in Hx. cbn [run] in Hx. rewrite Hst in Hx. cbn in Hx.
  unfold has_type in Hx. cbn [st_type] in Hx. injection Hx as Hx. split.
  - unfold free, answered_free, file_size_impl. rewrite run_bind, run_bind, run_stat_ec, Hst. cbn [failed]. rewrite mode_exists.
    unfold st_is_regular_file, st_is_directory, has_type. cbn [st_type]. rewrite Hx. cbn. eauto.
  - rewrite Hd, run_cached. cbn [cached_answer]. rewrite Hx. reflexivity.
Qed.

(** With assertions on, status() and symlink_status() of an entry with nothing cached stop the program when the object exists, *)
Theorem C51_status_asserts_refuted : forall cf S (h : kernel S) s e s1 x q has,
  cf_dbg cf = true -> uncached e -> stat_follows h s (de_path e) ->
  run h (exists_ false (de_path e)) s = Done (true, None) s1 ->
  run h (last_write_time_impl cf true (de_path e)) s = Done x s1 ->
  q = q_status \/ q = q_symlink_status ->
  run h (ask cf q has e) s = Failed FAssert s1.
Proof.
  intros cf S h s e s1 x q has Hd Hu Hf He Hx Hq. destruct (exists_val _ _ _ _ _ He) as [st Hst].
  rewrite (run_uncached cf S h s q has e st s1 Hu Hf Hst). unfold stamp.
  unfold last_write_time_impl in Hx. rewrite run_bind, run_stat_ec, Hst in Hx. cbn [failed fst snd] in Hx.
  unfold ExtractLastWriteTime in Hx. rewrite run_lift in Hx.
  destruct (extract_last_write_time (cf_mode cf) (st_mtim st)) as [[v|]| | |]; try discriminate;
    destruct Hq as [-> | ->]; cbn [asserts]; rewrite Hd; reflexivity.
Qed.

(** and so does a second query after file_size, hard_link_count or last_write_time. *)
Theorem C51_second_query_refuted : forall cf S (h : kernel S) s e r e1 s1 q has,
  cf_dbg cf = true -> uncached e -> stat_follows h s (de_path e) ->
  q = q_file_size \/ q = q_hard_link_count \/ q = q_last_write_time ->
  run h (ask cf q has e) s = Done (r, None, e1) s1 ->
  forall q2 has2 S2 (h2 : kernel S2) s2,
  q2 = q_file_size \/ q2 = q_last_write_time \/ q2 = q_status \/ q2 = q_symlink_status ->
  run h2 (ask cf q2 has2 e1) s2 = Failed FAssert s2.
Proof.
  intros cf S h s e r e1 s1 q has Hd Hu Hf Hq Hr q2 has2 S2 h2 s2 Hq2.
  assert (He1 : exists p st t, e1 = Entry p (extra st t)).
  { destruct (h (c_stat (native (de_path e))) s) as [[c|st] s3] eqn:Hst.
    - exfalso. unfold uncached in Hu. destruct e as [p d]. cbn [de_data de_path] in *. subst d.
      assert (Hb : forall follow, run h (UpdateBasicFileInformation cf has follow (Entry p cache_reset)) s =
        if has then Done (Some c, Entry p cache_reset) s3 else Failed (FThrow (Some c) [p]) s3).
      { intros. rewrite run_basic_empty, Hst by auto. reflexivity. }
      destruct Hq as [-> |[-> | ->]]; unfold ask, answered, GetSize, GetHardLinkCount, GetLastWriteTime in Hr;
        change (cd_cache (de_data (Entry p cache_reset))) with CEMPTY in Hr; rewrite !run_bind, Hb in Hr; destruct has; try discriminate;
        cbn [snd] in Hr; unfold UpdateExtraFileInformation, asap_assert in Hr; rewrite Hd in Hr; cbn in Hr; discriminate.
    - rewrite (run_uncached cf S h s q has e st s3 Hu Hf Hst) in Hr. destruct (stamp cf st) as [t| | |]; try discriminate.
      destruct Hq as [-> |[-> | ->]]; cbn [asserts andb live_answer cached_answer after_query] in Hr.
      + destruct (file_type_eqb (type_of_mode (st_mode st)) ft_regular) eqn:E; [injection Hr as <- <- <-; eauto|destruct has; discriminate].
      + injection Hr as <- <- <-. eauto.
      + destruct (Z.eqb t i64_min); [destruct has; discriminate|]. injection Hr as <- <- <-. eauto. }
  destruct He1 as (p & st & t & ->).
  destruct Hq2 as [-> |[-> |[-> | ->]]]; unfold ask, answered, GetSize, GetLastWriteTime, GetStatus, GetSymLinkStatus;
    change (cd_cache (de_data (Entry p (extra st t)))) with CEXTRA; change (cd_extra_resolved (de_data (Entry p (extra st t)))) with false;
    cbv iota; rewrite !run_bind; unfold UpdateExtraFileInformation, UpdatePermissionsInformation, asap_assert; rewrite Hd; reflexivity.
Qed.

(** exists() of an entry with nothing cached whose object does not exist throws, where the free exists answers false. *)
Theorem C51_missing_exists_refuted : forall cf S (h : kernel S) s e s1, uncached e -> stat_follows h s (de_path e) ->
  run h (exists_ false (de_path e)) s = Done (false, None) s1 ->
  exists c, run h (ask cf q_exists false e) s = Failed (FThrow (Some c) [de_path e]) s1 /\ (c = ENOENT \/ c = ENOTDIR).
Proof.
  intros cf S h s e s1 Hu Hf He. unfold uncached in Hu. destruct e as [p d]. cbn [de_data de_path] in *. subst d.
  unfold exists_, status_impl, GetFileStatus in He. rewrite !run_bind in He. cbn [run] in He.
  unfold ask, answered, entry_exists, GetFileType. change (cd_cache (de_data (Entry p cache_reset))) with CEMPTY. cbv iota.
  rewrite !run_bind, run_basic_empty by auto.
  destruct (h (c_stat (native p)) s) as [[c|st] s2]; unfold CreateFileStatus in He.
  - destruct (errno_eqb c ENOENT || errno_eqb c ENOTDIR) eqn:E; cbn in He; [|discriminate]. injection He as <-.
    exists c. split; auto. apply orb_true_iff in E. rewrite !errno_eqb_eq in E. tauto.
  - cbn [pbind run fst snd] in He. rewrite mode_exists in He. discriminate.
Qed.

(** A file last written before 1970: the refresh itself, and so the constructor and the iteration that make one, computes with an
    undefined result. *)
Theorem C51_before_epoch_refuted : forall cf S (h : kernel S) s has e st s1, cf_mode cf = Strict -> stat_follows h s (de_path e) ->
  h (c_stat (native (de_path e))) s = (Val st, s1) -> (tv_sec (st_mtim st) < 0)%Z ->
  run h (entry_refresh cf has e) s = Failed FUB s1.
Proof.
  intros cf S h s has e st s1 Hm Hf Hst Ht. unfold entry_refresh. rewrite run_refresh, Hst by auto. unfold stamp.
  rewrite Hm, C41_before_epoch_refuted by auto. reflexivity.
Qed.

(** The symlink l (to the directory b), the file f with two links, the directory d. *)
Example C51_refuted_example :
  (match run (fsk demo_choices) (entry_of plain_config (mkpath (lit "f"))) demo with
   | Done e s1 =>
       run (fsk demo_choices) (free plain_config q_hard_link_count false (de_path e)) s1 = Done (r_number 2, None) s1 /\
       run (fsk demo_choices) (ask plain_config q_hard_link_count false e) s1 = Done (r_number (2 ^ 64 - 1), None, e) s1 /\
       run (fsk demo_choices) (free plain_config q_status false (de_path e)) s1 = Done (r_status (FStatus ft_regular 420), None) s1 /\
       run (fsk demo_choices) (ask plain_config q_status false e) s1 = Done (r_status (FStatus ft_regular 65535), None, e) s1
   | _ => False end) /\
  (match run (fsk demo_choices) (entry_of plain_config (mkpath (lit "l"))) demo with
   | Done e s1 =>
       run (fsk demo_choices) (free plain_config q_is_symlink false (de_path e)) s1 = Done (r_bool true, None) s1 /\
       run (fsk demo_choices) (ask plain_config q_is_symlink false e) s1 = Done (r_bool false, None, e) s1 /\
       run (fsk demo_choices) (free plain_config q_symlink_status false (de_path e)) s1 = Done (r_status (FStatus ft_symlink 420), None) s1 /\
       run (fsk demo_choices) (ask plain_config q_symlink_status false e) s1 = Done (r_status (FStatus ft_directory 65535), None, e) s1
   | _ => False end) /\
  (match run (fsk demo_choices) (entry_of plain_config (mkpath (lit "d"))) demo with
   | Done e s1 =>
       run (fsk demo_choices) (free plain_config q_file_size true (de_path e)) s1 = Done (r_number (2 ^ 64 - 1), Some EISDIR) s1 /\
       run (fsk demo_choices) (ask plain_config q_file_size true e) s1 = Done (r_number (2 ^ 64 - 1), None, e) s1
   | _ => False end) /\
  (let e := Entry (mkpath (lit "f")) cache_reset in
   uncached e /\
   run (fsk demo_choices) (ask plain_config q_status false e) demo = Failed FAssert demo /\
   match run (fsk demo_choices) (ask plain_config q_file_size false e) demo with
   | Done (r, None, e1) s1 =>
       r = r_number 5 /\ run (fsk demo_choices) (ask plain_config q_last_write_time false e1) s1 = Failed FAssert s1
   | _ => False end) /\
  (let e := Entry (mkpath (lit "none")) cache_reset in
   run (fsk demo_choices) (exists_ false (de_path e)) demo = Done (false, None) demo /\
   run (fsk demo_choices) (ask plain_config q_exists false e) demo = Failed (FThrow (Some ENOENT) [de_path e]) demo).
Proof.
  split; [vm_compute; auto|]. split; [vm_compute; auto|]. split; [vm_compute; auto|].
  split; [split; [reflexivity|]; vm_compute; auto|vm_compute; auto].
Qed.

(** * C52 the two overloads of the queries *)

(** The queries other than exists and the is_x that follow symlinks. *)
Definition reporting (q : query) : bool :=
  match q with q_exists | q_is _ | q_is_other => false | _ => true end.

(** The overload with an error_code and the throwing one agree in this state: the same value when the second does not throw, and
    the code of the exception when it does; the same system calls and the same entry. *)
Definition queries_agree (cf : config) (q : query) (e : dir_entry) {S} (h : kernel S) (s : S) : Prop :=
  match run h (ask cf q true e) s with
  | Done (r, None, e') s' => run h (ask cf q false e) s = Done (r, None, e') s'
  | Done (r, Some c, e') s' => exists paths, run h (ask cf q false e) s = Failed (FThrow (Some c) paths) s'
  | Failed f s' => (forall c paths, f <> FThrow c paths) /\ run h (ask cf q false e) s = Failed f s'
  end.

Definition has_stat {S} (h : kernel S) (s : S) (p : path) : Prop := exists st, fst (h (c_stat (native p)) s) = Val st.
Definition ready {S} (h : kernel S) (s : S) (e : dir_entry) : Prop :=
  cd_cache (de_data e) <> CEMPTY \/ has_stat h s (de_path e).

Lemma cache_eqb_false : forall c, c <> CEMPTY -> cache_eqb c CEMPTY = false.
Proof. intros [] H; auto. congruence. Qed.

Lemma lift_not_throw : forall cf S (h : kernel S) has p st s f s1 c ps, has = true ->
  run h (ExtractLastWriteTime cf has p st) s = Failed f s1 -> f <> FThrow c ps.
Proof.
  intros cf S h has p st s f s1 c ps -> H. unfold ExtractLastWriteTime in H. rewrite run_lift in H.
  destruct (extract_last_write_time (cf_mode cf) (st_mtim st)) as [[v|]| | |]; try discriminate; cbn in H; injection H as <- <-; discriminate.
Qed.

(** When the entry is ready, the error_code makes no difference to the update, which then reports nothing. *)
Lemma basic_same : forall cf S (h : kernel S) s follow e, ready h s e ->
  run h (UpdateBasicFileInformation cf true follow e) s = run h (UpdateBasicFileInformation cf false follow e) s /\
  match run h (UpdateBasicFileInformation cf true follow e) s with
  | Done (c, e1) _ => c = None /\ cd_cache (de_data e1) = CFULL
  | Failed f _ => forall c paths, f <> FThrow c paths
  end.
Proof.
  intros cf S h s follow e Hr. unfold UpdateBasicFileInformation. rewrite !run_bind, run_stat_ec.
  destruct (h (c_stat (native (de_path e))) s) as [r s1] eqn:Hst.
  assert (Hcond : match r with
     | Val st => cache_eqb (cd_cache (de_data e)) CEMPTY && (false || negb (status_known (FStatus (type_of_mode (st_mode st)) (op_and width_perms (st_mode st) perms_mask)))) = false
     | Err x => cache_eqb (cd_cache (de_data e)) CEMPTY = false end).
  { destruct r as [x|st].
    - destruct Hr as [Hr|[st Hr]]; [apply cache_eqb_false; auto|]. rewrite Hst in Hr. discriminate.
    - rewrite mode_status_known. cbn. apply andb_false_r. }
  destruct r as [x|st]; cbn [fst snd failed]; rewrite Hcond; cbn [andb]; (split; [reflexivity|]); rewrite run_bind.
  - match goal with |- match (match run h ?p s1 with _ => _ end) with _ => _ end => destruct (run h p s1) as [d4 s2|f s2] eqn:E end; cbn [run]; auto.
    unfold missing_status, st_exists, status_known in E.
    destruct (errno_eqb x ENOENT || errno_eqb x ENOTDIR); cbn in E; discriminate.
  - rewrite mode_exists. rewrite run_bind.
    destruct (run h (ExtractLastWriteTime cf true (de_path e) st) s1) as [t s2|f s2] eqn:E; cbn [run]; auto.
    intros c ps. eapply lift_not_throw; eauto.
Qed.

Lemma extra_same : forall cf S (h : kernel S) s follow e, cd_cache (de_data e) <> CEMPTY ->
  run h (UpdateExtraFileInformation cf true follow e) s = run h (UpdateExtraFileInformation cf false follow e) s /\
  match run h (UpdateExtraFileInformation cf true follow e) s with
  | Done (c, e1) _ => c = None /\ cd_cache (de_data e1) = CEXTRA
  | Failed f _ => forall c paths, f <> FThrow c paths
  end.
Proof.
  intros cf S h s follow e Hc. unfold UpdateExtraFileInformation, asap_assert.
  destruct (cf_dbg cf && negb (cache_eqb (cd_cache (de_data e)) CFULL)); [cbn; split; [reflexivity|discriminate]|]. cbn [pbind].
  destruct (basic_same cf S h s true e (or_introl Hc)) as [H1 H2].
  destruct (cd_symlink (de_data e) && follow && negb (cd_extra_resolved (de_data e))); [|cbn; auto].
  rewrite !run_bind, <- H1. split; [reflexivity|].
  destruct (run h (UpdateBasicFileInformation cf true true e) s) as [[c e1] s1|f s1]; cbn; auto. destruct H2 as [-> _]. auto.
Qed.
Lemma perms_same : forall cf S (h : kernel S) s follow e, cd_cache (de_data e) <> CEMPTY ->
  run h (UpdatePermissionsInformation cf true follow e) s = run h (UpdatePermissionsInformation cf false follow e) s /\
  match run h (UpdatePermissionsInformation cf true follow e) s with
  | Done (c, e1) _ => c = None /\ cd_cache (de_data e1) = CFULL
  | Failed f _ => forall c paths, f <> FThrow c paths
  end.
Proof.
  intros cf S h s follow e Hc. unfold UpdatePermissionsInformation, asap_assert.
  destruct (cf_dbg cf && negb (cache_eqb (cd_cache (de_data e)) CFULL)); [cbn; split; [reflexivity|discriminate]|]. cbn [pbind].
  destruct (basic_same cf S h s true e (or_introl Hc)) as [H1 H2].
  destruct (cd_symlink (de_data e) && follow && negb (cd_perms_resolved (de_data e))); [|cbn; auto].
  rewrite !run_bind, <- H1. split; [reflexivity|].
  destruct (run h (UpdateBasicFileInformation cf true true e) s) as [[c e1] s1|f s1]; cbn; auto. destruct H2 as [-> _]. auto.
Qed.

(** An update program that does not depend on the error_code. *)
Definition steady {S} (h : kernel S) (s : S) (p p' : prog (ecode * dir_entry)) : Prop :=
  run h p s = run h p' s /\
  match run h p s with
  | Done (c, e1) _ => c = None /\ cd_cache (de_data e1) <> CEMPTY
  | Failed f _ => forall c paths, f <> FThrow c paths
  end.
Lemma steady_weak : forall S (h : kernel S) s (p p' : prog (ecode * dir_entry)) k, k <> CEMPTY -> run h p s = run h p' s /\
  match run h p s with
  | Done (c, e1) _ => c = None /\ cd_cache (de_data e1) = k
  | Failed f _ => forall c paths, f <> FThrow c paths
  end -> steady h s p p'.
Proof.
  intros S h s p p' k Hk [H1 H2]. split; auto. destruct (run h p s) as [[c e1] s1|f s1]; auto. destruct H2 as [-> H2]. split; congruence.
Qed.
Lemma steady_bind : forall S (h : kernel S) s p p' q q', steady h s p p' ->
  (forall e s1, cd_cache (de_data e) <> CEMPTY -> steady h s1 (q e) (q' e)) ->
  steady h s (let! u := p in q (snd u)) (let! u := p' in q' (snd u)).
Proof.
  intros S h s p p' q q' [H1 H2] Hq. unfold steady. rewrite !run_bind, <- H1.
  destruct (run h p s) as [[c e1] s1|f s1]; [|auto]. destruct H2 as [_ H2]. cbn [snd]. apply Hq. auto.
Qed.
Lemma steady_ret : forall S (h : kernel S) s e, cd_cache (de_data e) <> CEMPTY -> steady h s (Ret (None, e)) (Ret (None, e)).
Proof. intros. split; cbn; auto. Qed.

Lemma steady_basic : forall cf S (h : kernel S) s follow e, ready h s e ->
  steady h s (UpdateBasicFileInformation cf true follow e) (UpdateBasicFileInformation cf false follow e).
Proof. intros. apply steady_weak with CFULL; [discriminate|]. apply basic_same. auto. Qed.
Lemma steady_extra : forall cf S (h : kernel S) s follow e, cd_cache (de_data e) <> CEMPTY ->
  steady h s (UpdateExtraFileInformation cf true follow e) (UpdateExtraFileInformation cf false follow e).
Proof. intros. apply steady_weak with CEXTRA; [discriminate|]. apply extra_same. auto. Qed.
Lemma steady_perms : forall cf S (h : kernel S) s follow e, cd_cache (de_data e) <> CEMPTY ->
  steady h s (UpdatePermissionsInformation cf true follow e) (UpdatePermissionsInformation cf false follow e).
Proof. intros. apply steady_weak with CFULL; [discriminate|]. apply perms_same. auto. Qed.

Definition agree3 {A S} (x y : outcome (A * ecode * dir_entry) S) : Prop :=
  match x with
  | Done (r, None, e') s' => y = Done (r, None, e') s'
  | Done (r, Some c, e') s' => exists paths, y = Failed (FThrow (Some c) paths) s'
  | Failed f s' => (forall c paths, f <> FThrow c paths) /\ y = Failed f s'
  end.
Lemma agree_answered : forall A S (f : A -> reply) (h : kernel S) s p p', agree3 (run h p s) (run h p' s) ->
  agree3 (run h (answered f p) s) (run h (answered f p') s).
Proof.
  intros A S f h s p p' H. unfold answered. rewrite !run_bind. unfold agree3 in *.
  destruct (run h p s) as [[[r [c|]] e'] s'|x s']; cbn [run fst snd].
  - destruct H as [ps ->]. eauto.
  - rewrite H. reflexivity.
  - destruct H as [H1 ->]. auto.
Qed.
(** Value read from a steady update. *)
Lemma agree_steady : forall A S (h : kernel S) s p p' (f f' : ecode * dir_entry -> prog (A * ecode * dir_entry)), steady h s p p' ->
  (forall e s1, cd_cache (de_data e) <> CEMPTY -> agree3 (run h (f (None, e)) s1) (run h (f' (None, e)) s1)) ->
  agree3 (run h (pbind p f) s) (run h (pbind p' f') s).
Proof.
  intros A S h s p p' f f' [H1 H2] Hf. rewrite !run_bind, <- H1.
  destruct (run h p s) as [[c e1] s1|x s1]; [|cbn; auto]. destruct H2 as [-> H2]. auto.
Qed.

Lemma agree_queries : forall cf S (h : kernel S) s q e, reporting q = true -> ready h s e ->
  (q = q_is_symlink -> cd_cache (de_data e) = CEMPTY -> stat_follows h s (de_path e)) ->
  queries_agree cf q e h s.
Proof.
  intros cf S h s q e Hq Hr Hsl. change (agree3 (run h (ask cf q true e) s) (run h (ask cf q false e) s)).
  destruct q; try discriminate; unfold ask; apply agree_answered.
  - (* is_symlink *) unfold entry_is_symlink, GetSymLinkFileType.
    destruct (cache_eqb (cd_cache (de_data e)) CEMPTY) eqn:Ec.
    + assert (He : cd_cache (de_data e) = CEMPTY) by (destruct (cd_cache (de_data e)); congruence || discriminate).
      specialize (Hsl eq_refl He). destruct Hr as [Hr|[st Hr]]; [congruence|].
      rewrite !run_bind. unfold UpdateBasicFileInformation. rewrite !run_bind, run_stat_ec.
      unfold stat_follows in Hsl. destruct (h (c_stat (native (de_path e))) s) as [r s1]. cbn in Hr. subst r.
      specialize (Hsl st eq_refl). cbn [fst snd failed orb]. rewrite mode_status_known, He. cbn [cache_eqb negb andb].
      unfold st_is_symlink, st_is_regular_file, has_type. cbn [st_type]. rewrite (eqb_false _ _ Hsl). cbn [cd_symlink andb].
      rewrite mode_exists, !run_bind. unfold ExtractLastWriteTime. rewrite run_lift.
      destruct (extract_last_write_time (cf_mode cf) (st_mtim st)) as [[v|]|x| |]; cbn [run report fst snd pbind];
        try (split; [discriminate|reflexivity]);
        destruct (file_type_eqb (type_of_mode (st_mode st)) ft_regular);
        cbn [set_size set_write_time set_cache with_data de_data cd_symlink cd_type]; rewrite type_exists;
        cbn [negb run fst snd agree3]; rewrite (eqb_false _ _ Hsl); reflexivity.
    + rewrite !run_bind. cbn [run]. destruct (cd_symlink (de_data e)); [reflexivity|].
      destruct (st_exists (status_of_type (cd_type (de_data e)))); cbn; [reflexivity|]. eauto.
  - (* file_size *) unfold GetSize. destruct (cd_cache (de_data e)) eqn:Ec; try congruence.
    + apply agree_steady; [apply steady_basic; auto|]. intros e1 s1 H1. cbn [snd].
      match goal with |- context [if ?c then _ else _] => destruct c end; [cbn; eauto|].
      apply agree_steady; [apply steady_extra; auto|]. intros e2 s2 H2. reflexivity.
    + apply agree_steady; [apply steady_extra; congruence|]. intros e2 s2 H2. reflexivity.
    + destruct (negb (cd_extra_resolved (de_data e))); [|reflexivity].
      apply agree_steady; [apply steady_extra; congruence|]. intros e2 s2 H2. reflexivity.
    + reflexivity.
  - (* hard_link_count *) unfold GetHardLinkCount. destruct (cd_cache (de_data e)) eqn:Ec; try reflexivity.
    + apply agree_steady; [apply steady_basic; auto|]. intros e1 s1 H1. cbn [snd].
      apply agree_steady; [apply steady_extra; auto|]. intros e2 s2 H2. reflexivity.
    + apply agree_steady; [apply steady_extra; congruence|]. intros e2 s2 H2. reflexivity.
  - (* last_write_time *) unfold GetLastWriteTime. apply agree_steady.
    + destruct (cd_cache (de_data e)) eqn:Ec.
      * apply (steady_bind _ _ _ _ _ (UpdateExtraFileInformation cf true true) (UpdateExtraFileInformation cf false true));
          [apply steady_basic; auto|]. intros. apply steady_extra. auto.
      * apply steady_extra. congruence.
      * destruct (negb (cd_extra_resolved (de_data e))); [apply steady_extra|apply steady_ret]; congruence.
      * apply steady_ret. congruence.
    + intros e1 s1 H1. match goal with |- context [if ?c then _ else _] => destruct c end; cbn; eauto.
  - (* status *) unfold GetStatus. apply agree_steady; [|reflexivity].
    destruct (cd_cache (de_data e)) eqn:Ec.
    + apply (steady_bind _ _ _ _ _
        (fun e => let! u2 := UpdateExtraFileInformation cf true false e in UpdatePermissionsInformation cf true true (snd u2))
        (fun e => let! u2 := UpdateExtraFileInformation cf false false e in UpdatePermissionsInformation cf false true (snd u2)));
        [apply steady_basic; auto|]. intros e1 s1 H1.
      apply (steady_bind _ _ _ _ _ (UpdatePermissionsInformation cf true true) (UpdatePermissionsInformation cf false true));
        [apply steady_extra; auto|]. intros. apply steady_perms. auto.
    + apply (steady_bind _ _ _ _ _ (UpdatePermissionsInformation cf true true) (UpdatePermissionsInformation cf false true));
        [apply steady_extra; congruence|]. intros. apply steady_perms. auto.
    + apply steady_perms. congruence.
    + destruct (negb (cd_perms_resolved (de_data e))); [apply steady_perms|apply steady_ret]; congruence.
  - unfold GetSymLinkStatus. apply agree_steady; [|reflexivity].
    destruct (cd_cache (de_data e)) eqn:Ec.
    + apply (steady_bind _ _ _ _ _
        (fun e => let! u2 := UpdateExtraFileInformation cf true false e in UpdatePermissionsInformation cf true false (snd u2))
        (fun e => let! u2 := UpdateExtraFileInformation cf false false e in UpdatePermissionsInformation cf false false (snd u2)));
        [apply steady_basic; auto|]. intros e1 s1 H1.
      apply (steady_bind _ _ _ _ _ (UpdatePermissionsInformation cf true false) (UpdatePermissionsInformation cf false false));
        [apply steady_extra; auto|]. intros. apply steady_perms. auto.
    + apply (steady_bind _ _ _ _ _ (UpdatePermissionsInformation cf true false) (UpdatePermissionsInformation cf false false));
        [apply steady_extra; congruence|]. intros. apply steady_perms. auto.
    + apply steady_perms. congruence.
    + apply steady_ret. congruence.
Qed.

Lemma not_ready : forall cf S (h : kernel S) s follow e, ~ ready h s e -> exists c,
  cd_cache (de_data e) = CEMPTY /\ fst (h (c_stat (native (de_path e))) s) = Err c /\
  let s1 := snd (h (c_stat (native (de_path e))) s) in
  run h (UpdateBasicFileInformation cf true follow e) s = Done (Some c, e) s1 /\
  run h (UpdateBasicFileInformation cf false follow e) s = Failed (FThrow (Some c) [de_path e]) s1.
Proof.
  intros cf S h s follow e Hn. unfold ready in Hn.
  assert (Hc : cd_cache (de_data e) = CEMPTY) by (destruct (cd_cache (de_data e)); auto; elim Hn; left; discriminate).
  destruct (h (c_stat (native (de_path e))) s) as [[c|st] s1] eqn:E.
  - exists c. split; auto. split; auto. cbn [snd]. unfold UpdateBasicFileInformation. rewrite !run_bind, run_stat_ec, E. cbn [fst snd failed].
    rewrite Hc. cbn. auto.
  - elim Hn. right. exists st. rewrite E. reflexivity.
Qed.

(** file_size, hard_link_count, last_write_time, status, symlink_status and is_symlink, in every cache state of the entry and
    every state of every system: when the throwing overload returns, the other returns the same value with the code clear, and
    both leave the same entry. *)
Theorem C52_returned_partial : forall cf q e S (h : kernel S) s r ec e' s', reporting q = true ->
  (q = q_is_symlink -> cd_cache (de_data e) = CEMPTY -> stat_follows h s (de_path e)) ->
  run h (ask cf q false e) s = Done (r, ec, e') s' ->
  ec = None /\ run h (ask cf q true e) s = Done (r, None, e') s'.
Proof.
  intros cf q e S h s r ec e' s' Hq Hsl Hr.
  assert (Hd : ready h s e \/ ~ ready h s e).
  { unfold ready, has_stat. destruct (cd_cache (de_data e)); try (left; left; discriminate).
    destruct (h (c_stat (native (de_path e))) s) as [[c|st] s1]; [right|left; right; exists st; reflexivity].
    intros [H|[st H]]; [congruence|discriminate]. }
  destruct Hd as [Hd|Hd].
  - pose proof (agree_queries cf S h s q e Hq Hd Hsl) as H. unfold queries_agree in H.
    destruct (run h (ask cf q true e) s) as [[[r1 [c|]] e1] s1|f s1].
    + destruct H as [ps H]. congruence.
    + rewrite H in Hr. injection Hr as <- <- <- <-. auto.
    + destruct H as [_ H]. congruence.
  - exfalso. destruct (not_ready cf S h s true e Hd) as (c & Hc & _ & _ & Ht).
    destruct (not_ready cf S h s false e Hd) as (c' & _ & _ & _ & Hf).
    destruct q; try discriminate; unfold ask, answered, entry_is_symlink, GetSymLinkFileType, GetSize, GetHardLinkCount, GetLastWriteTime, GetStatus, GetSymLinkStatus in Hr;
      rewrite Hc in Hr; cbn [cache_eqb] in Hr; rewrite !run_bind in Hr; (rewrite Ht in Hr || rewrite Hf in Hr); discriminate.
Qed.

(** When something is cached or the object exists, the code is set exactly when the throwing overload throws, to the same code. *)
Theorem C52_codes_partial : forall cf q e S (h : kernel S) s, reporting q = true ->
  cd_cache (de_data e) <> CEMPTY \/ (exists s1, run h (exists_ false (de_path e)) s = Done (true, None) s1) ->
  (q = q_is_symlink -> cd_cache (de_data e) = CEMPTY -> stat_follows h s (de_path e)) ->
  queries_agree cf q e h s.
Proof.
  intros cf q e S h s Hq Hr Hsl. apply agree_queries; auto. destruct Hr as [Hr|[s1 Hr]]; [left; auto|].
  right. destruct (exists_val _ _ _ _ _ Hr) as [st H]. exists st. rewrite H. reflexivity.
Qed.

(** The is_x(ec) that follow symlinks and exists(ec) never answer true. *)
Theorem C52_is_x_refuted : forall cf e S (h : kernel S) s r ec e' s',
  (forall t, t <> ft_none -> run h (ask cf (q_is t) true e) s = Done (r, ec, e') s' -> r = r_bool false) /\
  (run h (ask cf q_exists true e) s = Done (r, ec, e') s' -> r = r_bool false) /\
  (run h (ask cf q_is_other true e) s = Done (r, ec, e') s' -> r = r_bool false).
Proof.
  intros cf e S h s r ec e' s'.
  assert (H : forall A (f : A -> reply) (g : file_type -> A),
    run h (answered f (let! r := GetFileType cf true e in let '(t, ec, e1) := r in Ret (g t, ec, e1))) s = Done (r, ec, e') s' ->
    r = f (g ft_none)).
  { intros A f g H. unfold answered, GetFileType in H. rewrite !run_bind in H.
    match type of H with context [match run h ?p s with _ => _ end] => destruct (run h p s) as [[c e1] s1|x s1] end; cbn in H; [|discriminate].
    injection H as <- <- <- <-. reflexivity. }
  split; [|split].
  - intros t Ht Hr. apply (H bool r_bool (fun t' => file_type_eqb t' t)) in Hr. rewrite eqb_false in Hr; auto.
  - intros Hr. apply (H bool r_bool (fun t => st_exists (status_of_type t))) in Hr. exact Hr.
  - intros Hr. apply (H bool r_bool (fun t => st_is_other (status_of_type t))) in Hr. exact Hr.
Qed.

(** With nothing cached and stat failing, the throwing overload throws the error; the other returns a value with the code clear, or, with
    assertions on, stops the program. *)
Theorem C52_missing_refuted : forall cf q e S (h : kernel S) s c s1, reporting q = true -> q <> q_is_symlink -> uncached e ->
  h (c_stat (native (de_path e))) s = (Err c, s1) ->
  run h (ask cf q false e) s = Failed (FThrow (Some c) [de_path e]) s1 /\
  if cf_dbg cf then run h (ask cf q true e) s = Failed FAssert s1
  else exists r e', run h (ask cf q true e) s = Done (r, None, e') s1.
Proof.
  intros cf q e S h s c s1 Hq Hns Hu Hst.
  assert (Hn : ~ ready h s e).
  { intros [H|[st H]]; [rewrite Hu in H; apply H; reflexivity|]. rewrite Hst in H. discriminate. }
  assert (H : forall follow, run h (UpdateBasicFileInformation cf true follow e) s = Done (Some c, e) s1 /\
    run h (UpdateBasicFileInformation cf false follow e) s = Failed (FThrow (Some c) [de_path e]) s1).
  { intros follow. destruct (not_ready cf S h s follow e Hn) as (c' & _ & Hc & H1 & H2). rewrite Hst in Hc, H1, H2. cbn in Hc. injection Hc as <-. auto. }
  destruct e as [p d]. unfold uncached in Hu. cbn [de_data de_path] in *. subst d.
  split.
  - destruct q; try discriminate; try congruence; unfold ask, answered, GetSize, GetHardLinkCount, GetLastWriteTime, GetStatus, GetSymLinkStatus;
      change (cd_cache (de_data (Entry p cache_reset))) with CEMPTY; cbv iota; rewrite !run_bind;
      first [rewrite (proj2 (H true))|rewrite (proj2 (H false))]; reflexivity.
  - destruct q; try discriminate; try congruence; unfold ask, answered, GetSize, GetHardLinkCount, GetLastWriteTime, GetStatus, GetSymLinkStatus;
      change (cd_cache (de_data (Entry p cache_reset))) with CEMPTY; cbv iota; rewrite !run_bind;
      first [rewrite (proj1 (H true))|rewrite (proj1 (H false))]; cbn [snd];
      unfold UpdateExtraFileInformation, UpdatePermissionsInformation, asap_assert; destruct (cf_dbg cf); cbn; eauto.
Qed.

(** The directory d and the file f with the entry full, empty, and delivered by an iterator; the missing file none. *)
Example C52_example :
  (match run (fsk demo_choices) (entry_of plain_config (mkpath (lit "d"))) demo with
   | Done e s1 =>
       run (fsk demo_choices) (ask plain_config (q_is ft_directory) false e) s1 = Done (r_bool true, None, e) s1 /\
       run (fsk demo_choices) (ask plain_config (q_is ft_directory) true e) s1 = Done (r_bool false, None, e) s1 /\
       run (fsk demo_choices) (ask plain_config q_exists false e) s1 = Done (r_bool true, None, e) s1 /\
       run (fsk demo_choices) (ask plain_config q_exists true e) s1 = Done (r_bool false, None, e) s1
   | _ => False end) /\
  (match run (fsk demo_choices) (ask plain_config q_file_size false (Entry (mkpath (lit "f")) cache_reset)) demo with
   | Done (r, None, e) _ => r = r_number 5 /\ de_data e <> cache_reset | _ => False end) /\
  (exists paths, run (fsk demo_choices) (ask plain_config q_file_size false (Entry (mkpath (lit "d")) cache_reset)) demo
     = Failed (FThrow (Some EISDIR) paths) demo) /\
  (match run (fsk demo_choices) (ask plain_config q_file_size true (Entry (mkpath (lit "d")) cache_reset)) demo with
   | Done (r, Some c, _) _ => c = EISDIR | _ => False end) /\
  (let e := Entry (mkpath (lit "none")) cache_reset in
   run (fsk demo_choices) (ask release_config q_file_size false e) demo = Failed (FThrow (Some ENOENT) [de_path e]) demo /\
   match run (fsk demo_choices) (ask release_config q_file_size true e) demo with
   | Done (r, None, _) _ => r = r_number (2 ^ 64 - 1) | _ => False end /\
   run (fsk demo_choices) (ask plain_config q_file_size true e) demo = Failed FAssert demo).
Proof.
  split; [vm_compute; auto|]. split; [vm_compute; split; [reflexivity|discriminate]|]. split; [eexists; vm_compute; reflexivity|].
  split; vm_compute; auto.
Qed.

(** * C61 entries delivered by an iterator *)

(** src/fs_dir_iterator.cpp:870-873 and fs_dir.h:361: the dereferenced iterator is a reference to the entry kept in the stream, whose
    cache is mutable: a query through it stays in the stream. *)
Definition ask_iterator (cf : config) (q : query) (has : bool) (st : dstream) : prog (reply * ecode * dstream) :=
  let! r := ask cf q has (ds_entry st) in
  Ret (fst (fst r), snd (fst r), Stream (ds_handle st) (ds_root st) (snd r)).

(** The iterator has just been constructed or incremented, whatever happened before. *)
Inductive arrived (cf : config) (st : dstream) : Prop :=
| arrived_made n has p opts S (h : kernel S) s ec s' :
    run h (dir_iter_ctor cf n has p opts) s = Done (Some st, ec) s' -> arrived cf st
| arrived_moved n has it S (h : kernel S) s ec s' :
    run h (dir_iter_increment cf n has it) s = Done (Some st, ec) s' -> arrived cf st.

(** The iterator has been constructed and incremented only; copies of its entries may have been queried. *)
Inductive untouched (cf : config) (st : dstream) : Prop :=
| untouched_made n has p opts S (h : kernel S) s ec s' :
    run h (dir_iter_ctor cf n has p opts) s = Done (Some st, ec) s' -> untouched cf st
| untouched_moved n has st1 S (h : kernel S) s ec s' : untouched cf st1 ->
    run h (dir_iter_increment cf n has (Some st1)) s = Done (Some st, ec) s' -> untouched cf st.

(** A cache never queried, of which only the type told by readdir and the symlink flag were set. *)
Definition blank (d : cached) : Prop :=
  exists c b t, d = Cached c b false false false t u64_max u64_max i64_min perms_unknown perms_unknown.

Lemma advance_entry : forall cf S (h : kernel S) n st s ok ec st' s', run h (advance cf n st) s = Done (ok, ec, st') s' ->
  if ok then exists t, de_data (ds_entry st') = iter_data (de_data (ds_entry st)) t /\ good st' = true
  else good st' = false.
Proof.
  intros cf S h n. induction n as [|n IH]; intros st s ok ec st' s' H; cbn [advance] in H; [discriminate|].
  destruct (ds_handle st) as [d|] eqn:Ed; [|discriminate]. rewrite run_bind in H.
  destruct (run h (posix_readdir d) s) as [[[name t] c] s1|f s1]; [|discriminate].
  destruct (str_eqb name (lit ".") || str_eqb name (lit "..")); [eapply IH; eauto|].
  destruct (failed c || is_nil name).
  - cbn [run] in H. destruct (h (c_closedir d) s1) as [u s2]. cbn in H. injection H as <- <- <- <-. reflexivity.
  - rewrite run_lift in H. destruct (path_div Posix (cf_el cf) (ds_root st) (split_components Posix name)); try discriminate.
    cbn in H. injection H as <- <- <- <-. cbn. eauto.
Qed.

Lemma ctor_entry : forall cf S (h : kernel S) n has p opts s st ec s',
  run h (dir_iter_ctor cf n has p opts) s = Done (Some st, ec) s' -> exists t, de_data (ds_entry st) = iter_data cache_reset t.
Proof.
  intros cf S h n has p opts s st ec s' H. unfold dir_iter_ctor in H. rewrite run_bind in H.
  unfold stream_ctor in H. cbn [run] in H. destruct (h (c_opendir (native p)) s) as [[e|d] s1].
  - cbn in H. destruct (has_dopt do_skip_permission_denied opts && errno_eqb e EACCES); cbn in H; [discriminate|]. destruct has; discriminate.
  - rewrite run_bind in H. destruct (run h (advance cf n (Stream (Some d) p entry_default)) s1) as [[[ok c] st1] s2|f s2] eqn:E; [|discriminate].
    apply advance_entry in E. cbn [run] in H. destruct ok.
    + destruct E as (t & E1 & E2). rewrite E2 in H. cbn in H. injection H as <- <- <-. eauto.
    + rewrite E in H. destruct (failed c); [|discriminate]. destruct has; discriminate.
Qed.
Lemma increment_entry : forall cf S (h : kernel S) n has it s st ec s',
  run h (dir_iter_increment cf n has it) s = Done (Some st, ec) s' ->
  exists st0 t, it = Some st0 /\ de_data (ds_entry st) = iter_data (de_data (ds_entry st0)) t.
Proof.
  intros cf S h n has it s st ec s' H. unfold dir_iter_increment in H. destruct it as [st0|]; [|destruct has; discriminate].
  rewrite run_bind in H. destruct (run h (advance cf n st0) s) as [[[ok c] st1] s2|f s2] eqn:E; [|discriminate].
  apply advance_entry in E. destruct ok.
  - cbn in H. injection H as <- <- <-. destruct E as (t & E & _). eauto.
  - destruct (failed c); [destruct has|]; discriminate.
Qed.

Lemma arrived_basic : forall cf st, arrived cf st -> cd_cache (de_data (ds_entry st)) = CBASIC.
Proof.
  intros cf st [n has p opts S h s ec s' H|n has it S h s ec s' H].
  - apply ctor_entry in H as [t ->]. reflexivity.
  - apply increment_entry in H as (st0 & t & _ & ->). reflexivity.
Qed.
Lemma untouched_blank : forall cf st, untouched cf st -> blank (de_data (ds_entry st)) /\ cd_cache (de_data (ds_entry st)) = CBASIC /\
  (cd_type (de_data (ds_entry st)) = ft_symlink -> cd_symlink (de_data (ds_entry st)) = true).
Proof.
  assert (Hi : forall d t, cd_type (iter_data d t) = ft_symlink -> cd_symlink (iter_data d t) = true).
  { intros d t H. cbn in H. subst t. unfold iter_data. cbn [cd_symlink]. rewrite eqb_same. reflexivity. }
  induction 1 as [st n has p opts S h s ec s' H|st n has st1 S h s ec s' Hu IH H].
  - apply ctor_entry in H as [t ->]. split; [|split; [reflexivity|apply Hi]]. unfold blank, iter_data. cbn. eauto.
  - apply increment_entry in H as (st0 & t & [= ->] & ->). destruct IH as [(c & b & t0 & ->) _]. split; [|split; [reflexivity|apply Hi]].
    unfold blank, iter_data. cbn. eauto.
Qed.

(** With assertions on, file_size, hard_link_count, last_write_time, status and symlink_status of the entry stop the
    program, for every directory, entry and system. *)
Theorem C61_asserts_refuted : forall cf st q has S (h : kernel S) s, cf_dbg cf = true -> arrived cf st ->
  reporting q = true -> q <> q_is_symlink ->
  run h (ask cf q has (ds_entry st)) s = Failed FAssert s.
Proof.
  intros cf st q has S h s Hd Ha Hq Hns. apply arrived_basic in Ha. destruct (ds_entry st) as [p d]. cbn [de_data] in Ha.
  assert (Hx : forall follow, run h (UpdateExtraFileInformation cf has follow (Entry p d)) s = Failed FAssert s).
  { intros. unfold UpdateExtraFileInformation, asap_assert. cbn [de_data]. rewrite Hd, Ha. reflexivity. }
  destruct q; try discriminate; try congruence; unfold ask, answered, GetSize, GetHardLinkCount, GetLastWriteTime, GetStatus, GetSymLinkStatus;
    cbn [de_data]; rewrite Ha; rewrite !run_bind, Hx; reflexivity.
Qed.

(** With assertions off, as long as no symlink has been delivered: file_size and hard_link_count are 2^64 - 1 without an error, the time
    is refused as not representable and the status has no permissions; no system call is made. *)
Theorem C61_unset_refuted : forall cf st has S (h : kernel S) s, cf_dbg cf = false -> untouched cf st ->
  cd_symlink (de_data (ds_entry st)) = false -> st_exists (status_of_type (cd_type (de_data (ds_entry st)))) = true ->
  let answers q r := exists e, run h (ask cf q has (ds_entry st)) s = Done (r, None, e) s in
  answers q_file_size (r_number u64_max) /\ answers q_hard_link_count (r_number u64_max) /\
  answers q_status (r_status (FStatus (cd_type (de_data (ds_entry st))) perms_unknown)) /\
  answers q_symlink_status (r_status (FStatus (cd_type (de_data (ds_entry st))) perms_unknown)) /\
  match run h (ask cf q_last_write_time has (ds_entry st)) s with
  | Done (_, Some c, _) s' => has = true /\ c = EOVERFLOW /\ s' = s
  | Failed (FThrow (Some c) _) s' => has = false /\ c = EOVERFLOW /\ s' = s
  | _ => False end.
Proof.
  intros cf st has S h s Hd Hu Hs He answers. unfold answers. apply untouched_blank in Hu as [(c & b & t & Hb) [Hc _]].
  destruct (ds_entry st) as [p d]. cbn [de_data] in *. subst d. cbn [cd_cache cd_symlink cd_type] in *. subst c b.
  unfold ask, answered, GetSize, GetHardLinkCount, GetLastWriteTime, GetStatus, GetSymLinkStatus, UpdateExtraFileInformation,
    UpdatePermissionsInformation, asap_assert. rewrite Hd.
  cbn [de_data cd_cache cd_symlink cd_type cache_eqb andb negb pbind run fst snd with_data set_cache cd_size cd_nlink cd_perms cd_symlink_perms cd_write_time].
  rewrite He. do 4 (split; [eauto|]). destruct has; cbn; auto.
Qed.

(** The queries that follow symlinks, on an entry delivered by an iterator that was not queried through the reference: is_x() makes
    one stat call and answers what the free function answers, if the type told by readdir is that of the file or a symlink. *)
Theorem C61_types_partial : forall cf st S (h : kernel S) s s1 x t b ty,
  untouched cf st -> stat_follows h s (de_path (ds_entry st)) ->
  run h (exists_ false (de_path (ds_entry st))) s = Done (true, None) s1 ->
  run h (last_write_time_impl cf true (de_path (ds_entry st))) s = Done x s1 ->
  run h (status_impl false (de_path (ds_entry st))) s = Done (t, None) s1 ->
  cd_type (de_data (ds_entry st)) = ft_symlink \/ cd_type (de_data (ds_entry st)) = st_type t ->
  run h (free cf (q_is ty) false (de_path (ds_entry st))) s = Done (r_bool b, None) s1 ->
  (exists e, run h (ask cf (q_is ty) false (ds_entry st)) s = Done (r_bool b, None, e) s1) /\
  (exists e, run h (ask cf q_exists false (ds_entry st)) s = Done (r_bool true, None, e) s1).
Proof.
  intros cf st S h s s1 x t b ty Hu Hf He Hx Ht Hty Hb. destruct (exists_val _ _ _ _ _ He) as [w Hst].
  apply untouched_blank in Hu as [(c & sl & t0 & Hbl) [Hc Hsym]].
  destruct (ds_entry st) as [p d]. cbn [de_data de_path] in *. subst d. cbn [cd_cache cd_type cd_symlink] in *. subst c.
  assert (Hs : forall has, run h (status_impl has p) s =
    Done (FStatus (type_of_mode (st_mode w)) (op_and width_perms (st_mode w) perms_mask), None) s1).
  { intros. unfold status_impl, GetFileStatus. rewrite run_bind. cbn [run]. rewrite Hst. reflexivity. }
  rewrite Hs in Ht. injection Ht as <-. cbn [st_type] in Hty.
  assert (Hbv : b = file_type_eqb (type_of_mode (st_mode w)) ty).
  { unfold free, answered_free, is_type in Hb. rewrite run_bind, run_bind, Hs in Hb. cbn in Hb. injection Hb as <-. reflexivity. }
  assert (Hg : exists e, run h (GetFileType cf false (Entry p (Cached CBASIC sl false false false t0 u64_max u64_max i64_min perms_unknown perms_unknown))) s
     = Done (type_of_mode (st_mode w), None, e) s1).
  { unfold GetFileType. cbn [de_data cd_cache cd_type_resolved negb]. rewrite run_bind. unfold UpdateBasicFileInformation. rewrite run_bind, run_stat_ec.
    cbn [de_path]. rewrite Hst. cbn [fst snd de_data cd_cache cache_eqb andb cd_symlink]. rewrite mode_exists, !run_bind.
    unfold last_write_time_impl in Hx. rewrite run_bind, run_stat_ec, Hst in Hx. cbn [failed fst snd] in Hx.
    unfold ExtractLastWriteTime in *. rewrite run_lift in *.
    destruct (extract_last_write_time (cf_mode cf) (st_mtim w)) as [[v|]|y| |]; try discriminate; cbn [run report fst];
      unfold st_is_regular_file, has_type; cbn [st_type]; rewrite !andb_true_r;
      (destruct sl; [|destruct Hty as [Hty|Hty]; [specialize (Hsym Hty); discriminate|subst t0]]);
      destruct (file_type_eqb (type_of_mode (st_mode w)) ft_regular);
      cbn [set_size set_write_time set_cache with_data de_data cd_symlink cd_type fst snd st_type]; rewrite type_exists; cbn [negb run]; eauto. }
  destruct Hg as [e Hg]. subst b. split; unfold ask, answered, entry_is, entry_exists; rewrite !run_bind, Hg; cbn [run fst snd]; eauto.
  rewrite type_exists. eauto.
Qed.

(** The entries a client collects from a loop over a directory. *)
Lemma visited_untouched : forall cf S (h : kernel S) n has k it ec s l c s',
  match it with Some st => untouched cf st | None => True end ->
  run h (visit_all cf n has k it ec) s = Done (l, c) s' ->
  forall e, In e l -> exists st, untouched cf st /\ ds_entry st = e.
Proof.
  intros cf S h n has k. induction k as [|k IH]; intros it ec s l c s' Hit H e He; cbn [visit_all] in H; [discriminate|].
  destruct it as [st|]; cbn [is_end] in H.
  - rewrite run_bind in H. cbn [dir_iter_deref run] in H. rewrite run_bind in H.
    destruct (run h (dir_iter_increment cf n has (Some st)) s) as [[it2 ec2] s2|f s2] eqn:E; [|discriminate]. cbn [fst snd] in H.
    rewrite run_bind in H. destruct (run h (visit_all cf n has k it2 ec2) s2) as [[l2 c2] s3|f s3] eqn:E2; [|discriminate].
    cbn in H. injection H as <- <- <-. destruct He as [<-|He]; [eauto|].
    eapply (IH it2 ec2 s2 l2 c2 s3); eauto. destruct it2 as [st2|]; auto. exact (untouched_moved _ _ _ _ _ _ _ _ _ _ Hit E).
  - cbn in H. injection H as <- <- <-. contradiction.
Qed.

(** On the file system, when the system tells the types of entries: every entry of a directory answers is_x() with the type of the object
    its path leads to, symlinks followed, in the state after the loop. *)
Theorem C61_directory_partial : forall cf k s p has n q i es l s' e r x t ty,
  wf s -> canon p -> k_dtype k = true -> leads_to k s (native p) q (NDir i) -> get (f_root s) q = Some (Dir i es) -> length es + 2 < n ->
  run (fsk k) (visit_directory cf n has p 0) s = Done (l, None) s' -> In e l ->
  leads_to k s' (native (de_path e)) r x ->
  run (fsk k) (last_write_time_impl cf true (de_path e)) s' = Done t s' ->
  exists e', run (fsk k) (ask cf (q_is ty) false e) s' = Done (r_bool (file_type_eqb (type_of s' x) ty), None, e') s'.
Proof.
  intros cf k s p has n q i es l s' e r x t ty Hw Hp Hkd Hl Hg Hn Hrun He Hx Ht.
  destruct (C47_directory cf k s p has n q i es Hw Hp Hl Hg Hn) as (l' & s2 & H1 & Hsame & Hshown).
  rewrite Hrun in H1. injection H1 as <- <-.
  assert (Hu : exists st, untouched cf st /\ ds_entry st = e).
  { unfold visit_directory in Hrun. rewrite run_bind in Hrun.
    destruct (run (fsk k) (dir_iter_ctor cf n has p 0) s) as [[it ec] s3|f s3] eqn:E; [|discriminate]. cbn [fst snd] in Hrun.
    eapply visited_untouched; eauto. destruct it as [st|]; auto. exact (untouched_made _ _ _ _ _ _ _ _ _ _ _ E). }
  destruct Hu as (st & Hu & <-).
  apply (in_map shown) in He. rewrite Hshown in He. apply in_map_iff in He as ([name c] & Hs & Hin). cbn [fst snd] in Hs.
  unfold shown in Hs. injection Hs as Hna Hty.
  destruct Hsame as (Hr1 & Hr2 & Hr3 & Hr4 & Hr5 & _).
  assert (Hw' : wf s').
  { destruct Hw as [W1 W2 W3]. split; rewrite Hr1; auto. rewrite Hr4. auto. }
  pose proof (fs_stat_follows k s' (de_path (ds_entry st)) Hw') as Hf.
  assert (Hnode : node_at s' (find_at k s' true (native (de_path (ds_entry st)))) = Val x) by (apply node_at_leads; eauto).
  assert (Hst : run (fsk k) (status_impl false (de_path (ds_entry st))) s' = Done (status_of s' x, None) s').
  { unfold status_impl, GetFileStatus. rewrite run_bind, run_sys. cbn [fsk fst snd]. rewrite sys_stat_node, Hnode.
    unfold CreateFileStatus. cbn. rewrite stat_of_type, stat_of_perms. reflexivity. }
  pose proof (wf_get _ _ _ (wf_root s Hw) Hg) as Hwt. apply wf_tree_dir in Hwt as (Hnd & Hgn & _).
  rewrite Forall_forall in Hgn. pose proof (Hgn _ Hin) as Hname. cbn [fst] in Hname.
  destruct (C61_types_partial cf st fs (fsk k) s' s' t (status_of s' x) (file_type_eqb (type_of s' x) ty) ty Hu Hf) as [H _]; auto.
  - unfold exists_. rewrite run_bind, Hst. cbn [run fst snd]. unfold st_exists, status_known, status_of. cbn [st_type].
    destruct (type_of_not s' x) as (T1 & T2 & _). rewrite !eqb_false by auto. reflexivity.
  - rewrite <- Hty. unfold dtype_of. rewrite Hkd. cbn [status_of st_type].
    assert (Hcase : (exists j u, c = Leaf j /\ f_body s j = BLink u) \/ (forall j, c = Leaf j -> link_text s j = None)).
    { destruct c as [j|j cs]; [|right; discriminate]. destruct (f_body s j) as [d|u|sp] eqn:B; [|left; eauto|];
        right; intros j' [= <-]; unfold link_text; rewrite B; reflexivity. }
    destruct Hcase as [(j & u & -> & B)|Hc]; [left; rewrite B; reflexivity|right].
    destruct Hl as (lk & Hfind & Hlook).
    assert (Hgc : get (f_root s) (q ++ [name]) = Some c).
    { rewrite get_snoc, Hg. apply In_assoc; auto. }
    assert (Hfc : find_at k s true (append_text (native p) name) = Found lk (q ++ [name])).
    { eapply child_found; eauto. }
    assert (Hx' : x = node_of c).
    { destruct Hx as (l2 & Hx1 & Hx2). rewrite <- Hna in Hx1.
      assert (Heq : find_at k s' true (append_text (native p) name) = find_at k s true (append_text (native p) name)).
      { unfold find_at, resolve_comps, link_text. rewrite Hr1, Hr2, Hr5. reflexivity. }
      rewrite Heq, Hfc in Hx1. injection Hx1 as <- <-. rewrite Hr1 in Hx2. unfold look in Hx2. rewrite Hgc in Hx2. cbn in Hx2. congruence. }
    subst x. destruct c as [j|j cs]; [|reflexivity]. cbn [node_of type_of]. rewrite Hr2.
    specialize (Hc j eq_refl). unfold link_text in Hc. destruct (f_body s j) as [d|u|[]]; try reflexivity; discriminate.
  - unfold free, answered_free, is_type. rewrite run_bind, run_bind, Hst. reflexivity.
Qed.

(** The loop over the current directory of the demonstration file system: f, the symlink l to the directory b, and d. *)
Example C61_example :
  leads_to demo_choices demo (lit ".") [lit "a"] (NDir 2) /\
  match run (fsk demo_choices) (visit_directory plain_config 10 true (mkpath (lit ".")) 0) demo with
  | Done ([f; l; d], None) s' =>
      leads_to demo_choices s' (native (de_path l)) [lit "b"] (NDir 7) /\
      cd_type (de_data l) = ft_symlink /\
      match run (fsk demo_choices) (ask plain_config (q_is ft_directory) false l) s',
            run (fsk demo_choices) (ask plain_config (q_is ft_regular) false f) s',
            run (fsk demo_choices) (ask plain_config (q_is ft_regular) false d) s' with
      | Done (rl, _, _) _, Done (rf, _, _) _, Done (rd, _, _) _ => rl = r_bool true /\ rf = r_bool true /\ rd = r_bool false
      | _, _, _ => False end /\
      run (fsk demo_choices) (ask plain_config q_file_size true f) s' = Failed FAssert s' /\
      match run (fsk demo_choices) (ask release_config q_file_size true f) s' with
      | Done (r, None, _) _ => r = r_number (2 ^ 64 - 1) | _ => False end
  | _ => False end.
Proof.
  split; [exists 40; split; vm_compute; reflexivity|].
  match goal with |- match ?r with _ => _ end => destruct r as [[[|f [|l [|d [|]]]] [c|]] s'|x s'] eqn:E end; try (vm_compute in E; discriminate).
  vm_compute in E. injection E as <- <- <- <-. split; [exists 39; split; vm_compute; reflexivity|]. split; [reflexivity|].
  vm_compute. auto.
Qed.

(** An entry told with an unknown type (DT_UNKNOWN, as some file systems do) is reported as missing although it exists. *)
Theorem C61_untyped_refuted : forall cf st S (h : kernel S) s s1 x ty,
  untouched cf st -> cd_symlink (de_data (ds_entry st)) = false -> cd_type (de_data (ds_entry st)) = ft_none ->
  run h (exists_ false (de_path (ds_entry st))) s = Done (true, None) s1 ->
  run h (last_write_time_impl cf true (de_path (ds_entry st))) s = Done x s1 ->
  run h (ask cf (q_is ty) false (ds_entry st)) s = Failed (FThrow (Some ENOENT) [de_path (ds_entry st)]) s1 /\
  run h (ask cf q_exists false (ds_entry st)) s = Failed (FThrow (Some ENOENT) [de_path (ds_entry st)]) s1.
Proof.
  intros cf st S h s s1 x ty Hu Hs Ht He Hx. destruct (exists_val _ _ _ _ _ He) as [w Hst].
  apply untouched_blank in Hu as [(c & sl & t0 & Hbl) [Hc _]].
  destruct (ds_entry st) as [p d]. cbn [de_data de_path] in *. subst d. cbn [cd_cache cd_type cd_symlink] in *. subst c sl t0.
  assert (Hg : run h (GetFileType cf false (Entry p (Cached CBASIC false false false false ft_none u64_max u64_max i64_min perms_unknown perms_unknown))) s
     = Failed (FThrow (Some ENOENT) [p]) s1).
  { unfold GetFileType. cbn [de_data cd_cache cd_type_resolved negb]. rewrite run_bind. unfold UpdateBasicFileInformation. rewrite run_bind, run_stat_ec.
    cbn [de_path]. rewrite Hst. cbn [fst snd de_data cd_cache cache_eqb andb cd_symlink]. rewrite mode_exists, !run_bind.
    unfold last_write_time_impl in Hx. rewrite run_bind, run_stat_ec, Hst in Hx. cbn [failed fst snd] in Hx.
    unfold ExtractLastWriteTime in *. rewrite run_lift in *.
    destruct (extract_last_write_time (cf_mode cf) (st_mtim w)) as [[v|]|y| |]; try discriminate; cbn [run report fst];
      unfold st_is_regular_file, has_type; cbn [st_type]; destruct (file_type_eqb (type_of_mode (st_mode w)) ft_regular); reflexivity. }
  unfold ask, answered, entry_is, entry_exists. rewrite !run_bind, Hg. auto.
Qed.

(** Queries through the iterator stay in the stream and spoil the entries that follow. *)
Definition two_links : fs :=
  match run (fsk demo_choices) (create_symlink_impl true (mkpath (lit "../b")) (mkpath (lit "m"))) demo with Done _ s => s | Failed _ s => s end.

(** The second symlink to a directory after the first one was queried: is_directory() answers false. *)
Theorem C61_second_symlink_refuted :
  match run (fsk demo_choices) (dir_iter_ctor plain_config 10 true (mkpath (lit ".")) 0) two_links with
  | Done (Some f, None) s1 =>
    match run (fsk demo_choices) (dir_iter_increment plain_config 10 true (Some f)) s1 with
    | Done (Some l, None) s2 =>
      match run (fsk demo_choices) (ask_iterator plain_config (q_is ft_directory) false l) s2 with
      | Done (r, None, l') s3 =>
        r = r_bool true /\
        match run (fsk demo_choices) (dir_iter_increment plain_config 10 true (Some l')) s3 with
        | Done (Some d, None) s4 =>
          match run (fsk demo_choices) (dir_iter_increment plain_config 10 true (Some d)) s4 with
          | Done (Some m, None) s5 =>
              native (de_path (ds_entry m)) = lit "./m" /\
              run (fsk demo_choices) (free plain_config (q_is ft_directory) false (de_path (ds_entry m))) s5 = Done (r_bool true, None) s5 /\
              match run (fsk demo_choices) (ask_iterator plain_config (q_is ft_directory) false m) s5 with
              | Done (r2, None, _) _ => r2 = r_bool false | _ => False end
          | _ => False end
        | _ => False end
      | _ => False end
    | _ => False end
  | _ => False end.
Proof. vm_compute. auto. Qed.

(** Without assertions, after the type of f (5 bytes) was queried: the size of the next entry, a symlink to a directory, is 5. *)
Theorem C61_stale_size_refuted :
  match run (fsk demo_choices) (dir_iter_ctor release_config 10 true (mkpath (lit ".")) 0) demo with
  | Done (Some f, None) s1 =>
    match run (fsk demo_choices) (ask_iterator release_config (q_is ft_regular) false f) s1 with
    | Done (r, None, f') s2 =>
      r = r_bool true /\
      match run (fsk demo_choices) (dir_iter_increment release_config 10 true (Some f')) s2 with
      | Done (Some l, None) s3 =>
          run (fsk demo_choices) (free release_config q_file_size true (de_path (ds_entry l))) s3 = Done (r_number (2 ^ 64 - 1), Some EISDIR) s3 /\
          match run (fsk demo_choices) (ask_iterator release_config q_file_size true l) s3 with
          | Done (r2, None, _) _ => r2 = r_number 5 | _ => False end
      | _ => False end
    | _ => False end
  | _ => False end.
Proof. vm_compute. auto. Qed.

Print Assumptions C51_cached_partial.
Print Assumptions C51_live_partial.
Print Assumptions C51_hard_link_count_refuted.
Print Assumptions C51_status_refuted.
Print Assumptions C51_is_symlink_refuted.
Print Assumptions C51_directory_size_refuted.
Print Assumptions C51_status_asserts_refuted.
Print Assumptions C51_second_query_refuted.
Print Assumptions C51_missing_exists_refuted.
Print Assumptions C51_before_epoch_refuted.
Print Assumptions C52_returned_partial.
Print Assumptions C52_codes_partial.
Print Assumptions C52_is_x_refuted.
Print Assumptions C52_missing_refuted.
Print Assumptions C61_asserts_refuted.
Print Assumptions C61_unset_refuted.
Print Assumptions C61_types_partial.
Print Assumptions C61_directory_partial.
Print Assumptions C61_untyped_refuted.
Print Assumptions C61_second_symlink_refuted.
Print Assumptions C61_stale_size_refuted.
