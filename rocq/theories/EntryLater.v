(** The entries that follow in the same iterator (C61): what earlier symlinks and earlier queries leave behind, for every system. *)
From Coq Require Import Ascii String Bool Arith NArith ZArith Lia.
From Verif Require Import Str PathModel PathSpec PathProofs PathOps FlagsModel TimeModel ArithProps Prog DirModel OpsModel OpsProps FS FSProofs FSSpec FSOps FSPlace FSProps FSProps3 FSProps4 IterProps FSIter FSCopyTree EntryProps.
From Coq Require Import List.
Import ListNotations.

(** * Vocabulary *)

(** The iterator at [st] has come to [st'] by increments, and by queries through the reference it delivers; each on any system in any state. *)
Inductive later (cf : config) : dstream -> dstream -> Prop :=
| later_same st : later cf st st
| later_moved st st1 st2 n has S (h : kernel S) s ec s' : later cf st st1 ->
    run h (dir_iter_increment cf n has (Some st1)) s = Done (Some st2, ec) s' -> later cf st st2
| later_asked st st1 st2 q has S (h : kernel S) s r ec s' : later cf st st1 ->
    run h (ask_iterator cf q has st1) s = Done (r, ec, st2) s' -> later cf st st2.

(** The next entry has just been delivered. *)
Definition next_of (cf : config) (st st' : dstream) : Prop :=
  exists n has S (h : kernel S) s ec s', run h (dir_iter_increment cf n has (Some st)) s = Done (Some st', ec) s'.

(** * Proofs *)

(** Whatever the system does, a result of [p] has the property. *)
Definition ensures {A} (P : A -> Prop) (p : prog A) : Prop :=
  forall S (h : kernel S) s a s', run h p s = Done a s' -> P a.

Lemma ensures_ret : forall A (P : A -> Prop) a, P a -> ensures P (Ret a).
Proof. intros A P a H S h s x s' E. cbn in E. injection E as <- <-. exact H. Qed.
Lemma ensures_stop : forall A (P : A -> Prop) f, ensures P (Stop f).
Proof. intros A P f S h s x s' E. discriminate. Qed.
Lemma ensures_bind : forall A B (Q : A -> Prop) (P : B -> Prop) (p : prog A) k,
  ensures Q p -> (forall a, Q a -> ensures P (k a)) -> ensures P (pbind p k).
Proof.
  intros A B Q P p k Hp Hk S h s x s' E. rewrite run_bind in E.
  destruct (run h p s) as [a s1|f s1] eqn:E1; [|discriminate]. exact (Hk a (Hp _ _ _ _ _ E1) _ _ _ _ _ E).
Qed.
Lemma ensures_any : forall A (p : prog A), ensures (fun _ => True) p.
Proof. intros A p S h s a s' _. exact Logic.I. Qed.

(** What no query takes back once the cache is not empty. *)
Definition keeps (d d' : cached) : Prop :=
  cd_cache d' <> CEMPTY /\ cd_symlink d' = cd_symlink d /\
  (cd_type_resolved d = true -> cd_type_resolved d' = true).
Lemma keeps_refl : forall d, cd_cache d <> CEMPTY -> keeps d d.
Proof. intros d H. repeat split; auto. Qed.
Lemma keeps_trans : forall a b c, keeps a b -> keeps b c -> keeps a c.
Proof. intros a b c (A1 & A2 & A3) (B1 & B2 & B3). repeat split; [auto|congruence|auto]. Qed.

Lemma not_empty : forall c, c <> CEMPTY -> cache_eqb c CEMPTY = false.
Proof. intros []; congruence || reflexivity. Qed.

Lemma keeps_time : forall d0 d t, keeps d0 d -> keeps d0 (set_write_time d t).
Proof. intros d0 d t H. exact H. Qed.
Lemma keeps_size : forall d0 d t, keeps d0 d -> keeps d0 (set_size d t).
Proof. intros d0 d t H. exact H. Qed.
Lemma keeps_cache : forall d0 d c, c <> CEMPTY -> keeps d0 d -> keeps d0 (set_cache d c).
Proof. intros d0 d c Hc (A1 & A2 & A3). repeat split; auto. Qed.

Lemma basic_keeps : forall cf has follow e d0, keeps d0 (de_data e) ->
  ensures (fun r => keeps d0 (de_data (snd r))) (UpdateBasicFileInformation cf has follow e).
Proof.
  intros cf has follow [p d] d0 H. cbn [de_data] in H. unfold UpdateBasicFileInformation.
  eapply ensures_bind; [apply ensures_any|]. intros [[st full] m] _. cbn [fst snd de_data de_path].
  rewrite not_empty by apply H. cbn [andb]. cbv zeta.
  match goal with |- context [set_size ?d2 _] => set (d2' := d2) end.
  assert (H2 : keeps d0 d2').
  { subst d2'. destruct (cd_symlink d && follow) eqn:E; auto. apply andb_true_iff in E as [E _].
    destruct H as (A1 & A2 & A3). split; [exact A1|]. split; [exact A2|]. reflexivity. }
  clearbody d2'.
  match goal with |- context [set_write_time ?d3 _] => set (d3' := d3) end.
  assert (H3 : keeps d0 d3') by (subst d3'; destruct (st_is_regular_file st); auto). clearbody d3'.
  eapply (ensures_bind _ _ (fun d4 => keeps d0 d4)).
  - destruct (st_exists st); [|apply ensures_ret; auto].
    eapply ensures_bind; [apply ensures_any|]. intros t _. apply ensures_ret. exact H3.
  - intros d4 H4. apply ensures_ret. cbn [snd with_data de_data]. apply keeps_cache; [discriminate|exact H4].
Qed.
Lemma extra_keeps : forall cf has follow e d0, keeps d0 (de_data e) ->
  ensures (fun r => keeps d0 (de_data (snd r))) (UpdateExtraFileInformation cf has follow e).
Proof.
  intros cf has follow e d0 H. unfold UpdateExtraFileInformation.
  eapply ensures_bind; [apply ensures_any|]. intros _ _.
  eapply (ensures_bind _ _ (fun r => keeps d0 (de_data (snd r)))).
  - destruct (cd_symlink (de_data e) && follow && negb (cd_extra_resolved (de_data e))); [apply basic_keeps|apply ensures_ret]; auto.
  - intros r Hr. apply ensures_ret. cbn [snd with_data de_data]. apply keeps_cache; [discriminate|exact Hr].
Qed.
Lemma perms_keeps : forall cf has follow e d0, keeps d0 (de_data e) ->
  ensures (fun r => keeps d0 (de_data (snd r))) (UpdatePermissionsInformation cf has follow e).
Proof.
  intros cf has follow e d0 H. unfold UpdatePermissionsInformation.
  eapply ensures_bind; [apply ensures_any|]. intros _ _.
  eapply (ensures_bind _ _ (fun r => keeps d0 (de_data (snd r)))).
  - destruct (cd_symlink (de_data e) && follow && negb (cd_perms_resolved (de_data e))); [apply basic_keeps|apply ensures_ret]; auto.
  - intros r Hr. apply ensures_ret. cbn [snd with_data de_data]. apply keeps_cache; [discriminate|exact Hr].
Qed.

Ltac kp :=
  repeat first
    [ match goal with
      | |- ensures _ (Ret _) => apply ensures_ret; cbn [fst snd] in *; solve [auto]
      | |- ensures _ (Stop _) => apply ensures_stop
      | |- ensures _ (UpdateBasicFileInformation _ _ _ _) => apply basic_keeps; cbn [fst snd] in *; solve [auto]
      | |- ensures _ (UpdateExtraFileInformation _ _ _ _) => apply extra_keeps; cbn [fst snd] in *; solve [auto]
      | |- ensures _ (UpdatePermissionsInformation _ _ _ _) => apply perms_keeps; cbn [fst snd] in *; solve [auto]
      | |- ensures _ (pbind (HandleError _ _ _ _) _) => eapply ensures_bind; [apply ensures_any|]; intros ? _
      | |- ensures _ (pbind (report _ _ _ _) _) => eapply ensures_bind; [apply ensures_any|]; intros ? _
      | |- ensures ?P (if ?c then _ else _) => destruct c
      end ].

Lemma ask_keeps : forall cf q has e d0, keeps d0 (de_data e) -> ensures (fun r => keeps d0 (de_data (snd r))) (ask cf q has e).
Proof.
  intros cf q has e d0 H.
  assert (Hw : forall A (f : A -> reply) (p : prog (A * ecode * dir_entry)),
    ensures (fun r => keeps d0 (de_data (snd r))) p -> ensures (fun r => keeps d0 (de_data (snd r))) (answered f p)).
  { intros A f p Hp. unfold answered. eapply ensures_bind; [exact Hp|]. intros a Ha. apply ensures_ret. exact Ha. }
  assert (Ht : ensures (fun r => keeps d0 (de_data (snd r))) (GetFileType cf has e)).
  { unfold GetFileType. eapply (ensures_bind _ _ (fun r => keeps d0 (de_data (snd r)))).
    - destruct (cd_cache (de_data e)); kp.
    - intros [ec e1] H1. kp. }
  destruct q; unfold ask; apply Hw.
  - unfold entry_exists. eapply ensures_bind; [exact Ht|]. intros [[t ec] e1] H1. kp.
  - unfold entry_is. eapply ensures_bind; [exact Ht|]. intros [[t' ec] e1] H1. kp.
  - unfold entry_is_other. eapply ensures_bind; [exact Ht|]. intros [[t' ec] e1] H1. kp.
  - unfold entry_is_symlink, GetSymLinkFileType. rewrite not_empty by apply H.
    eapply (ensures_bind _ _ (fun r => keeps d0 (de_data (snd r)))).
    + eapply (ensures_bind _ _ (fun r => keeps d0 (de_data (snd r)))); [kp|]. intros [[l ec] e1] H1. kp.
    + intros [[t' ec] e1] H1. kp.
  - unfold GetSize. destruct (cd_cache (de_data e)) eqn:Ec; [destruct H; congruence| | |kp].
    + eapply (ensures_bind _ _ (fun r => keeps d0 (de_data (snd r)))); [kp|]. intros v Hv. kp.
    + kp. eapply (ensures_bind _ _ (fun r => keeps d0 (de_data (snd r)))); [kp|]. intros v Hv. kp.
  - unfold GetHardLinkCount. destruct (cd_cache (de_data e)) eqn:Ec; [destruct H; congruence| |kp|kp].
    eapply (ensures_bind _ _ (fun r => keeps d0 (de_data (snd r)))); [kp|]. intros v Hv. kp.
  - unfold GetLastWriteTime. eapply (ensures_bind _ _ (fun r => keeps d0 (de_data (snd r)))).
    + destruct (cd_cache (de_data e)) eqn:Ec; [destruct H; congruence| | |]; kp.
    + intros [ec e1] H1. kp.
  - unfold GetStatus. eapply (ensures_bind _ _ (fun r => keeps d0 (de_data (snd r)))).
    + destruct (cd_cache (de_data e)) eqn:Ec; [destruct H; congruence| | |]; kp.
      eapply (ensures_bind _ _ (fun r => keeps d0 (de_data (snd r)))); [kp|]. intros v Hv. kp.
    + intros v Hv. kp.
  - unfold GetSymLinkStatus. eapply (ensures_bind _ _ (fun r => keeps d0 (de_data (snd r)))).
    + destruct (cd_cache (de_data e)) eqn:Ec; [destruct H; congruence| | |]; kp.
      eapply (ensures_bind _ _ (fun r => keeps d0 (de_data (snd r)))); [kp|]. intros v Hv. kp.
    + intros v Hv. kp.
Qed.

Lemma asked_keeps : forall cf q has st S (h : kernel S) s r ec st' s', cd_cache (de_data (ds_entry st)) <> CEMPTY ->
  run h (ask_iterator cf q has st) s = Done (r, ec, st') s' -> keeps (de_data (ds_entry st)) (de_data (ds_entry st')).
Proof.
  intros cf q has st S h s r ec st' s' Hc E. unfold ask_iterator in E. rewrite run_bind in E.
  destruct (run h (ask cf q has (ds_entry st)) s) as [[[r1 ec1] e1] s1|f s1] eqn:E1; [|discriminate].
  apply (ask_keeps _ _ _ _ _ (keeps_refl _ Hc)) in E1. cbn in E. injection E as <- <- <- <-. exact E1.
Qed.
Lemma moved_data : forall cf n has st S (h : kernel S) s st' ec s', run h (dir_iter_increment cf n has (Some st)) s = Done (Some st', ec) s' ->
  exists t, de_data (ds_entry st') = iter_data (de_data (ds_entry st)) t.
Proof. intros. apply increment_entry in H as (st0 & t & [= <-] & H). eauto. Qed.
Lemma later_keeps : forall cf st st', later cf st st' -> cd_cache (de_data (ds_entry st)) <> CEMPTY -> cd_symlink (de_data (ds_entry st)) = true ->
  cd_cache (de_data (ds_entry st')) <> CEMPTY /\ cd_symlink (de_data (ds_entry st')) = true /\
  (cd_type_resolved (de_data (ds_entry st)) = true -> cd_type_resolved (de_data (ds_entry st')) = true).
Proof.
  induction 1 as [st|st st1 st2 n has S h s ec s' Hl IH E|st st1 st2 q has S h s r ec s' Hl IH E]; intros Hc Hs; auto.
  - destruct (IH Hc Hs) as (A & B & C). apply moved_data in E as [t ->]. split; [discriminate|]. split; [|exact C].
    cbn. rewrite B. destruct (file_type_eqb t ft_symlink); reflexivity.
  - destruct (IH Hc Hs) as (A & B & C). apply asked_keeps in E as (D1 & D2 & D3); auto. split; auto. split; [congruence|auto].
Qed.

(** * Theorems *)

(** Once a symlink has been delivered, every entry the iterator delivers says that it is a symlink, whatever it is and whatever was asked
    in between, without a call of the system. *)
Theorem C61_is_symlink_refuted : forall cf st st' has S (h : kernel S) s,
  arrived cf st -> cd_type (de_data (ds_entry st)) = ft_symlink -> later cf st st' ->
  run h (ask_iterator cf q_is_symlink has st') s = Done (r_bool true, None, st') s.
Proof.
  intros cf st st' has S h s Ha Ht Hl.
  assert (Hs : cd_symlink (de_data (ds_entry st)) = true).
  { destruct Ha as [n has0 p opts S0 h0 s0 ec s' H|n has0 it S0 h0 s0 ec s' H].
    - apply ctor_entry in H as [t E]. rewrite E in *. cbn in Ht. subst t. reflexivity.
    - apply increment_entry in H as (st0 & t & _ & E). rewrite E in *. cbn in Ht. subst t. reflexivity. }
  destruct (later_keeps _ _ _ Hl) as (A & B & _); auto.
  { rewrite (arrived_basic _ _ Ha). discriminate. }
  unfold ask_iterator, ask, answered, entry_is_symlink, GetSymLinkFileType. rewrite not_empty by exact A. cbn [pbind]. rewrite B. cbn.
  destruct st' as [hd rt en]. reflexivity.
Qed.

(** ** Queries made through the iterator *)

(** The cache after stat was asked again for an entry whose cache was not empty. *)
Definition asked_again (d : cached) (w : stat_t) (v : Z) : cached :=
  let d1 := if cd_symlink d then
      Cached (cd_cache d) true true true true (type_of_mode (st_mode w)) (cd_nlink d) (cd_size d) (cd_write_time d) (cd_symlink_perms d)
        (op_and width_perms (st_mode w) perms_mask) else d in
  set_cache (set_write_time (if file_type_eqb (type_of_mode (st_mode w)) ft_regular then set_size d1 (to_u64 (st_size w)) else d1) v) CFULL.

Lemma run_again : forall cf S (h : kernel S) s has p d w s1, cd_cache d <> CEMPTY -> h (c_stat (native p)) s = (Val w, s1) ->
  run h (UpdateBasicFileInformation cf has true (Entry p d)) s =
  match stamp cf w with
  | Ok v => Done (None, Entry p (asked_again d w v)) s1
  | Throw e => Failed (FPath e) s1 | AssertFail => Failed FAssert s1 | UB => Failed FUB s1
  end.
Proof.
  intros cf S h s has p d w s1 Hc Hst. unfold UpdateBasicFileInformation. rewrite run_bind, run_stat_ec. cbn [de_path]. rewrite Hst.
  cbn [fst snd de_data]. rewrite not_empty by exact Hc. cbn [andb]. rewrite mode_exists, !run_bind.
  unfold ExtractLastWriteTime, stamp, asked_again. rewrite run_lift, andb_true_r. unfold st_is_regular_file, has_type. cbn [st_type st_perms].
  destruct (extract_last_write_time (cf_mode cf) (st_mtim w)) as [[v|]|y| |]; try reflexivity; cbn [run report fst];
    (destruct d as [c sl tr er pr ty nl sz wt sp np]; destruct sl); destruct (file_type_eqb (type_of_mode (st_mode w)) ft_regular); reflexivity.
Qed.

(** After the type of a symlink was asked through the iterator, every later entry answers with the type readdir told, without a call:
    a symlink to a directory is no directory, although is_directory(path) says so; for every kind of target. *)
Theorem C61_later_symlink_refuted : forall cf st q ty0 S (h : kernel S) s r st1 s1 st2 st3 ty S2 (h2 : kernel S2) s2 s3,
  arrived cf st -> cd_type (de_data (ds_entry st)) = ft_symlink ->
  run h (exists_ false (de_path (ds_entry st))) s = Done (true, None) s1 ->
  q = q_exists \/ q = q_is ty0 \/ q = q_is_other -> run h (ask_iterator cf q false st) s = Done (r, None, st1) s1 ->
  later cf st1 st2 -> next_of cf st2 st3 -> cd_type (de_data (ds_entry st3)) = ft_symlink ->
  stat_follows h2 s2 (de_path (ds_entry st3)) ->
  run h2 (free cf (q_is ty) false (de_path (ds_entry st3))) s2 = Done (r_bool true, None) s3 ->
  run h2 (ask_iterator cf (q_is ty) false st3) s2 = Done (r_bool false, None, st3) s2.
Proof.
  intros cf st q ty0 S h s r st1 s1 st2 st3 ty S2 h2 s2 s3 Ha Ht He Hq Hask Hl (n & has & S3 & h3 & s4 & ec & s5 & Hn) Ht3 Hf Hfree.
  assert (Hs : cd_symlink (de_data (ds_entry st)) = true).
  { destruct Ha as [n0 has0 p opts S0 h0 s0 ec0 s' H|n0 has0 it S0 h0 s0 ec0 s' H].
    - apply ctor_entry in H as [t E]. rewrite E in *. cbn in Ht. subst t. reflexivity.
    - apply increment_entry in H as (st0 & t & _ & E). rewrite E in *. cbn in Ht. subst t. reflexivity. }
  pose proof (arrived_basic _ _ Ha) as Hc. destruct (exists_val _ _ _ _ _ He) as [w Hst].
  (* the flag is set *)
  assert (Hr : cd_cache (de_data (ds_entry st1)) <> CEMPTY /\ cd_symlink (de_data (ds_entry st1)) = true /\
               cd_type_resolved (de_data (ds_entry st1)) = true).
  { destruct (cd_type_resolved (de_data (ds_entry st))) eqn:Er.
    - apply asked_keeps in Hask as (A & B & C); [|congruence]. split; auto. split; [congruence|auto].
    - destruct st as [hd rt [p d]]. cbn [ds_entry de_data de_path] in *.
      assert (Hg : exists v, run h (GetFileType cf false (Entry p d)) s =
                   Done (type_of_mode (st_mode w), None, Entry p (asked_again d w v)) s1 \/
                   forall x, run h (GetFileType cf false (Entry p d)) s <> Done x s1).
      { unfold GetFileType. cbn [de_data]. rewrite Hc, Er. cbn [negb]. rewrite run_bind.
        rewrite (run_again cf S h s false p d w s1) by (congruence || exact Hst).
        destruct (stamp cf w) as [v|y| |]; try (exists 0%Z; right; discriminate). exists v. left.
        cbn [de_data fst snd].
        replace (cd_type (asked_again d w v)) with (type_of_mode (st_mode w)).
        - rewrite type_exists. reflexivity.
        - unfold asked_again. rewrite Hs. destruct (file_type_eqb (type_of_mode (st_mode w)) ft_regular); reflexivity. }
      destruct Hg as [v Hg].
      assert (H1 : ds_entry st1 = Entry p (asked_again d w v)).
      { unfold ask_iterator in Hask. rewrite run_bind in Hask. cbn [ds_entry] in Hask.
        destruct Hq as [->|[->| ->]]; unfold ask, answered, entry_exists, entry_is, entry_is_other in Hask; rewrite !run_bind in Hask;
          (destruct Hg as [Hg|Hg]; [rewrite Hg in Hask; cbn in Hask; injection Hask as _ <-; reflexivity|];
           destruct (run h (GetFileType cf false (Entry p d)) s) as [[[t ec1] e1] s6|f s6]; [|discriminate];
           cbn in Hask; injection Hask as _ _ _ ->; exfalso; eapply Hg; reflexivity). }
      rewrite H1. cbn [de_data]. unfold asked_again. rewrite Hs.
      destruct (file_type_eqb (type_of_mode (st_mode w)) ft_regular); cbn; auto; split; [discriminate|auto|discriminate|auto]. }
  destruct Hr as (R1 & R2 & R3). destruct (later_keeps _ _ _ Hl R1 R2) as (L1 & L2 & L3). specialize (L3 R3).
  apply moved_data in Hn as [t E].
  unfold ask_iterator, ask, answered, entry_is, GetFileType. destruct st3 as [hd rt [p d]]. cbn [ds_entry de_data] in *. subst d.
  cbn in Ht3. subst t. cbn [iter_data cd_cache cd_type_resolved]. rewrite L3. cbn.
  rewrite eqb_false; [reflexivity|]. intros <-. cbn [de_path] in *.
  unfold free, answered_free, is_type, status_impl, GetFileStatus in Hfree. rewrite !run_bind in Hfree. cbn [run] in Hfree.
  specialize (Hf). unfold stat_follows in Hf.
  destruct (h2 (c_stat (native p)) s2) as [[e|w2] s6] eqn:Es2; unfold CreateFileStatus in Hfree.
  - destruct (errno_eqb e ENOENT || errno_eqb e ENOTDIR); cbn in Hfree; discriminate.
  - cbn in Hfree. injection Hfree as Hfree _. apply eqb_true in Hfree. apply (Hf w2); auto.
Qed.

(** Without assertions, after the type of a regular file was asked through the iterator: the next entry that is not (a symlink to) a
    regular file tells the size of that file as its own, without an error. *)
Theorem C61_later_size_refuted : forall cf st q ty0 S (h : kernel S) s z r st1 s1 st2 has S2 (h2 : kernel S2) s2 s3,
  cf_dbg cf = false -> untouched cf st ->
  run h (free cf q_file_size false (de_path (ds_entry st))) s = Done (r_number z, None) s1 ->
  q = q_exists \/ q = q_is ty0 \/ q = q_is_other -> run h (ask_iterator cf q false st) s = Done (r, None, st1) s1 ->
  next_of cf st1 st2 ->
  (cd_symlink (de_data (ds_entry st2)) = false /\ s3 = s2) \/
  (cd_symlink (de_data (ds_entry st)) = false /\ cd_type (de_data (ds_entry st2)) = ft_symlink /\
   run h2 (exists_ false (de_path (ds_entry st2))) s2 = Done (true, None) s3 /\
   run h2 (is_regular_file false (de_path (ds_entry st2))) s2 = Done (false, None) s3 /\
   exists t, run h2 (last_write_time_impl cf true (de_path (ds_entry st2))) s2 = Done t s3) ->
  exists e, run h2 (ask cf q_file_size has (ds_entry st2)) s2 = Done (r_number z, None, e) s3.
Proof.
  intros cf st q ty0 S h s z r st1 s1 st2 has S2 h2 s2 s3 Hd Hu Hfree Hq Hask (n & has1 & S3 & h3 & s4 & ec & s5 & Hn) Hcase.
  apply untouched_blank in Hu as [(c & b & t & Hb) [Hc _]].
  destruct st as [hd rt [p d]]. cbn [ds_entry de_data de_path] in *. subst d. cbn [cd_cache cd_symlink] in *. subst c.
  assert (Hw : exists w, h (c_stat (native p)) s = (Val w, s1) /\ type_of_mode (st_mode w) = ft_regular /\ z = to_u64 (st_size w)).
  { unfold free, answered_free, file_size_impl in Hfree. rewrite !run_bind, run_stat_ec in Hfree.
    destruct (h (c_stat (native p)) s) as [[e|w] s6].
    - unfold missing_status in Hfree. destruct (errno_eqb e ENOENT || errno_eqb e ENOTDIR); cbn in Hfree; discriminate.
    - rewrite mode_exists in Hfree. cbn [negb orb] in Hfree. unfold st_is_regular_file, has_type in Hfree. cbn [st_type] in Hfree.
      destruct (file_type_eqb (type_of_mode (st_mode w)) ft_regular) eqn:E; [|cbn in Hfree; discriminate].
      cbn in Hfree. injection Hfree as <- <-. exists w. split; auto. split; auto. apply eqb_true; exact E. }
  destruct Hw as (w & Hst & Hreg & ->).
  set (d := Cached CBASIC b false false false t u64_max u64_max i64_min perms_unknown perms_unknown) in *.
  assert (H1 : exists v, ds_entry st1 = Entry p (asked_again d w v)).
  { unfold ask_iterator in Hask. rewrite run_bind in Hask. cbn [ds_entry] in Hask.
    assert (Hg : forall x s6, run h (GetFileType cf false (Entry p d)) s = Done x s6 -> exists v, snd x = Entry p (asked_again d w v)).
    { intros x s6 Hx. unfold GetFileType in Hx. cbn [de_data d cd_cache cd_type_resolved negb] in Hx. rewrite run_bind in Hx.
      rewrite (run_again cf S h s false p d w s1) in Hx by (discriminate || exact Hst).
      destruct (stamp cf w) as [v|y| |]; try discriminate. exists v. cbn [fst snd] in Hx.
      destruct (negb (st_exists (status_of_type (cd_type (de_data (Entry p (asked_again d w v))))))); cbn in Hx; [discriminate|].
      injection Hx as <- <-. reflexivity. }
    destruct Hq as [->|[->| ->]]; unfold ask, answered, entry_exists, entry_is, entry_is_other in Hask; rewrite !run_bind in Hask;
      (destruct (run h (GetFileType cf false (Entry p d)) s) as [[[t1 ec1] e1] s6|f s6]; [|discriminate];
       destruct (Hg _ _ eq_refl) as [v Hv]; cbn in Hv; cbn in Hask; injection Hask as _ _ <- _; exists v; exact Hv). }
  destruct H1 as [v H1]. apply moved_data in Hn as [t2 E]. rewrite H1 in E. cbn [de_data] in E.
  destruct st2 as [hd2 rt2 [p2 d2]]. cbn [ds_entry de_data de_path] in *. subst d2.
  assert (Hsz : cd_size (iter_data (asked_again d w v) t2) = to_u64 (st_size w)).
  { unfold asked_again. rewrite Hreg. destruct (cd_symlink d); reflexivity. }
  unfold ask, answered, GetSize. cbn [de_data]. change (cd_cache (iter_data (asked_again d w v) t2)) with CBASIC. cbv iota.
  rewrite !run_bind. unfold UpdateExtraFileInformation, asap_assert. rewrite Hd. cbn [pbind andb]. cbn [de_data].
  destruct Hcase as [[Hns ->]|(Hnb & Hty2 & He & Hnr & tt & Htt)].
  - rewrite Hns. eexists. rewrite <- Hsz. reflexivity.
  - subst b. cbn in Hty2. subst t2.
    assert (Hsl : cd_symlink (iter_data (asked_again d w v) ft_symlink) = true) by reflexivity. rewrite Hsl.
    assert (Hex : cd_extra_resolved (iter_data (asked_again d w v) ft_symlink) = false).
    { unfold asked_again, d. cbn [cd_symlink]. rewrite Hreg. reflexivity. }
    rewrite Hex. cbn [andb negb]. rewrite run_bind. destruct (exists_val _ _ _ _ _ He) as [w2 Hst2].
    rewrite (run_again cf S2 h2 s2 has p2 _ w2 s3) by (discriminate || exact Hst2).
    unfold last_write_time_impl in Htt. rewrite run_bind, run_stat_ec, Hst2 in Htt. cbn [failed fst snd] in Htt.
    unfold ExtractLastWriteTime in Htt. rewrite run_lift in Htt.
    assert (Hst' : exists v2, stamp cf w2 = Ok v2).
    { unfold stamp. destruct (extract_last_write_time (cf_mode cf) (st_mtim w2)) as [[v2|]|y| |]; try discriminate; eauto. }
    destruct Hst' as [v2 ->]. cbn [run fst snd with_data de_data].
    assert (Hnr2 : file_type_eqb (type_of_mode (st_mode w2)) ft_regular = false).
    { unfold is_regular_file, is_type, status_impl, GetFileStatus in Hnr. rewrite !run_bind in Hnr. cbn [run] in Hnr. rewrite Hst2 in Hnr.
      unfold CreateFileStatus in Hnr. cbn in Hnr. injection Hnr as Hnr. exact Hnr. }
    unfold asked_again at 1. rewrite Hsl, Hnr2. eexists. rewrite <- Hsz. reflexivity.
Qed.

(** Without assertions, for an entry of an iterator that was not queried through the reference, once a symlink was delivered (so for the
    symlink itself): size, time and status are asked from the system and are those of the free functions. *)
Theorem C61_links_partial : forall cf st S (h : kernel S) s s1 x q has r,
  cf_dbg cf = false -> untouched cf st -> cd_symlink (de_data (ds_entry st)) = true ->
  run h (last_write_time_impl cf true (de_path (ds_entry st))) s = Done x s1 ->
  q = q_file_size \/ q = q_last_write_time /\ r <> r_number i64_min \/ q = q_status ->
  run h (exists_ false (de_path (ds_entry st))) s = Done (true, None) s1 ->
  run h (free cf q false (de_path (ds_entry st))) s = Done (r, None) s1 ->
  exists e, run h (ask cf q has (ds_entry st)) s = Done (r, None, e) s1.
Proof.
  intros cf st S h s s1 x q has r Hd Hu Hs Hx Hq He Hr. destruct (exists_val _ _ _ _ _ He) as [w Hst].
  apply untouched_blank in Hu as [(c & b & t & Hb) [Hc _]].
  destruct (ds_entry st) as [p d]. cbn [de_data de_path] in *. subst d. cbn [cd_cache cd_symlink] in *. subst c b.
  assert (Hv : exists v, stamp cf w = Ok v).
  { unfold last_write_time_impl in Hx. rewrite run_bind, run_stat_ec, Hst in Hx. cbn [failed fst snd] in Hx.
    unfold ExtractLastWriteTime in Hx. rewrite run_lift in Hx. unfold stamp.
    destruct (extract_last_write_time (cf_mode cf) (st_mtim w)) as [[v|]|y| |]; try discriminate; eauto. }
  destruct Hv as [v Hv].
  set (d := Cached CBASIC true false false false t u64_max u64_max i64_min perms_unknown perms_unknown) in *.
  assert (Hextra : run h (UpdateExtraFileInformation cf has true (Entry p d)) s =
    Done (None, Entry p (set_cache (asked_again d w v) CEXTRA)) s1).
  { unfold UpdateExtraFileInformation, asap_assert. rewrite Hd. cbn [pbind andb de_data d cd_symlink cd_extra_resolved negb].
    rewrite run_bind, (run_again cf S h s has p d w s1), Hv by (discriminate || exact Hst). reflexivity. }
  destruct Hq as [->|[[-> Hne]| ->]].
  - unfold free, answered_free, file_size_impl in Hr. rewrite !run_bind, run_stat_ec, Hst, mode_exists in Hr.
    cbn [negb orb] in Hr. unfold st_is_regular_file, has_type in Hr. cbn [st_type] in Hr.
    destruct (file_type_eqb (type_of_mode (st_mode w)) ft_regular) eqn:E; [|cbn in Hr; discriminate].
    cbn in Hr. injection Hr as <-. unfold ask, answered, GetSize. change (cd_cache (de_data (Entry p d))) with CBASIC. cbv iota.
    rewrite !run_bind, Hextra. cbn [run fst snd de_data]. unfold asked_again. rewrite E. cbn. eauto.
  - unfold ask, answered, GetLastWriteTime. change (cd_cache (de_data (Entry p d))) with CBASIC. cbv iota.
    rewrite !run_bind, Hextra. cbn [run fst snd de_data].
    assert (Hwt : cd_write_time (set_cache (asked_again d w v) CEXTRA) = v) by (unfold asked_again; destruct (file_type_eqb _ ft_regular); reflexivity).
    unfold free, answered_free, last_write_time_impl in Hr. rewrite !run_bind, run_stat_ec, Hst in Hr. cbn [failed fst snd] in Hr.
    unfold ExtractLastWriteTime in Hr. rewrite run_lift in Hr. unfold stamp in Hv.
    destruct (extract_last_write_time (cf_mode cf) (st_mtim w)) as [[v'|]|y| |]; try discriminate. injection Hv as <-. cbn in Hr. injection Hr as <-.
    rewrite Hwt. replace (Z.eqb v' i64_min) with false by (symmetry; apply Z.eqb_neq; intros ->; apply Hne; reflexivity).
    rewrite andb_false_r. cbn. eauto.
  - unfold free, answered_free, status_impl, GetFileStatus in Hr. rewrite !run_bind in Hr. cbn [run] in Hr. rewrite Hst in Hr.
    cbn in Hr. injection Hr as <-. unfold ask, answered, GetStatus. change (cd_cache (de_data (Entry p d))) with CBASIC. cbv iota.
    unfold UpdateExtraFileInformation, UpdatePermissionsInformation, asap_assert. rewrite Hd.
    cbn [pbind andb de_data d cd_symlink cd_extra_resolved negb with_data set_cache cd_perms_resolved snd].
    unfold with_data at 1. cbn [de_path]. rewrite !run_bind, (run_again cf S h s has p _ w s1), Hv by (discriminate || exact Hst).
    cbn [run fst snd with_data de_data set_cache]. unfold asked_again.
    destruct (file_type_eqb (type_of_mode (st_mode w)) ft_regular); cbn; eauto.
Qed.

(** symlink_status() of such an entry, for a symlink, has no permissions; and after status() it tells the type of the target. *)
Theorem C61_symlink_status_refuted : forall cf st S (h : kernel S) s s1 x has r ec e,
  cf_dbg cf = false -> untouched cf st -> cd_type (de_data (ds_entry st)) = ft_symlink ->
  run h (last_write_time_impl cf true (de_path (ds_entry st))) s = Done x s1 ->
  run h (exists_ false (de_path (ds_entry st))) s = Done (true, None) s1 ->
  run h (ask cf q_status has (ds_entry st)) s = Done (r_status r, ec, e) s1 ->
  forall S2 (h2 : kernel S2) s2 has2,
  (exists e2, run h2 (ask cf q_symlink_status has2 (ds_entry st)) s2 = Done (r_status (FStatus ft_symlink perms_unknown), None, e2) s2) /\
  run h2 (ask cf q_symlink_status has2 e) s2 = Done (r_status (FStatus (st_type r) perms_unknown), None, e) s2.
Proof.
  intros cf st S h s s1 x has r ec e Hd Hu Ht Hx He Hr S2 h2 s2 has2. destruct (exists_val _ _ _ _ _ He) as [w Hst].
  apply untouched_blank in Hu as [(c & b & t & Hb) [Hc Hsl]].
  destruct (ds_entry st) as [p d]. cbn [de_data de_path] in *. specialize (Hsl Ht). subst d. cbn [cd_cache cd_symlink cd_type] in *. subst c b t.
  assert (Hv : exists v, stamp cf w = Ok v).
  { unfold last_write_time_impl in Hx. rewrite run_bind, run_stat_ec, Hst in Hx. cbn [failed fst snd] in Hx.
    unfold ExtractLastWriteTime in Hx. rewrite run_lift in Hx. unfold stamp.
    destruct (extract_last_write_time (cf_mode cf) (st_mtim w)) as [[v|]|y| |]; try discriminate; eauto. }
  destruct Hv as [v Hv]. split.
  - unfold ask, answered, GetSymLinkStatus, UpdateExtraFileInformation, UpdatePermissionsInformation, asap_assert. rewrite Hd. cbn. eauto.
  - unfold ask, answered, GetStatus, UpdateExtraFileInformation, UpdatePermissionsInformation, asap_assert in Hr. rewrite Hd in Hr.
    cbn [pbind andb de_data cd_cache cd_symlink cd_extra_resolved negb with_data set_cache cd_perms_resolved snd] in Hr.
    unfold with_data at 1 in Hr. cbn [de_path] in Hr. rewrite !run_bind, (run_again cf S h s has p _ w s1), Hv in Hr by (discriminate || exact Hst).
    cbn [run fst snd with_data de_data set_cache] in Hr. injection Hr as <- _ <-.
    unfold ask, answered, GetSymLinkStatus. cbn [st_type]. unfold asked_again.
    destruct (file_type_eqb (type_of_mode (st_mode w)) ft_regular); reflexivity.
Qed.

(** The entry l of the demonstration directory, a symlink to the directory b, and f and d: what they tell in a build without assertions. *)
Example C61_example_links :
  match run (fsk demo_choices) (visit_directory release_config 10 true (mkpath (lit ".")) 0) demo with
  | Done ([f; l; d], None) s' =>
      cd_symlink (de_data l) = true /\ cd_symlink (de_data d) = true /\ cd_type (de_data d) = ft_directory /\
      match run (fsk demo_choices) (ask release_config q_status true l) s',
            run (fsk demo_choices) (free release_config q_status true (de_path l)) s' with
      | Done (r_status r, None, e) s1, Done (r_status r', None) s2 => r = r' /\ s1 = s2 /\ st_type r = ft_directory /\ st_perms r <> perms_unknown /\
          (match run (fsk demo_choices) (ask release_config q_symlink_status true e) s1 with
           | Done (x, None, _) _ => x = r_status (FStatus ft_directory perms_unknown) | _ => False end)
      | _, _ => False end /\
      match run (fsk demo_choices) (ask release_config q_is_symlink true d) s' with
      | Done (x, None, _) _ => x = r_bool true | _ => False end
  | _ => False end.
Proof.
  match goal with |- match ?r with _ => _ end => destruct r as [[[|f [|l [|d [|]]]] [c|]] s'|x s'] eqn:E end; try (vm_compute in E; discriminate).
  vm_compute in E. injection E as <- <- <- <-. split; [reflexivity|]. split; [reflexivity|]. split; [reflexivity|].
  split; [|vm_compute; reflexivity].
  match goal with |- match ?r with _ => _ end => destruct r as [[[[b|z|r1] [c|]] e] s1|x s1] eqn:E end; try (vm_compute in E; discriminate).
  vm_compute in E. injection E as <- <- <-. vm_compute. repeat split; discriminate.
Qed.

Print Assumptions C61_is_symlink_refuted.
Print Assumptions C61_later_symlink_refuted.
Print Assumptions C61_later_size_refuted.
Print Assumptions C61_links_partial.
Print Assumptions C61_symlink_status_refuted.
