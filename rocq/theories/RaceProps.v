(** Properties under interference: other processes change the system between two calls of an operation. *)
From Coq Require Import Ascii String Bool Arith NArith ZArith Lia.
From Verif Require Import Str PathModel PathSpec StrProofs PathProofs PathOps PathOps2 PathReach PathLaws
  FlagsModel TimeModel Prog DirModel OpsModel OpsProps FS FSProofs FSSpec FSOps FSPlace FSProps IterProps FSIter FSRemove.
From Coq Require Import List.
Import ListNotations.

(** * C29 remove_all under interference *)

(** A kernel with a record of the calls to remove: how many succeeded, and whether one found nothing to
    remove. A kernel may answer each call as it likes, so it covers what other processes do. *)
Record tally := Tally { removals : nat; lost_race : bool }.
Definition tallied {S} (h : kernel S) : kernel (S * tally) := fun c st =>
  let (s, t) := st in
  match c as c return (answer c * S) -> answer c * (S * tally) with
  | c_remove p => fun r =>
      match fst r with
      | Val u => (Val u, (snd r, Tally (1 + removals t) (lost_race t)))
      | Err e => (Err e, (snd r, Tally (removals t) (lost_race t || errno_eqb e ENOENT)))
      end
  | _ => fun r => (fst r, (snd r, t))
  end (h c s).

(** A program that makes no call to remove leaves the record alone. *)
Definition is_remove (c : call) : bool := match c with c_remove _ => true | _ => false end.
Fixpoint no_remove {A} (p : prog A) : Prop :=
  match p with Ret _ | Stop _ => True | Sys c f => is_remove c = false /\ forall a, no_remove (f a) end.

Lemma no_remove_bind : forall A B (p : prog A) (f : A -> prog B), no_remove p -> (forall a, no_remove (f a)) -> no_remove (pbind p f).
Proof. induction p; cbn; intros; auto. destruct H0. split; auto. Qed.

Definition state_of {A S} (r : outcome A S) : S := match r with Done _ s => s | Failed _ s => s end.

Lemma tallied_keeps : forall A (p : prog A), no_remove p -> forall S (h : kernel S) s t,
  snd (state_of (run (tallied h) p (s, t))) = t.
Proof.
  induction p as [a|f|c f IH]; cbn [no_remove]; intros H S h s t; auto. destruct H as [Hc Hf].
  rewrite run_sys.
  assert (E : exists a s1, tallied h c (s, t) = (a, (s1, t))).
  { unfold tallied. destruct c; try discriminate; eexists; eexists; reflexivity. }
  destruct E as (a & s1 & ->). cbn [fst snd]. apply IH. auto.
Qed.

Lemma no_remove_lift : forall A (x : out A), no_remove (lift x).
Proof. destruct x; exact I. Qed.
Lemma no_remove_report : forall A (has : bool) ps (d : A) e, no_remove (report has ps d e).
Proof. intros. unfold report. destruct has; exact I. Qed.
Lemma no_remove_readdir : forall d, no_remove (posix_readdir d).
Proof.
  intros. unfold posix_readdir. split; [reflexivity|]. intros [e|[[name t]|]]; cbn; auto. destruct t; cbn; auto.
Qed.
Lemma no_remove_advance : forall cf n s, no_remove (advance cf n s).
Proof.
  induction n as [|n IH]; intros s; [exact I|]. cbn [advance]. destruct (ds_handle s); [|exact I].
  apply no_remove_bind; [apply no_remove_readdir|]. intros [[name t] ec].
  destruct (str_eqb name (lit ".") || str_eqb name (lit "..")); auto.
  destruct (failed ec || is_nil name); [split; [reflexivity|]; intros; exact I|].
  apply no_remove_bind; [apply no_remove_lift|]. intros; exact I.
Qed.
Lemma no_remove_ctor : forall cf n has p o, no_remove (dir_iter_ctor cf n has p o).
Proof.
  intros. unfold dir_iter_ctor, stream_ctor. apply no_remove_bind.
  - split; [reflexivity|]. intros [e|d]; [exact I|]. apply no_remove_bind; [apply no_remove_advance|]. intros [[b ec] st]. exact I.
  - intros [ec st]. destruct (good st); [exact I|]. destruct (failed ec); [apply no_remove_report|exact I].
Qed.
Lemma no_remove_increment : forall cf n has it, no_remove (dir_iter_increment cf n has it).
Proof.
  intros. destruct it as [s|]; cbn [dir_iter_increment]; [|apply no_remove_report].
  apply no_remove_bind; [apply no_remove_advance|]. intros [[b ec] st]. destruct b; [exact I|]. destruct (failed ec); [apply no_remove_report|exact I].
Qed.
Lemma no_remove_status : forall has p, no_remove (symlink_status_impl has p).
Proof.
  intros. unfold symlink_status_impl, GetLinkStatus. apply no_remove_bind; [|intros [[? ?] ?]; exact I].
  split; [reflexivity|]. intros r. apply no_remove_bind; [|intros; exact I]. unfold CreateFileStatus.
  destruct r; [|exact I]. destruct (errno_eqb e ENOENT || errno_eqb e ENOTDIR); [exact I|apply no_remove_report].
Qed.

Lemma keeps_done : forall A (p : prog A) S (h : kernel S) s t x s1 t1, no_remove p ->
  run (tallied h) p (s, t) = Done x (s1, t1) -> t1 = t.
Proof. intros A p S h s t x s1 t1 Hp H. pose proof (tallied_keeps A p Hp S h s t) as K. rewrite H in K. exact K. Qed.

Lemma lost_monotone : forall A (p : prog A) S (h : kernel S) s t x s1 t1, run (tallied h) p (s, t) = Done x (s1, t1) ->
  lost_race t1 = false -> lost_race t = false.
Proof.
  induction p as [a|f|c f IH]; intros S h s t x s1 t1 H Hl.
  - cbn in H. injection H as _ _ <-. auto.
  - discriminate.
  - rewrite run_sys in H. destruct (snd (tallied h c (s, t))) as [s2 t2] eqn:E.
    apply IH in H; auto. unfold tallied in E. destruct c; cbn [snd fst] in E; try (injection E as <- <-; auto; fail).
    destruct (fst (h (c_remove p) s)); injection E as <- <-; cbn in H; auto. apply orb_false_iff in H. tauto.
Qed.

(** What the record [t'] says of a run that started with [t] and counted [c] without error. *)
Definition counts (t t' : tally) (c : Z) (e : ecode) : Prop :=
  lost_race t' = false -> lost_race t = false /\
    (e = None -> exists d, removals t' = (removals t + d)%nat /\ c = to_u64 (Z.of_nat d)).

Lemma run_tally_remove : forall S (h : kernel S) p s t b e s1 t1, run (tallied h) (remove_impl true p) (s, t) = Done (b, e) (s1, t1) ->
  lost_race t1 = false -> lost_race t = false /\
    (if b then removals t1 = (1 + removals t)%nat else e = None -> native p = []).
Proof.
  intros S h p s t b e s1 t1 H Hl. unfold remove_impl, empty in H. fold (native p) in H. destruct (is_nil (native p)) eqn:Hn.
  { cbn in H. injection H as <- <- <- <-. split; auto. intros _. apply is_nil_true. auto. }
  rewrite run_sys in H.
  assert (E : tallied h (c_remove (native p)) (s, t) =
    match h (c_remove (native p)) s with
    | (Val u, s2) => (Val u, (s2, Tally (1 + removals t) (lost_race t)))
    | (Err e, s2) => (Err e, (s2, Tally (removals t) (lost_race t || errno_eqb e ENOENT)))
    end).
  { unfold tallied. destruct (h (c_remove (native p)) s) as [[x|x] s2]; reflexivity. }
  rewrite E in H. clear E. destruct (h (c_remove (native p)) s) as [r s2].
  destruct r as [er|u]; cbn [fst snd] in H.
  - destruct (errno_eqb er ENOENT) eqn:Ee.
    + cbn in H. injection H as <- <- <- <-. cbn in Hl. rewrite orb_true_r in Hl. discriminate.
    + unfold report in H. cbn in H. injection H as <- <- <- <-. cbn in Hl. rewrite orb_false_r in Hl. split; auto. discriminate.
  - cbn in H. injection H as <- <- <- <-. auto.
Qed.

(** The iterators hold proper paths. *)
Definition proper (p : path) : Prop := canon p /\ native p <> [].
Definition proper_iter (it : dir_iter) : Prop :=
  match it with Some st => canon (ds_root st) /\ proper (de_path (ds_entry st)) | None => True end.

Lemma advance_proper : forall S (h : kernel S) cf n st s b ec st1 s1, canon (ds_root st) ->
  run h (advance cf n st) s = Done (b, ec, st1) s1 -> 
  canon (ds_root st1) /\ (b = true -> proper (de_path (ds_entry st1))) /\ (b = false -> good st1 = false).
Proof.
  intros S h cf. induction n as [|n IH]; intros st s b ec st1 s1 Hr H; [discriminate|].
  cbn [advance] in H. destruct (ds_handle st) as [d|]; [|discriminate]. rewrite run_bind in H.
  destruct (run h (posix_readdir d) s) as [[[name t] e] s2|] eqn:E; [|discriminate].
  destruct (str_eqb name (lit ".") || str_eqb name (lit "..")); [eapply IH; eauto|].
  destruct (failed e || is_nil name) eqn:Hn.
  - rewrite run_sys in H. cbn in H. injection H as <- <- <- <-. cbn. repeat split; auto; discriminate.
  - rewrite run_bind in H. change (split_components Posix name) with (mkpath name) in H.
    destruct (gives_div (cf_el cf) (ds_root st) (mkpath name) Hr (canon_mkpath name)) as (p & Hp & Hc & Hnp). rewrite Hp in H.
    cbn in H. injection H as <- <- <- <-. cbn [ds_root ds_entry de_path]. split; auto. split; [|discriminate]. intros _. split; auto.
    apply orb_false_iff in Hn as [_ Hn].
    assert (Hne : native (mkpath name) <> []).
    { rewrite native_mkpath. destruct (reported_same name) as [R _]. intros E0. rewrite E0 in R. cbn in R. congruence. }
    rewrite Hnp. intros E0. destruct (reported_same (append_text (native (ds_root st)) (native (mkpath name)))) as [R _].
    rewrite E0 in R. cbn in R. symmetry in R. apply is_nil_true in R. unfold append_text in R.
    destruct (starts_slash (native (mkpath name))); [congruence|].
    repeat match type of R with context [if ?b then _ else _] => destruct b end; try (apply app_eq_nil in R as [_ R]); try (apply app_eq_nil in R as [_ R]); congruence.
Qed.

Lemma ctor_proper : forall S (h : kernel S) cf n has p o s it ec s1, canon p ->
  run h (dir_iter_ctor cf n has p o) s = Done (it, ec) s1 -> proper_iter it.
Proof.
  intros S h cf n has p o s it ec s1 Hp H. unfold dir_iter_ctor, stream_ctor in H. rewrite run_bind, run_sys in H.
  destruct (h (c_opendir (native p)) s) as [[e|d] s2]; cbn [fst snd] in H.
  - cbn in H. destruct (failed _) in H; [unfold report in H; destruct has|]; cbn in H; try discriminate; injection H as <- _ _; exact I.
  - rewrite run_bind in H. destruct (run h (advance cf n (Stream (Some d) p entry_default)) s2) as [[[b e] st] s3|] eqn:E; [|discriminate].
    apply advance_proper in E as (A1 & A2 & A3); auto. cbn in H. destruct (good st) eqn:G.
    + cbn in H. injection H as <- _ _. cbn. split; auto. destruct b; auto. specialize (A3 eq_refl). congruence.
    + destruct (failed e); [unfold report in H; destruct has|]; cbn in H; try discriminate; injection H as <- _ _; exact I.
Qed.

Lemma increment_proper : forall S (h : kernel S) cf n has it s it1 ec s1, proper_iter it ->
  run h (dir_iter_increment cf n has it) s = Done (it1, ec) s1 -> proper_iter it1.
Proof.
  intros S h cf n has it s it1 ec s1 Hi H. destruct it as [st|]; cbn [dir_iter_increment] in H.
  - rewrite run_bind in H. destruct (run h (advance cf n st) s) as [[[b e] st1] s3|] eqn:E; [|discriminate].
    destruct Hi as [Hi _]. apply advance_proper in E as (A1 & A2 & A3); auto. destruct b.
    + cbn in H. injection H as <- _ _. split; auto.
    + destruct (failed e); [unfold report in H; destruct has|]; cbn in H; try discriminate; injection H as <- _ _; exact I.
  - unfold report in H. destruct has; cbn in H; try discriminate; injection H as <- _ _; exact I.
Qed.

(** The loop over one directory, given that the recursive call counts. *)
Lemma run_tally_loop : forall S (h : kernel S) cf rec n, 
  (forall p s t c e s1 t1, proper p -> run (tallied h) (rec p) (s, t) = Done (c, e) (s1, t1) -> counts t t1 c e) ->
  forall k it ec count s t c e s1 t1 d0, proper_iter it ->
  count = to_u64 (Z.of_nat (1 + d0)) ->
  run (tallied h) (remove_loop cf rec n k it ec count) (s, t) = Done (c, e) (s1, t1) ->
  lost_race t1 = false -> lost_race t = false /\
    (e = None -> exists d, removals t1 = (removals t + d)%nat /\ c = to_u64 (Z.of_nat (1 + d0 + d))).
Proof.
  intros S h cf rec n Hrec. induction k as [|k IH]; intros it ec count s t c e s1 t1 d0 Hi Hc H Hl; [discriminate|].
  cbn [remove_loop] in H. destruct (failed ec || is_end it) eqn:He.
  { cbn in H. injection H as <- <- <- <-. split; auto. intros _. exists 0%nat. split; [lia|]. rewrite Nat.add_0_r. auto. }
  rewrite run_bind, run_unwinding in H.
  destruct it as [st|]; [|rewrite orb_true_r in He; discriminate]. cbn [dir_iter_deref pbind] in H.
  destruct (run (tallied h) (rec (de_path (ds_entry st))) (s, t)) as [[c2 e2] [s2 t2]|f [s2 t2]] eqn:E2.
  2: { destruct (unwinds f); [|discriminate].
       destruct (run (tallied h) (dir_iter_destroy (Some st)) (s2, t2)) as [? ?|? ?]; discriminate. }
  apply Hrec in E2; [|apply Hi]. cbn [fst snd] in H.
  destruct (failed e2) eqn:Ee2.
  - rewrite run_bind in H. destruct (run (tallied h) (dir_iter_destroy (Some st)) (s2, t2)) as [u [s3 t3]|] eqn:E3; [|discriminate].
    apply keeps_done in E3; [subst t3|cbn; unfold stream_destroy; destruct (ds_handle st); cbn; auto].
    cbn in H. injection H as <- <- <- <-. destruct (E2 Hl) as [E2a _]. split; auto. intros ->. discriminate.
  - rewrite run_bind in H. destruct (run (tallied h) (dir_iter_increment cf n true (Some st)) (s2, t2)) as [j [s3 t3]|] eqn:E3; [|discriminate].
    destruct j as [it1 ec1]. pose proof (increment_proper _ _ _ _ _ _ _ _ _ _ Hi E3) as Hi1.
    apply keeps_done in E3; [subst t3|apply no_remove_increment]. cbn [fst snd] in H.
    destruct e2; [discriminate|].
    assert (Hl2 : lost_race t2 = false).
    { apply (lost_monotone _ _ S h s3 t2 _ _ _ H Hl). }
    destruct (E2 Hl2) as [E2a E2b]. destruct (E2b eq_refl) as (d & D1 & D2).
    assert (Hc2 : to_u64 (count + c2) = to_u64 (Z.of_nat (1 + (d0 + d)))) by (rewrite D2, Hc, to_u64_add, to_u64_add_r; f_equal; lia).
    destruct (IH _ _ _ _ _ _ _ _ _ (d0 + d)%nat Hi1 Hc2 H Hl) as [_ I2].
    split; auto. intros Hn. destruct (I2 Hn) as (d' & I3 & I4). exists (d + d')%nat. split; [lia|]. rewrite I4. f_equal. f_equal. lia.
Qed.

Lemma run_tally : forall S (h : kernel S) cf n p s t c e s1 t1, run (tallied h) (do_remove_all_impl cf n p) (s, t) = Done (c, e) (s1, t1) ->
  proper p -> counts t t1 c e.
Proof.
  intros S h cf. induction n as [|n IH]; intros p s t c e s1 t1 H Hp Hl; [discriminate|].
  split; [eapply lost_monotone; eauto|]. intros ->.
  cbn [do_remove_all_impl] in H. rewrite run_bind in H.
  destruct (run (tallied h) (symlink_status_impl true p) (s, t)) as [[st e1] [s2 t2]|] eqn:E1; [|discriminate].
  apply keeps_done in E1; [subst t2|apply no_remove_status]. cbn [fst snd] in H.
  destruct (failed e1) eqn:Ee1. { cbn in H. destruct e1; discriminate. }
  rewrite run_bind in H.
  assert (Hc : forall c0 e0 s3 t3,
    run (tallied h) (if st_is_directory st then let! i := dir_iter_ctor cf n true p 0 in
      remove_loop cf (do_remove_all_impl cf n) n n (fst i) (snd i) 1%Z else Ret (1%Z, None)) (s2, t) = Done (c0, e0) (s3, t3) ->
    lost_race t3 = false -> e0 = None -> exists d, removals t3 = (removals t + d)%nat /\ c0 = to_u64 (Z.of_nat (1 + d))).
  { intros c0 e0 s3 t3 H3 Hl3 He0. destruct (st_is_directory st).
    - rewrite run_bind in H3. destruct (run (tallied h) (dir_iter_ctor cf n true p 0) (s2, t)) as [[it ec] [s4 t4]|] eqn:E4; [|discriminate].
      pose proof (ctor_proper _ _ _ _ _ _ _ _ _ _ _ (proj1 Hp) E4) as Hi. apply keeps_done in E4; [subst t4|apply no_remove_ctor].
      eapply (run_tally_loop S h cf _ n) with (d0 := 0%nat) in H3; auto.
      + destruct H3 as [_ H3]. apply H3 in He0 as (d & D1 & D2). exists d. auto.
      + intros. eapply IH; eauto.
    - cbn in H3. injection H3 as <- <- <- <-. exists 0%nat. split; [lia|reflexivity]. }
  destruct (run (tallied h) (if st_is_directory st then _ else _) (s2, t)) as [[c0 e0] [s3 t3]|] eqn:E3; [|discriminate].
  cbn [fst snd] in H. destruct (failed e0) eqn:Ee0. { cbn in H. destruct e0; discriminate. }
  destruct e0; [discriminate|]. rewrite run_bind in H.
  destruct (run (tallied h) (remove_impl true p) (s3, t3)) as [[b e4] [s4 t4]|] eqn:E4; [|discriminate].
  cbn [fst snd] in H. destruct b; cbn in H.
  - injection H as <- <- <-. apply run_tally_remove in E4 as [L4 R4]; auto. destruct (Hc c0 None s3 t3 eq_refl L4 eq_refl) as (d & D1 & D2).
    exists (1 + d)%nat. split; [lia|auto].
  - injection H as <- -> <- <-. apply run_tally_remove in E4 as [L4 R4]; auto. destruct Hp as [_ Hp]. destruct (Hp (R4 eq_refl)).
Qed.

(** If none of its calls to remove(2) finds the entry already gone, remove_all without error returns the number of
    entries it removed itself, or 0 because another call answered ENOENT. This holds whatever the system and other processes
    do, and whatever the number of entries. *)
Theorem C29_count_partial : forall S (h : kernel S) cf n has p s c s' r, canon p ->
  run (tallied h) (remove_all_impl cf n has p) (s, Tally 0 false) = Done (c, None) (s', Tally r false) ->
  (Z.of_nat r < 2 ^ 64)%Z -> c = Z.of_nat r \/ c = 0%Z.
Proof.
  intros S h cf n has p s c s' r Hp H Hr. unfold remove_all_impl, empty in H. fold (native p) in H.
  destruct (is_nil (native p)) eqn:Hn; [cbn in H; injection H as <- _ _; auto|].
  rewrite run_bind in H. destruct (run (tallied h) (do_remove_all_impl cf n p) (s, Tally 0 false)) as [[c1 e1] [s1 t1]|] eqn:E; [|discriminate].
  cbn [fst snd] in H. destruct e1 as [e|].
  - destruct (errno_eqb e ENOENT); [cbn in H; injection H as <- _ _; auto|]. unfold report in H. destruct has; cbn in H; discriminate.
  - cbn in H. injection H as <- <- ->. left.
    apply run_tally in E; [|split; auto; intros E0; rewrite E0 in Hn; discriminate].
    destruct (E eq_refl) as [_ E2]. destruct (E2 eq_refl) as (d & D1 & D2). cbn in D1. subst d. rewrite D2. unfold to_u64. apply Z.mod_small. lia.
Qed.

(** The file system with what other processes do to it before each call. *)
Definition interfered (k : choices) : kernel (fs * list (fs -> fs)) := fun c st =>
  let '(s, l) := st in
  let '(s1, l1) := match l with [] => (s, []) | f :: r => (f s, r) end in
  let (a, s2) := fsk k c s1 in (a, (s2, l1)).

(** Another process removes an entry. *)
Definition other_removes (k : choices) (t : str) (s : fs) : fs := snd (sys_remove k s t).

(** Another process removes the entry just before remove_all does: no error, and 2^64 - 1 for the number of entries, on any system. *)
Theorem C29_count_refuted : forall cf S (h : kernel S) n has p s st s1 s2, native p <> [] ->
  h (c_lstat (native p)) s = (Val st, s1) -> format_type (st_mode st) <> ft_directory -> h (c_remove (native p)) s1 = (Err ENOENT, s2) ->
  run h (remove_all_impl cf (Datatypes.S n) has p) s = Done (u64_max, None) s2.
Proof.
  intros cf S h n has p s st s1 s2 Hne Hl Hd Hr. unfold remove_all_impl, empty. fold (native p).
  destruct (is_nil (native p)) eqn:Hn; [apply is_nil_true in Hn; congruence|].
  rewrite run_bind. cbn [do_remove_all_impl]. rewrite run_bind.
  pose proof (C23_status S h s p) as [_ Hs]. rewrite Hl in Hs. rewrite Hs. cbn [status_of_answer fst snd failed].
  assert (E : forall m, st_is_directory (FStatus (format_type (st_mode st)) m) = false).
  { intros m. unfold st_is_directory, has_type. cbn [st_type]. destruct (format_type (st_mode st)); auto. congruence. }
  rewrite E. rewrite run_bind. cbn [run fst snd failed]. rewrite run_bind. unfold remove_impl, empty. fold (native p). rewrite Hn. cbn [run]. rewrite Hr. reflexivity.
Qed.
Example C29_count_example : exists s',
  run (interfered demo_choices) (remove_all_impl plain_config 9 true (topath (lit "d/g")))
    (demo, [fun s => s; other_removes demo_choices (lit "/a/d/g")]) = Done (u64_max, None) (s', []) /\
  get (f_root s') [lit "a"; lit "d"] = Some (Dir 5 []).
Proof. eexists. split; vm_compute; reflexivity. Qed.

(** The same inside a directory: no error, the directory is removed, and the count is 0. *)
Theorem C29_zero_refuted : exists s',
  run (interfered demo_choices) (remove_all_impl plain_config 9 true (topath (lit "d")))
    (demo, repeat (fun s => s) 6 ++ [other_removes demo_choices (lit "/a/d/g")]) = Done (0%Z, None) (s', []) /\
  look (f_root demo) [lit "a"; lit "d"] = Some (NDir 5) /\ look (f_root s') [lit "a"; lit "d"] = None.
Proof. eexists. split; [vm_compute; reflexivity|]. split; vm_compute; reflexivity. Qed.

(** One call earlier: no error and the count 0, but the directory stays. *)
Theorem C29_left_refuted : exists s',
  run (interfered demo_choices) (remove_all_impl plain_config 9 true (topath (lit "d")))
    (demo, repeat (fun s => s) 5 ++ [other_removes demo_choices (lit "/a/d/g")]) = Done (0%Z, None) (s', []) /\
  look (f_root s') [lit "a"; lit "d"] = Some (NDir 5).
Proof. eexists. split; vm_compute; reflexivity. Qed.

(** A case of the theorem with another process at work: it removes /a/f while remove_all works on /a/d. *)
Example C29_example : exists s',
  run (tallied (interfered demo_choices)) (remove_all_impl plain_config 9 true (topath (lit "d")))
    ((demo, repeat (fun s => s) 3 ++ [other_removes demo_choices (lit "/a/f")]), Tally 0 false) =
    Done (2%Z, None) ((s', []), Tally 2 false) /\
  get (f_root s') [lit "a"] = Some (Dir 2 [(lit "l", Leaf 4)]).
Proof. eexists. split; vm_compute; reflexivity. Qed.

Print Assumptions C29_count_partial.
Print Assumptions C29_count_refuted.
Print Assumptions C29_zero_refuted.
Print Assumptions C29_left_refuted.
