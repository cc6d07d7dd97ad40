(** copy_file while other processes change the file system between two of its calls. *)
From Coq Require Import Ascii String Bool Arith NArith ZArith Lia.
From Verif Require Import Str PathModel PathSpec StrProofs PathProofs PathOps PathOps2 PathReach PathLaws
  FlagsModel TimeModel Prog DirModel OpsModel OpsProps FS FSProofs FSSpec FSOps FSPlace FSProps IterProps FSIter FSRemove RaceProps FSCopy.
From Coq Require Import List.
Import ListNotations.

(** * C32 copy_file acts on the file it checked *)

(** What other processes do before the next call. *)
Definition others (s : fs) (l : list (fs -> fs)) : fs * list (fs -> fs) :=
  match l with [] => (s, []) | f :: r => (f s, r) end.

(** [t] names the object [j], a symlink in the last component not being followed. *)
Definition names_now (k : choices) (s : fs) (t : str) (j : N) : Prop :=
  exists x, node_at s (find_at k s false t) = Val x /\ number x = j.

(** What another process may do when it turns [s] into [s1]: anything except changing this process's descriptors, turning
    a regular file into something else under the same number, and giving the name [t] to [j] when [j] did not have it. *)
Definition harmless (k : choices) (t : str) (j : N) (s s1 : fs) : Prop :=
  f_fds s1 = f_fds s /\ (forall d, f_body s j = BReg d -> exists d', f_body s1 j = BReg d') /\
  (names_now k s1 t j -> names_now k s t j).

(** What is recorded of a run: the object the last stat(2) found, the objects whose content or attributes
    the calls of the run (not the other processes) changed, and whether all the other processes did was harmless. *)
Record watch := Watch { w_checked : option N; w_touched : N -> Prop; w_fair : Prop }.
Definition unwatched : watch := Watch None (fun _ => False) True.

Definition seen_by (k : choices) (c : call) (s : fs) (old : option N) : option N :=
  match c with
  | c_stat t => match node_at s (find_at k s true t) with Val x => Some (number x) | Err _ => None end
  | _ => old
  end.

(** The file system, other processes at work, and the record. *)
Definition watched (k : choices) (t : str) (j : N) : kernel (fs * list (fs -> fs) * watch) := fun c st =>
  let '(s, l, w) := st in
  let '(s1, l1) := others s l in
  let (a, s2) := fsk k c s1 in
  (a, (s2, l1, Watch (seen_by k c s1 (w_checked w))
                 (fun i => w_touched w i \/ f_body s2 i <> f_body s1 i \/ f_meta s2 i <> f_meta s1 i)
                 (w_fair w /\ harmless k t j s s1))).

(** An invariant kept by the calls a program makes holds at its end. *)
Fixpoint calls {A} (P : call -> Prop) (p : prog A) : Prop :=
  match p with Ret _ | Stop _ => True | Sys c f => P c /\ forall a, calls P (f a) end.

Lemma calls_bind : forall A B P (p : prog A) (f : A -> prog B), calls P p -> (forall a, calls P (f a)) -> calls P (pbind p f).
Proof. induction p; cbn; intros; auto. destruct H0. split; auto. Qed.

Lemma calls_scoped : forall A P (p : prog A) c, calls P p -> calls P c -> calls P (scoped p c).
Proof.
  induction p; cbn; intros q H1 H2; auto.
  - apply calls_bind; auto; intros; exact I.
  - destruct (unwinds _); [apply calls_bind; auto; intros; exact I|exact I].
  - destruct H1. split; auto.
Qed.

Lemma calls_weaken : forall A (P Q : call -> Prop) (p : prog A), (forall c, P c -> Q c) -> calls P p -> calls Q p.
Proof. induction p; cbn; intros; auto. destruct H1. split; auto. Qed.

Lemma inv_run : forall S (h : kernel S) (I : S -> Prop) (P : call -> Prop), (forall c st, P c -> I st -> I (snd (h c st))) ->
  forall A (p : prog A), calls P p -> forall st, I st -> I (state_of (run h p st)).
Proof.
  intros S h I P Hstep. induction p as [a|f|c f IH]; cbn [calls]; intros Hp st Hi; auto. destruct Hp as [Hc Hf]. rewrite run_sys. apply IH; auto.
Qed.

Lemma calls_report : forall A P (has : bool) ps (d : A) e, calls P (report has ps d e).
Proof. intros. unfold report. destruct has; exact I. Qed.
Lemma calls_link_status : forall (P : call -> Prop) has p, P (c_lstat (native p)) -> calls P (GetLinkStatus has p).
Proof.
  intros P has p H. split; [auto|]. intros r. apply calls_bind; [|intros; exact I]. unfold CreateFileStatus.
  destruct r; [|exact I]. destruct (errno_eqb e ENOENT || errno_eqb e ENOTDIR); [exact I|apply calls_report].
Qed.

(** The calls made after the destination is open. *)
Definition copying (to : str) (rfd wfd : N) (c : call) : Prop :=
  c = c_lstat to \/ (exists m, c = c_fchmod wfd m) \/ (exists m, c = c_ftruncate wfd m) \/
  (exists m, c = c_sendfile wfd rfd m) \/ (exists m, c = c_read rfd m) \/ (exists d, c = c_write wfd d).

Lemma calls_do_copy : forall cf to n rfd wfd z, calls (copying to rfd wfd) (do_copy_file cf n rfd wfd z).
Proof.
  intros cf to n rfd wfd z.
  assert (Hd : forall n, calls (copying to rfd wfd) (do_copy_file_default n rfd wfd)).
  { clear n. induction n as [|n IH]; [exact I|]. split; [unfold copying; eauto 10|]. intros [e|[|a d]]; try exact I. split; [unfold copying; eauto 10|].
    intros [e|u]; [exact I|exact IH]. }
  assert (Hs : forall n z, calls (copying to rfd wfd) (sendfile_loop n rfd wfd z)).
  { clear n z Hd. induction n as [|n IH]; intros z; [exact I|]. split; [unfold copying; eauto 10|]. intros [e|m]; [exact I|]. destruct (0 <? z - m)%Z; [apply IH|exact I]. }
  unfold do_copy_file, do_copy_file_sendfile. destruct (cf_sendfile cf); [|apply Hd]. apply calls_bind.
  - destruct (_ || _); [exact I|apply Hs].
  - intros [b e]. cbn [fst snd]. destruct b; [exact I|apply Hd].
Qed.

Lemma calls_copy : forall cf n has from to rfd wfd z (b : bool),
  calls (copying (native to) rfd wfd)
    (let! c := do_copy_file cf n rfd wfd z in if fst c then Ret (true, None) else report has [to; from] false (snd c)).
Proof. intros. apply calls_bind; [apply calls_do_copy|]. intros [x e]. cbn [fst snd]. destruct x; [exact I|apply calls_report]. Qed.

Lemma calls_body : forall cf n has from to rfd wfd a b c, calls (copying (native to) rfd wfd) (copy_file_body cf n has from to rfd wfd a b c).
Proof.
  intros. unfold copy_file_body, refresh_status. apply calls_bind; [apply calls_link_status; unfold copying; auto|].
  intros [[st x] e]. cbn [fst snd]. destruct (failed e); [apply calls_report|]. destruct c; [|apply calls_copy; exact true].
  destruct (negb _); [apply calls_report|]. split; [unfold copying; eauto 10|]. intros [e1|u1]; [apply calls_report|].
  split; [unfold copying; eauto 10|]. intros [e2|u2]; [apply calls_report|]. apply calls_copy; exact true.
Qed.

Section Watched.
Variable k : choices.
Variable t : str.
Variable j : N.
Notation state := (fs * list (fs -> fs) * watch)%type.

Notation kern := (watched k t j).

(** The claim. *)
Definition kept (st : state) : Prop := let '(_, _, w) := st in w_fair w -> w_checked w = Some j -> forall i, w_touched w i -> i = j.
Definition untouched (st : state) : Prop := let '(_, _, w) := st in forall i, ~ w_touched w i.
Definition writes_j (wfd : N) (st : state) : Prop :=
  let '(s, _, w) := st in w_fair w -> (forall i, w_touched w i -> i = j) /\ exists o, nassoc wfd (f_fds s) = Some (j, o).

Lemma watched_step : forall c s l w, exists s1 l1, others s l = (s1, l1) /\ snd (kern c (s, l, w)) =
  (snd (fsk k c s1), l1, Watch (seen_by k c s1 (w_checked w))
     (fun i => w_touched w i \/ f_body (snd (fsk k c s1)) i <> f_body s1 i \/ f_meta (snd (fsk k c s1)) i <> f_meta s1 i)
     (w_fair w /\ harmless k t j s s1)) /\
  fst (kern c (s, l, w)) = fst (fsk k c s1).
Proof.
  intros. unfold watched. destruct (others s l) as [s1 l1]. exists s1, l1. destruct (fsk k c s1) as [a s2]. auto.
Qed.

(** Calls that change no object. *)
Definition quiet (c : call) : Prop :=
  match c with c_stat _ | c_lstat _ | c_open _ O_READ _ | c_open _ O_WRITE _ | c_close _ | c_read _ _ => True | _ => False end.

Lemma quiet_same : forall c s, quiet c -> f_body (snd (fsk k c s)) = f_body s /\ f_meta (snd (fsk k c s)) = f_meta s.
Proof.
  intros c s H. destruct c as [| |p fl m| | | | | | | | | | | | | | | | | | | |fd n| | | |]; try destruct H; try (split; reflexivity).
  - destruct fl; try destruct H; cbn [fsk]; unfold sys_open; destruct (find_at k s true p); try (split; reflexivity); destruct (look _ _) as [[?|?]|]; split; reflexivity.
  - cbn [fsk]. unfold sys_read. destruct (nassoc fd (f_fds s)) as [[i o]|]; try (split; reflexivity). destruct (f_body s i); split; reflexivity.
Qed.

Lemma quiet_kept : forall c st, quiet c -> (forall p, c <> c_stat p) -> kept st -> kept (snd (kern c st)).
Proof.
  intros c [[s l] w] Hq Hn H. destruct (watched_step c s l w) as (s1 & l1 & E & -> & _). destruct (quiet_same c s1 Hq) as [-> ->].
  cbn in H |- *. intros [Hf _] Hc i [Hi|[Hi|Hi]]; try (exfalso; apply Hi; reflexivity). apply H; auto.
  destruct c; auto. destruct (Hn p eq_refl).
Qed.

Lemma quiet_untouched : forall c st, quiet c -> untouched st -> untouched (snd (kern c st)).
Proof.
  intros c [[s l] w] Hq H1. destruct (watched_step c s l w) as (s1 & l1 & E & -> & _). destruct (quiet_same c s1 Hq) as [-> ->].
  cbn in *. intros i [Hi|[Hi|Hi]]; try (apply Hi; reflexivity). eapply H1; eauto.
Qed.

Lemma untouched_kept : forall st, untouched st -> kept st.
Proof. intros [[s l] w] H. cbn in *. intros _ _ i Hi. destruct (H i Hi). Qed.

Lemma nassoc_nupdate : forall A (fd fd2 : N) (x : A) l, nassoc fd (nupdate fd2 x l) =
  if N.eqb fd fd2 then match nassoc fd l with Some _ => Some x | None => None end else nassoc fd l.
Proof.
  intros A fd fd2 x. induction l as [|[b y] l IH]; cbn; [destruct (N.eqb fd fd2); auto|].
  destruct (N.eqb_spec b fd2) as [->|Hb]; cbn; rewrite ?(N.eqb_sym fd2 fd).
  - destruct (N.eqb fd fd2); auto.
  - destruct (N.eqb_spec b fd) as [->|Hfb]; [|apply IH]. destruct (N.eqb_spec fd fd2); [congruence|auto].
Qed.

Lemma copying_step : forall rfd wfd c st, copying t rfd wfd c -> writes_j wfd st -> writes_j wfd (snd (kern c st)).
Proof.
  intros rfd wfd c [[s l] w] Hc H. destruct (watched_step c s l w) as (s1 & l1 & E & -> & _).
  cbn [writes_j w_fair w_touched]. intros [Hfair (T2 & _ & _)]. destruct (H Hfair) as (H2 & o & H3). rewrite <- T2 in H3. clear H.
  assert (Hend : forall s2, snd (fsk k c s1) = s2 -> (exists o', nassoc wfd (f_fds s2) = Some (j, o')) ->
    (forall i, i <> j -> f_body s2 i = f_body s1 i /\ f_meta s2 i = f_meta s1 i) ->
    (forall i, w_touched w i \/ f_body s2 i <> f_body s1 i \/ f_meta s2 i <> f_meta s1 i -> i = j) /\ exists o, nassoc wfd (f_fds s2) = Some (j, o)).
  { intros s2 _ Hf Hb. split; [|exact Hf]. intros i Hi. destruct (N.eq_dec i j) as [|Hij]; auto.
    destruct (Hb i Hij) as [B1 B2]. destruct Hi as [Hi|[Hi|Hi]]; [auto|contradiction|contradiction]. }
  destruct Hc as [->|[[m ->]|[[m ->]|[[m ->]|[[m ->]|[d ->]]]]]]; apply Hend; auto; cbn [fsk]; clear Hend.
  - cbn. eauto.
  - unfold with_fd. rewrite H3. cbn. eauto.
  - unfold with_fd. rewrite H3. cbn. intros i Hi. unfold upd. rewrite (proj2 (N.eqb_neq i j) Hi). auto.
  - unfold with_fd. rewrite H3. unfold resize_obj. destruct (f_body s1 j); cbn; eauto. destruct (m <? 0)%Z; cbn; eauto.
  - unfold with_fd. rewrite H3. unfold resize_obj. destruct (f_body s1 j); cbn; auto. destruct (m <? 0)%Z; cbn; auto. intros i Hi. unfold upd. rewrite (proj2 (N.eqb_neq i j) Hi). auto.
  - unfold sys_sendfile. rewrite H3. destruct (nassoc rfd (f_fds s1)) as [[i o1]|] eqn:E1; [|cbn; eauto].
    destruct (f_body s1 i); try (cbn; eauto; fail). destruct (f_body s1 j); try (cbn; eauto; fail). cbn [snd f_fds tick set_fds set_body].
    rewrite nassoc_nupdate, N.eqb_refl, nassoc_nupdate, H3. destruct (N.eqb wfd rfd); eauto.
  - unfold sys_sendfile. rewrite H3. destruct (nassoc rfd (f_fds s1)) as [[i o1]|] eqn:E1; [|cbn; auto].
    destruct (f_body s1 i); auto. destruct (f_body s1 j); auto. cbn. intros x Hx. unfold upd. rewrite (proj2 (N.eqb_neq x j) Hx). auto.
  - unfold sys_read. destruct (nassoc rfd (f_fds s1)) as [[i o1]|] eqn:E1; [|cbn; eauto]. destruct (f_body s1 i); try (cbn; eauto; fail).
    cbn [snd f_fds tick set_fds]. rewrite nassoc_nupdate, H3. destruct (N.eqb_spec wfd rfd) as [<-|]; [|eauto]. rewrite H3 in E1. inversion E1; subst. eauto.
  - destruct (quiet_same (c_read rfd m) s1 Logic.I) as [A B]. cbn [fsk] in A, B. rewrite A, B. auto.
  - unfold sys_write. rewrite H3. destruct (f_body s1 j); try (cbn; eauto; fail). cbn [snd f_fds tick set_fds set_body]. rewrite nassoc_nupdate, N.eqb_refl, H3. eauto.
  - unfold sys_write. rewrite H3. destruct (f_body s1 j); auto. cbn. intros x Hx. unfold upd. rewrite (proj2 (N.eqb_neq x j) Hx). auto.
Qed.

(** The destructors make no difference. *)
Lemma scoped_kept : forall A (p : prog A) fd st, kept (state_of (run kern p st)) -> kept (state_of (run kern (scoped p (close_fd fd)) st)).
Proof.
  intros A p fd st H. rewrite run_scoped. unfold close_fd. destruct (run kern p st) as [a s1|f s1]; cbn [state_of] in H.
  - rewrite run_sys. cbn [run state_of]. apply quiet_kept; auto; [exact Logic.I|discriminate].
  - destruct (unwinds f); auto. rewrite run_sys. cbn [run state_of]. apply quiet_kept; auto; [exact Logic.I|discriminate].
Qed.

Lemma watched_status : forall (b : bool) p s l w s1 l1, others s l = (s1, l1) ->
  run kern (if b then GetFileStatus true p else GetLinkStatus true p) (s, l, w) =
  Done (stat_result s1 (node_at s1 (find_at k s1 b (native p)))) (snd (kern (if b then c_stat (native p) else c_lstat (native p)) (s, l, w))).
Proof.
  intros b p s l w s1 l1 E.
  assert (Hc : forall r st, run kern (let! se := CreateFileStatus true p r in Ret (fst se, stat_buf r, snd se)) st =
    Done (match r with Err e => (missing_status e, stat_zero, Some e) | Val x => (FStatus (type_of_mode (st_mode x)) (op_and width_perms (st_mode x) perms_mask), x, None) end) st).
  { intros r st. unfold CreateFileStatus, missing_status. destruct r as [e|x]; [destruct (errno_eqb e ENOENT || errno_eqb e ENOTDIR)|]; reflexivity. }
  destruct b; unfold GetFileStatus, GetLinkStatus; rewrite run_sys, Hc; f_equal; unfold watched; rewrite E; cbn [fsk fst]; rewrite sys_stat_node;
    (destruct (node_at s1 _) as [e|x]; [reflexivity|]; cbn [stat_result]; rewrite stat_of_type, stat_of_perms; reflexivity).
Qed.

Definition no_stat (c : call) : Prop := forall q, c <> c_stat q.

Lemma other_kept : forall A (p : prog A) st, calls no_stat p -> (let '(_, _, w) := st in w_checked w) <> Some j -> kept (state_of (run kern p st)).
Proof.
  intros A p st Hp Hn.
  assert (H : (let '(_, _, w) := state_of (run kern p st) in w_checked w) <> Some j).
  { apply (inv_run _ kern (fun st => (let '(_, _, w) := st in w_checked w) <> Some j) no_stat); auto.
    intros c [[s0 l0] w0] Hc H0. destruct (watched_step c s0 l0 w0) as (s4 & l4 & _ & -> & _). cbn. destruct c; auto. destruct (Hc p0 eq_refl). }
  destruct (state_of (run kern p st)) as [[s4 l4] w4]. cbn. intros Hx. contradiction.
Qed.

Lemma calls_open : forall cf n has from to rfd fl m a b c, calls no_stat
  (sys o := c_open (native to) fl m in
   match o with
   | Err e => report has [to; from] false (Some e)
   | Val wfd => scoped (copy_file_body cf n has from to rfd wfd a b c) (close_fd wfd)
   end).
Proof.
  intros. split; [unfold no_stat; discriminate|]. intros [e1|wfd]; [apply calls_report|].
  apply calls_scoped; [|split; [unfold no_stat; discriminate|intros; exact Logic.I]].
  eapply calls_weaken; [|apply (calls_body cf n has from to rfd wfd)]. intros c0 Hc. unfold copying in Hc. unfold no_stat.
  destruct Hc as [->|[[? ->]|[[? ->]|[[? ->]|[[? ->]|[? ->]]]]]]; discriminate.
Qed.

(** Once something harmful has happened, nothing is claimed. *)
Lemma unfair_kept : forall A (p : prog A) st, (let '(_, _, w) := st in ~ w_fair w) -> kept (state_of (run kern p st)).
Proof.
  intros A p st Hn.
  assert (H : (let '(_, _, w) := state_of (run kern p st) in ~ w_fair w)).
  { apply (inv_run _ kern (fun st => (let '(_, _, w) := st in ~ w_fair w)) (fun _ => True)); auto.
    - intros c [[s0 l0] w0] _ H0. destruct (watched_step c s0 l0 w0) as (s4 & l4 & _ & -> & _). cbn. tauto.
    - clear st Hn. induction p; cbn; auto. }
  destruct (state_of (run kern p st)) as [[s4 l4] w4]. cbn. intros Hx. contradiction.
Qed.

(** After the checks: the open, the second check and the copy. *)
Lemma run_open_watched : forall cf n has from to rfd m a s0 s l w d, native to = t -> untouched (s, l, w) ->
  f_body s j = BReg d ->
  kept (state_of (run kern
    (sys o := c_open (native to) O_WRITE m in
     match o with
     | Err e => report has [to; from] false (Some e)
     | Val wfd => scoped (copy_file_body cf n has from to rfd wfd a (stat_of s0 (NLeaf j)) true) (close_fd wfd)
     end) (s, l, w))).
Proof.
  intros cf n has from to rfd m a s0 s l w d Ht Hu Hb.
  assert (Hrep : forall A (x : A) e st, untouched st -> kept (state_of (run kern (report has [to; from] x e) st))).
  { intros A x e st0 H. unfold report. destruct has; apply untouched_kept; auto. }
  rewrite run_sys. pose proof (quiet_untouched (c_open (native to) O_WRITE m) (s, l, w) Logic.I Hu) as U1.
  destruct (watched_step (c_open (native to) O_WRITE m) s l w) as (s1 & l1 & E1 & E2 & E3).
  rewrite E3. destruct (fst (fsk k (c_open (native to) O_WRITE m) s1)) as [e|wfd] eqn:Ho; [apply Hrep; auto|]. apply scoped_kept.
  rewrite E2 in U1 |- *.
  (* what was opened *)
  assert (Hopen : exists i, snd (fsk k (c_open (native to) O_WRITE m) s1) = opened_fd s1 i /\ wfd = f_handle s1 /\ node_at s1 (find_at k s1 true (native to)) = Val (NLeaf i)).
  { cbn [fsk] in Ho |- *. unfold sys_open in Ho |- *. destruct (find_at k s1 true (native to)) as [l2 q| |]; try discriminate. cbn [node_at].
    destruct (look (f_root s1) q) as [[i|i]|]; try discriminate. exists i. cbn in Ho. injection Ho as <-. auto. }
  destruct Hopen as (i & Hs2 & Hwfd & Hnode). rewrite Hs2 in *.
  set (w1 := Watch _ _ _) in *.
  assert (Hf1 : w_fair w1 -> harmless k t j s s1) by (subst w1; cbn; tauto). clearbody w1.
  destruct (N.eq_dec i j) as [->|Hij].
  - (* the checked file *)
    assert (Hw : writes_j wfd (opened_fd s1 j, l1, w1)).
    { cbn [writes_j]. intros _. split; [cbn; intros x Hx; destruct (U1 x Hx)|]. exists 0. cbn. rewrite Hwfd, N.eqb_refl. auto. }
    pose proof (inv_run _ kern (writes_j wfd) (copying t rfd wfd) (copying_step rfd wfd) _
      (copy_file_body cf n has from to rfd wfd a (stat_of s0 (NLeaf j)) true)) as H.
    rewrite Ht in *. specialize (H ltac:(rewrite <- Ht; apply calls_body) _ Hw).
    destruct (state_of (run kern _ (opened_fd s1 j, l1, w1))) as [[s4 l4] w4]. cbn in H |- *. intros Hf _. apply (H Hf).
  - (* another file: the second check fails *)
    assert (Hno : w_fair w1 -> ~ names_now k s1 t j).
    { intros Hf (y & Hy & Hyj). rewrite <- Ht in Hy. destruct (Hf1 Hf) as (_ & Hb1 & _). destruct (Hb1 _ Hb) as [d1 Hb2].
      destruct (find_at k s1 false (native to)) as [l2 q| |] eqn:F; try discriminate. cbn [node_at] in Hy.
      destruct (look (f_root s1) q) as [z|] eqn:L; [|discriminate]. inversion Hy; subst z.
      assert (F3 : find_at k s1 true (native to) = Found l2 q).
      { unfold find_at, resolve_comps in F |- *. destruct (is_nil (native to)); [discriminate|]. apply steps_last; auto.
        intros z Hz. rewrite L in Hz. inversion Hz; subst y. cbn in Hyj. subst z. unfold link_text. rewrite Hb2. auto. }
      rewrite F3 in Hnode. cbn [node_at] in Hnode. rewrite L in Hnode. inversion Hnode; subst y. cbn in Hyj. congruence. }
    unfold copy_file_body, refresh_status. rewrite run_bind. destruct (others (opened_fd s1 i) l1) as [s3 l3] eqn:E4.
    rewrite (watched_status false to _ _ _ _ _ E4).
    pose proof (quiet_untouched (c_lstat (native to)) (opened_fd s1 i, l1, w1) Logic.I U1) as U2.
    destruct (watched_step (c_lstat (native to)) (opened_fd s1 i) l1 w1) as (s3' & l3' & E4' & E5 & _). rewrite E4 in E4'. injection E4' as <- <-.
    destruct (node_at s3 (find_at k s3 false (native to))) as [e|y] eqn:Hy; cbn [stat_result fst snd failed]; [apply Hrep; auto|].
    destruct (N.eq_dec (number y) j) as [Hyj|Hyj].
    + apply unfair_kept. rewrite E5. cbn. intros [Hf (_ & _ & Hn2)]. apply (Hno Hf). apply Hn2. exists y. rewrite <- Ht. auto.
    + assert (Hne : stat_equivalent (stat_of s0 (NLeaf j)) (stat_of s3 y) = false).
      { unfold stat_equivalent. destruct (stat_of_ino s0 (NLeaf j)) as [-> ->], (stat_of_ino s3 y) as [-> ->]. cbn. apply N.eqb_neq. congruence. }
      rewrite Hne. cbn [negb]. apply Hrep; auto.
Qed.

Lemma run_copy_watched : forall cf n has from to o st, native to = t -> untouched st ->
  kept (state_of (run kern (copy_file_impl cf n has from to o) st)).
Proof.
  intros cf n has from to o st Ht Hu. unfold copy_file_impl. rewrite run_sys.
  pose proof (quiet_untouched (c_open (native from) O_READ 0) st Logic.I Hu) as U1.
  assert (Hrep : forall A (d : A) e st, untouched st -> kept (state_of (run kern (report has [to; from] d e) st))).
  { intros A d e st0 H. unfold report. destruct has; apply untouched_kept; auto. }
  destruct (fst (kern (c_open (native from) O_READ 0) st)) as [e|rfd]; [apply Hrep; auto|]. apply scoped_kept.
  set (st1 := snd (kern (c_open (native from) O_READ 0) st)) in *. clearbody st1. clear st Hu.
  unfold copy_file_from, refresh_status. rewrite run_bind.
  destruct st1 as [[s l] w]. destruct (others s l) as [s1 l1] eqn:E1. rewrite (watched_status false from s l w s1 l1 E1).
  pose proof (quiet_untouched (c_lstat (native from)) (s, l, w) Logic.I U1) as U2.
  set (st2 := snd (kern (c_lstat (native from)) (s, l, w))) in *. clearbody st2.
  destruct (stat_result s1 (node_at s1 (find_at k s1 false (native from)))) as [[from_st from_stat] m_ec]. clear s l w s1 l1 E1 U1.
  destruct (failed m_ec); [apply Hrep; auto|]. destruct (negb (st_is_regular_file from_st)); [apply Hrep; auto|].
  rewrite run_bind. destruct st2 as [[s l] w]. destruct (others s l) as [s1 l1] eqn:E1. rewrite (watched_status true to s l w s1 l1 E1).
  pose proof (quiet_untouched (c_stat (native to)) (s, l, w) Logic.I U2) as U3.
  destruct (watched_step (c_stat (native to)) s l w) as (s1' & l1' & E1' & E3 & _). rewrite E1 in E1'. injection E1' as <- <-.
  change (snd (fsk k (c_stat (native to)) s1)) with s1 in E3. cbn [seen_by] in E3.
  destruct (node_at s1 (find_at k s1 true (native to))) as [e|x] eqn:Hto; cbn [stat_result].
  - (* the destination was missing: nothing is claimed *)
    apply other_kept; [|rewrite E3; discriminate].
    destruct (negb (status_known (missing_status e))); [apply calls_report|]. destruct (st_exists (missing_status e) && _); [apply calls_report|].
    destruct (st_exists (missing_status e) && _); [apply calls_report|]. destruct (st_exists (missing_status e) && _); [exact Logic.I|].
    apply calls_bind; [destruct (st_exists (missing_status e) && _); [exact Logic.I|]; destruct (negb _ || _); [exact Logic.I|apply calls_report]|].
    intros [b e0]. cbn [fst snd]. destruct (negb b); [exact Logic.I|]. apply calls_open.
  - destruct (status_of_exists s1 x) as [S1 S2]. rewrite S2, S1. cbn [negb andb].
    set (st3 := snd (kern (c_stat (native to)) (s, l, w))) in *.
    destruct (st_is_regular_file (status_of s1 x)) eqn:Hreg; cbn [negb]; [|apply Hrep; auto]. destruct (stat_equivalent from_stat (stat_of s1 x)); [apply Hrep; auto|].
    destruct (co_set co_skip_existing o); [apply untouched_kept; auto|]. rewrite run_bind. cbn [negb orb].
    assert (Hgo : kept (state_of (run kern
      (sys r := c_open (native to) O_WRITE (st_mode from_stat) in
       match r with
       | Err e => report has [to; from] false (Some e)
       | Val wfd => scoped (copy_file_body cf n has from to rfd wfd from_stat (stat_of s1 x) true) (close_fd wfd)
       end) st3))).
    { destruct (N.eq_dec (number x) j) as [Hxj|Hxj].
      - unfold st_is_regular_file, has_type, status_of in Hreg. cbn [st_type] in Hreg. destruct x as [i|i]; [|discriminate]. cbn in Hxj. subst i.
        cbn [type_of] in Hreg. destruct (f_body s1 j) as [d|?|sp] eqn:B; [|discriminate|destruct sp; discriminate].
        rewrite E3 in U3 |- *. eapply run_open_watched; eauto.
      - apply other_kept; [apply calls_open|]. rewrite E3. cbn. congruence. }
    destruct (co_set co_update_existing o).
    + cbn [run fst snd]. destruct (newer _ _); cbn [negb]; [exact Hgo|]. apply untouched_kept; auto.
    + destruct (co_set co_overwrite_existing o); cbn [run fst snd negb]; [exact Hgo|].
      unfold report. destruct has; apply untouched_kept; auto.
Qed.
End Watched.

(** If copy_file found the file [j] at the destination when it checked, then [j] is the only object its calls change, whatever
    other processes do between its calls, as long as they do not give the name back to [j] after taking it away. Missing from the
    property: that last case (C32_swapped_refuted), and a destination that appears after the check (C32_appears_refuted). *)
Theorem C32_checked_partial : forall cf k n has from to o s l j s' l' w',
  state_of (run (watched k (native to) j) (copy_file_impl cf n has from to o) (s, l, unwatched)) = (s', l', w') ->
  w_fair w' -> w_checked w' = Some j -> forall i, w_touched w' i -> i = j.
Proof.
  intros cf k n has from to o s l j s' l' w' Hrun.
  pose proof (run_copy_watched k (native to) j cf n has from to o (s, l, unwatched) eq_refl (fun i H => H)) as H.
  rewrite Hrun in H. exact H.
Qed.

(** /a/f is the source, /a/t the destination, /b/v a file of somebody else. *)
Definition demo_race : fs :=
  Fs (Dir 1 [(lit "a", Dir 2 [(lit "f", Leaf 3); (lit "t", Leaf 6)]); (lit "b", Dir 7 [(lit "v", Leaf 9)])])
     (fun i => match i with 3%N => BReg (lit "hello") | 6%N => BReg (lit "old") | 9%N => BReg (lit "precious") | _ => BReg [] end)
     demo_meta 10 [lit "a"] [] [] 0 (fun _ => None) 0.
Definition other_renames (a b : string) (s : fs) : fs := snd (sys_rename demo_choices s (lit a) (lit b)).
Definition other_links (a b : string) (s : fs) : fs := snd (sys_link demo_choices s (lit a) (lit b)).
Definition other_symlinks (a b : string) (s : fs) : fs := snd (sys_symlink demo_choices s (lit a) (lit b)).
Definition nothing (s : fs) : fs := s.

(** Another process gives the name to its victim before the open and back before the second check: copy_file
    returns true, the victim is overwritten, and the destination is not. *)
Theorem C32_swapped_refuted : exists s' w',
  run (watched demo_choices (lit "t") 6) (copy_file_impl plain_config 20 true (topath (lit "f")) (topath (lit "t")) (options [co_overwrite_existing]))
    (demo_race, [nothing; nothing; nothing;
                 fun s => other_links "/b/v" "/a/t" (other_renames "/a/t" "/a/saved" s);
                 fun s => other_renames "/a/saved" "/a/t" s], unwatched) = Done (true, None) (s', [], w') /\
  w_checked w' = Some 6%N /\ f_body s' 9 = BReg (lit "hello") /\ f_body s' 6 = BReg (lit "old").
Proof. eexists. eexists. split; [vm_compute; reflexivity|]. split; [reflexivity|]. split; reflexivity. Qed.

(** A symlink that appears at a missing destination after the check is followed: the file it leads to is overwritten at its
    start, with no existing-file option, and true is returned. *)
Theorem C32_appears_refuted : exists s' w',
  run (watched demo_choices (lit "new") 6) (copy_file_impl plain_config 20 true (topath (lit "f")) (topath (lit "new")) (options []))
    (demo_race, [nothing; nothing; nothing; other_symlinks "/b/v" "/a/new"], unwatched) = Done (true, None) (s', [], w') /\
  w_checked w' = None /\ f_body s' 9 = BReg (lit "helloous").
Proof. eexists. eexists. split; [vm_compute; reflexivity|]. split; reflexivity. Qed.

(** A case of the theorem: the name is given to another file for good, and copy_file refuses. *)
Example C32_example : exists s' w',
  run (watched demo_choices (lit "t") 6) (copy_file_impl plain_config 20 true (topath (lit "f")) (topath (lit "t")) (options [co_overwrite_existing]))
    (demo_race, [nothing; nothing; nothing; fun s => other_links "/b/v" "/a/t" (other_renames "/a/t" "/a/saved" s)], unwatched)
    = Done (false, Some EBADF) (s', [], w') /\
  w_fair w' /\ w_checked w' = Some 6%N /\ f_body s' 9 = BReg (lit "precious").
Proof.
  eexists. eexists. split; [vm_compute; reflexivity|]. split; [|split; reflexivity]. cbn [w_fair].
  repeat (match goal with |- _ /\ _ => split end); try reflexivity; try exact Logic.I; try (intros; eexists; reflexivity);
    intros (x & Hx & H6); inversion Hx; subst x; try discriminate; eexists; split; reflexivity.
Qed.

Print Assumptions C32_checked_partial.
Print Assumptions C32_swapped_refuted.
Print Assumptions C32_appears_refuted.
