(** Properties of copy_file on the file system of FS.v. *)
From Coq Require Import Ascii String Bool Arith NArith ZArith Lia.
From Verif Require Import Str PathModel PathSpec StrProofs PathProofs PathOps PathOps2 PathReach PathLaws ArithProps
  FlagsModel TimeModel Prog DirModel OpsModel OpsProps FS FSProofs FSSpec FSOps FSPlace FSProps.
From Coq Require Import List.
Import ListNotations.

(** * Transfers *)

(** The same but for the content of [j], the descriptors and the number of transfers. *)
Definition same_but (j : N) (s s' : fs) : Prop :=
  f_root s' = f_root s /\ f_meta s' = f_meta s /\ f_next s' = f_next s /\ f_cwd s' = f_cwd s /\ f_dirs s' = f_dirs s /\
  f_handle s' = f_handle s /\ f_env s' = f_env s /\ (forall x, x <> j -> f_body s' x = f_body s x).

Lemma same_but_refl : forall j s, same_but j s s.
Proof. intros. repeat split; auto. Qed.
Lemma same_but_trans : forall j a b c, same_but j a b -> same_but j b c -> same_but j a c.
Proof.
  intros j a b c (A1 & A2 & A3 & A4 & A5 & A6 & A7 & A8) (B1 & B2 & B3 & B4 & B5 & B6 & B7 & B8).
  repeat split; try congruence. intros x Hx. rewrite B8, A8; auto.
Qed.

(** The two descriptors of copy_file on top of the others. *)
Definition two_fds (s : fs) (wfd rfd : N) (j : N) (o2 : nat) (i : N) (o : nat) (rest : list (N * (N * nat))) : Prop :=
  wfd <> rfd /\ f_fds s = (wfd, (j, o2)) :: (rfd, (i, o)) :: rest.

Lemma moved_bounds : forall c n, moved c n <= n /\ (0 < n -> 0 < moved c n).
Proof. intros. unfold moved. split; lia. Qed.

Lemma moved_all : forall c n, n <= c -> moved c n = n.
Proof. intros. unfold moved. lia. Qed.

Lemma spliced_end : forall old d, spliced old (length old) d = old ++ d.
Proof.
  intros. unfold spliced. rewrite Nat.sub_diag. cbn [repeat]. rewrite app_nil_r, firstn_all, skipn_all2 by lia. rewrite app_nil_r. auto.
Qed.

Lemma firstn_more : forall A (d : list A) o m, o + m <= length d -> firstn o d ++ firstn m (skipn o d) = firstn (o + m) d.
Proof.
  intros A d o m. revert d. induction o as [|o IH]; intros d H; [reflexivity|]. destruct d as [|x d]; [cbn in H; lia|].
  cbn. f_equal. apply IH. cbn in H. lia.
Qed.

(** Every write takes everything it is given (at most one buffer). *)
Definition full_writes (k : choices) : Prop := forall c, Z.to_nat bufsiz <= k_write k c.

(** Reads fill the buffer, and every write takes less than [m] bytes (or one). *)
Definition cut_writes (k : choices) (m : nat) : Prop := forall c, Z.to_nat bufsiz <= k_read k c /\ k_write k c < m.

Lemma run_copy_default : forall k d rest i j rfd wfd, i <> j -> forall n s o o2 d2, two_fds s wfd rfd j o2 i o rest ->
  f_body s i = BReg d -> f_body s j = BReg d2 -> o <= length d -> length d - o < n ->
  exists s' o' o2' d', run (fsk k) (do_copy_file_default n rfd wfd) s = Done (true, None) s' /\ same_but j s s' /\
    two_fds s' wfd rfd j o2' i o' rest /\ f_body s' j = BReg d' /\
    (full_writes k -> o2 = o -> d2 = firstn o d -> d' = d) /\
    (o2 = length d2 -> length d' <= length d2 + (length d - o) /\
      (2 <= length d - o -> cut_writes k (Nat.min (Z.to_nat bufsiz) (length d - o)) -> length d' < length d2 + (length d - o))).
Proof.
  intros k d rest i j rfd wfd Hij. induction n as [|n IH]; intros s o o2 d2 [Hfd Hf] Hi Hj Ho Hn; [lia|].
  cbn [do_copy_file_default]. rewrite run_sys. cbn [fsk]. unfold sys_read. rewrite Hf. cbn [nassoc].
  rewrite (proj2 (N.eqb_neq wfd rfd) Hfd), N.eqb_refl, Hi.
  set (m := moved (k_read k (f_clock s)) (Nat.min (Z.to_nat bufsiz) (length (skipn o d)))).
  cbn [fst snd nupdate]. rewrite (proj2 (N.eqb_neq wfd rfd) Hfd), N.eqb_refl.
  assert (Hm : m <= length d - o /\ m <= Z.to_nat bufsiz /\ (o < length d -> 0 < m)).
  { destruct (moved_bounds (k_read k (f_clock s)) (Nat.min (Z.to_nat bufsiz) (length (skipn o d)))) as [M1 M2]. fold m in M1, M2.
    rewrite skipn_length in *. assert (0 < Z.to_nat bufsiz) by (unfold bufsiz; lia). lia. }
  assert (Hmax : Z.to_nat bufsiz <= k_read k (f_clock s) -> m = Nat.min (Z.to_nat bufsiz) (length d - o)).
  { intros X. unfold m. rewrite skipn_length. apply moved_all. lia. }
  assert (Hlen : length (firstn m (skipn o d)) = m) by (rewrite firstn_length, skipn_length; lia).
  clearbody m. set (s1 := tick (set_fds s ((wfd, (j, o2)) :: (rfd, (i, o + m)) :: rest))).
  destruct (firstn m (skipn o d)) as [|c data] eqn:Hdata.
  - cbn [run]. cbn [length] in Hlen. exists s1, (o + m), o2, d2. split; [reflexivity|]. split; [repeat split; auto|]. split; [split; auto|]. split; [auto|].
    split; [intros _ _ ->; replace o with (length d) by lia; apply firstn_all|]. intros _. split; [lia|]. lia.
  - rewrite <- Hdata in *. rewrite run_sys. cbn [fsk]. unfold sys_write.
    replace (nassoc wfd (f_fds s1)) with (Some (j, o2)) by (cbn; rewrite N.eqb_refl; auto).
    replace (f_body s1 j) with (BReg d2) by (rewrite <- Hj; reflexivity).
    set (w := moved (k_write k (f_clock s1)) (length (firstn m (skipn o d)))).
    change (f_fds s1) with ((wfd, (j, o2)) :: (rfd, (i, o + m)) :: rest).
    cbn [fst snd nupdate]. rewrite N.eqb_refl.
    match goal with |- context [run _ _ ?x] => set (s2 := x) end.
    destruct (IH s2 (o + m) (o2 + w) (spliced d2 o2 (firstn w (firstn m (skipn o d))))) as (s' & o' & o2' & d' & R1 & R2 & R3 & R4 & R5 & R6).
    + split; auto.
    + cbn. unfold upd. rewrite (proj2 (N.eqb_neq i j) Hij). auto.
    + cbn. unfold upd. rewrite N.eqb_refl. auto.
    + lia.
    + assert (0 < m) by (destruct m; [discriminate|lia]). lia.
    + exists s', o', o2', d'. split; [exact R1|]. split; [|split; [exact R3|split; [exact R4|]]].
      * eapply same_but_trans; [|exact R2]. repeat split; auto. intros x Hx. cbn. unfold upd. rewrite (proj2 (N.eqb_neq x j) Hx). auto.
      * split; [|intros Ho2; rewrite Ho2, spliced_end, app_length in R6; rewrite firstn_length, Hlen in R6;
          assert (Hwm : w <= m) by (unfold w, moved; rewrite Hlen; lia);
          destruct (R6 ltac:(lia)) as [R7 _]; split; [lia|];
          intros H2 Hcut; destruct (Hcut (f_clock s)) as [C1 _]; destruct (Hcut (f_clock s1)) as [_ C2]; rewrite <- (Hmax C1) in C2;
          assert (2 <= Z.to_nat bufsiz) by (unfold bufsiz; lia); specialize (Hmax C1);
          assert (w < m) by (unfold w, moved; rewrite Hlen; lia); lia].
        intros Hfull Ho2 Hd2. apply R5; auto.
        -- subst o2. f_equal. unfold w. rewrite Hlen. apply moved_all. etransitivity; [|apply Hfull]. tauto.
        -- subst o2 d2. assert (Hw : w = m). { unfold w. rewrite Hlen. apply moved_all. etransitivity; [|apply Hfull]. tauto. }
           assert (Hmm : firstn m (firstn m (skipn o d)) = firstn m (skipn o d)) by (apply firstn_all2; lia). rewrite Hw, Hmm.
           replace o with (length (firstn o d)) at 2 by (rewrite firstn_length; lia). rewrite spliced_end. apply firstn_more. lia.
Qed.

Lemma run_sendfile_loop : forall k d rest i j rfd wfd, i <> j -> forall n s o, two_fds s wfd rfd j o i o rest ->
  f_body s i = BReg d -> f_body s j = BReg (firstn o d) -> o <= length d -> length d - o < n ->
  exists s', run (fsk k) (sendfile_loop n rfd wfd (Z.of_nat (length d - o))) s = Done (true, None) s' /\ same_but j s s' /\
    (exists o' o2', two_fds s' wfd rfd j o2' i o' rest) /\ f_body s' j = BReg d.
Proof.
  intros k d rest i j rfd wfd Hij. induction n as [|n IH]; intros s o [Hfd Hf] Hi Hj Ho Hn; [lia|].
  cbn [sendfile_loop]. rewrite run_sys. cbn [fsk]. unfold sys_sendfile. rewrite Hf. cbn [nassoc].
  rewrite (proj2 (N.eqb_neq wfd rfd) Hfd), !N.eqb_refl, Hi, Hj. cbn [fst snd nupdate]. rewrite Nat2Z.id.
  set (m := moved (k_send k (f_clock s)) (Nat.min (length d - o) (length (skipn o d)))).
  assert (Hm : m <= length d - o /\ (o < length d -> 0 < m)).
  { destruct (moved_bounds (k_send k (f_clock s)) (Nat.min (length d - o) (length (skipn o d)))) as [M1 M2]. fold m in M1, M2. rewrite skipn_length in *. lia. }
  rewrite (proj2 (N.eqb_neq wfd rfd) Hfd), N.eqb_refl. cbn [nupdate]. rewrite N.eqb_refl.
  assert (Hsp : spliced (firstn o d) o (firstn m (skipn o d)) = firstn (o + m) d).
  { replace o with (length (firstn o d)) at 2 by (rewrite firstn_length; lia). rewrite spliced_end. apply firstn_more. lia. }
  rewrite Hsp. match goal with |- context [run _ _ ?x] => set (s1 := x) end.
  assert (Hb : forall x, x <> j -> f_body s1 x = f_body s x) by (intros x Hx; cbn; unfold upd; rewrite (proj2 (N.eqb_neq x j) Hx); auto).
  assert (Hbj : f_body s1 j = BReg (firstn (o + m) d)) by (cbn; unfold upd; rewrite N.eqb_refl; auto).
  assert (Hs1 : same_but j s s1) by (repeat split; auto).
  destruct (Z.ltb_spec 0 (Z.of_nat (length d - o) - Z.of_nat m)) as [Hc|Hc].
  - destruct (IH s1 (o + m)) as (s' & R1 & R2 & R3 & R4); try (split; auto); auto; try lia. { rewrite Hb; auto. }
    exists s'. replace (Z.of_nat (length d - o) - Z.of_nat m)%Z with (Z.of_nat (length d - (o + m))) by lia.
    split; [exact R1|]. split; [eapply same_but_trans; eauto|]. auto.
  - exists s1. split; [reflexivity|]. split; [auto|]. split; [exists (o + m), (o + m); split; auto|].
    rewrite Hbj. f_equal. apply firstn_all2. lia.
Qed.

(** When the content arrives unharmed: by sendfile, or by writes that are not cut short. *)
Definition safe_transfer (cf : config) (k : choices) (d : str) : Prop :=
  (cf_sendfile cf = true /\ (Z.of_nat (length d) <= sendfile_max)%Z) \/ full_writes k.

(** When it does not: sendfile is not used, there is more than one byte, and every write takes less than what was read first. *)
Definition cut_transfer (cf : config) (k : choices) (d : str) : Prop :=
  (cf_sendfile cf = false \/ (sendfile_max < Z.of_nat (length d))%Z) /\ 2 <= length d /\ cut_writes k (Nat.min (Z.to_nat bufsiz) (length d)).

Definition arrives (cf : config) (k : choices) (d d' : str) : Prop := (safe_transfer cf k d -> d' = d) /\ (cut_transfer cf k d -> length d' < length d).

Lemma run_do_copy : forall cf k d rest i j rfd wfd n s, i <> j -> two_fds s wfd rfd j 0 i 0 rest ->
  f_body s i = BReg d -> f_body s j = BReg [] -> length d < n ->
  exists s' o' o2' d', run (fsk k) (do_copy_file cf n rfd wfd (Z.of_nat (length d))) s = Done (true, None) s' /\ same_but j s s' /\
    two_fds s' wfd rfd j o2' i o' rest /\ f_body s' j = BReg d' /\ arrives cf k d d'.
Proof.
  intros cf k d rest i j rfd wfd n s Hij Hf Hi Hj Hn. unfold do_copy_file.
  assert (Hdef : exists s' o' o2' d', run (fsk k) (do_copy_file_default n rfd wfd) s = Done (true, None) s' /\ same_but j s s' /\
    two_fds s' wfd rfd j o2' i o' rest /\ f_body s' j = BReg d' /\ (full_writes k -> d' = d) /\
    (2 <= length d -> cut_writes k (Nat.min (Z.to_nat bufsiz) (length d)) -> length d' < length d)).
  { destruct (run_copy_default k d rest i j rfd wfd Hij n s 0 0 [] Hf Hi Hj) as (s' & o' & o2' & d' & R1 & R2 & R3 & R4 & R5 & R6); try lia.
    destruct (R6 eq_refl) as [_ R7]. rewrite Nat.sub_0_r in R7. cbn [length plus] in R7. exists s', o', o2', d'. auto 10. }
  destruct Hdef as (s' & o' & o2' & d' & R1 & R2 & R3 & R4 & R5 & R6).
  destruct (cf_sendfile cf) eqn:Hs.
  - rewrite run_bind. unfold do_copy_file_sendfile.
    destruct (Z.ltb_spec (Z.of_nat (length d)) 0); [lia|]. cbn [orb].
    destruct (Z.ltb_spec sendfile_max (Z.of_nat (length d))) as [Hmax|Hmax].
    + cbn [run fst]. exists s', o', o2', d'. split; [auto|]. split; [auto|]. split; [auto|]. split; [auto|]. split; [intros [[_ ?]|?]; [lia|auto]|intros (_ & ? & ?); auto].
    + destruct (run_sendfile_loop k d rest i j rfd wfd Hij n s 0 Hf Hi Hj) as (s2 & T1 & T2 & (a & b & T3) & T4); try lia.
      rewrite Nat.sub_0_r in T1. rewrite T1. cbn [run fst snd]. exists s2, a, b, d. split; [auto|]. split; [auto|]. split; [auto|]. split; [auto|]. split; [auto|].
      intros ([?|?] & _); [congruence|lia].
  - exists s', o', o2', d'. split; [auto|]. split; [auto|]. split; [auto|]. split; [auto|]. split; [intros [[? _]|?]; [congruence|auto]|intros (_ & ? & ?); auto].
Qed.

(** * Vocabulary *)

(** [t] names the regular file [i] with content [d] at [q]; a symlink in the last component is not followed. *)
Definition is_file (k : choices) (s : fs) (t : str) (q : loc) (i : N) (d : str) : Prop :=
  exists l, find_at k s false t = Found l q /\ look (f_root s) q = Some (NLeaf i) /\ f_body s i = BReg d.

(** The two ways an error is reported. *)
Definition refusal (has : bool) (from to : path) (e : errno) (s : fs) : outcome (bool * ecode) fs :=
  if has then Done (false, Some e) s else Failed (FThrow (Some e) [to; from]) s.

Definition later (a b : timespec) : Prop := (tv_sec b < tv_sec a)%Z \/ (tv_sec a = tv_sec b /\ tv_nsec b < tv_nsec a)%Z.

Lemma newer_later : forall a b, newer a b = true <-> later a b.
Proof.
  intros a b. unfold newer, later. destruct (Z.ltb_spec (tv_sec a) (tv_sec b)); [split; [discriminate|lia]|].
  destruct (Z.eqb_spec (tv_sec a) (tv_sec b)); destruct (Z.leb_spec (tv_nsec a) (tv_nsec b)); cbn; split; try discriminate; auto; lia.
Qed.

(** What a copy to [t] leaves: [t] leads to a regular file [j] with the content [d] and the permissions of [i]; every other object
    is as it was, and every other name. *)
Definition copied (k : choices) (s s' : fs) (t : str) (i : N) (d : str) : Prop :=
  exists q j, leads_to k s' t q (NLeaf j) /\ j <> i /\ f_body s' j = BReg d /\
    m_perm (f_meta s' j) = mode_bits (m_perm (f_meta s i)) /\
    (forall x, x <> j -> f_body s' x = f_body s x) /\ (forall x, x <> j -> f_meta s' x = f_meta s x) /\
    (forall r, r <> q -> look (f_root s') r = look (f_root s) r) /\
    (look (f_root s) q = None \/ look (f_root s) q = Some (NLeaf j)) /\ same_process s s'.

(** * The steps of copy_file *)

Lemma file_leads : forall k s t q i d, is_file k s t q i d -> exists l, find_at k s true t = Found l q /\ find_at k s false t = Found l q.
Proof.
  intros k s t q i d (l & F & L & B). exists l. split; auto. unfold find_at, resolve_comps in *. destruct (is_nil t); [discriminate|].
  apply steps_last; auto. intros j Hj. rewrite L in Hj. inversion Hj; subst. unfold link_text. rewrite B. auto.
Qed.

Definition close_in {A} (fd : N) (r : outcome A fs) : outcome A fs :=
  match r with
  | Done a s => Done a (set_fds s (ndelete fd (f_fds s)))
  | Failed e s => if unwinds e then Failed e (set_fds s (ndelete fd (f_fds s))) else Failed e s
  end.

Lemma run_closing : forall A k (p : prog A) fd s, run (fsk k) (scoped p (close_fd fd)) s = close_in fd (run (fsk k) p s).
Proof. intros. rewrite run_scoped. unfold close_in, close_fd. destruct (run (fsk k) p s) as [a s1|e s1]; auto. Qed.

Definition opened_fd (s : fs) (i : N) : fs := new_handle (set_fds s ((f_handle s, (i, 0)) :: f_fds s)).

Lemma run_copy_file : forall cf k s n has from to o q i d, is_file k s (native from) q i d ->
  run (fsk k) (copy_file_impl cf n has from to o) s =
  close_in (f_handle s) (run (fsk k) (copy_file_from cf n has from to o (f_handle s)) (opened_fd s i)).
Proof.
  intros cf k s n has from to o q i d H. pose proof H as (l0 & _ & L & B). destruct (file_leads _ _ _ _ _ _ H) as (l & F & _).
  unfold copy_file_impl. rewrite run_sys. cbn [fsk]. unfold sys_open. rewrite F, L. cbn [new_fd fst snd]. apply run_closing.
Qed.

Lemma node_file : forall k s t q i d, is_file k s t q i d -> node_at s (find_at k s false t) = Val (NLeaf i) /\ node_at s (find_at k s true t) = Val (NLeaf i).
Proof. intros k s t q i d H. destruct (file_leads _ _ _ _ _ _ H) as (l & F1 & F2). destruct H as (_ & _ & L & _). rewrite F1, F2. cbn. rewrite L. auto. Qed.

(** After the checks on the source. *)
Lemma run_copy_from : forall cf k s n has from to o rfd q i d, is_file k s (native from) q i d ->
  run (fsk k) (copy_file_from cf n has from to o rfd) s =
  match node_at s (find_at k s true (native to)) with
  | Err e =>
      if file_type_eqb (st_type (missing_status e)) ft_none then refusal has from to e s
      else run (fsk k) (sys r := c_open (native to) O_WRITE_CREAT (st_mode (stat_of s (NLeaf i))) in
             match r with
             | Err e => report has [to; from] false (Some e)
             | Val wfd => scoped (copy_file_body cf n has from to rfd wfd (stat_of s (NLeaf i)) stat_zero false) (close_fd wfd)
             end) s
  | Val x =>
      if negb (file_type_eqb (type_of s x) ft_regular) then refusal has from to ENOTSUP s
      else if N.eqb (number x) i then refusal has from to EEXIST s
      else if co_set co_skip_existing o then Done (false, None) s
      else if co_set co_update_existing o && negb (newer (m_mtime (f_meta s i)) (m_mtime (f_meta s (number x)))) then Done (false, None) s
      else if negb (co_set co_update_existing o) && negb (co_set co_overwrite_existing o) then refusal has from to EEXIST s
      else run (fsk k) (sys r := c_open (native to) O_WRITE (st_mode (stat_of s (NLeaf i))) in
             match r with
             | Err e => report has [to; from] false (Some e)
             | Val wfd => scoped (copy_file_body cf n has from to rfd wfd (stat_of s (NLeaf i)) (stat_of s x) true) (close_fd wfd)
             end) s
  end.
Proof.
  intros cf k s n has from to o rfd q i d H. destruct (node_file _ _ _ _ _ _ H) as [Hn _]. destruct H as (_ & _ & _ & B).
  assert (Hrep : forall e, run (fsk k) (report has [to; from] false (Some e)) s = refusal has from to e s) by (intros; unfold report, refusal; destruct has; reflexivity).
  unfold copy_file_from, refresh_status. rewrite run_bind, run_GetLinkStatus, Hn. cbn [stat_result failed].
  assert (Hreg : st_is_regular_file (status_of s (NLeaf i)) = true) by (unfold st_is_regular_file, has_type, status_of; cbn [st_type type_of]; rewrite B; reflexivity).
  rewrite Hreg. cbn [negb]. rewrite run_bind, run_GetFileStatus.
  destruct (node_at s (find_at k s true (native to))) as [e|x] eqn:Hto; cbn [stat_result].
  - unfold status_known, st_exists, missing_status. destruct (errno_eqb e ENOENT || errno_eqb e ENOTDIR) eqn:Ee; cbn [st_type status_of_type file_type_eqb negb andb].
    + cbn [status_known st_type status_of_type file_type_eqb negb andb]. unfold status_known. cbn [st_type status_of_type file_type_eqb negb andb orb pbind fst]. reflexivity.
    + apply Hrep.
  - destruct (status_of_exists s x) as [S1 S2]. rewrite S2, S1. cbn [negb andb].
    replace (st_is_regular_file (status_of s x)) with (file_type_eqb (type_of s x) ft_regular) by reflexivity.
    destruct (file_type_eqb (type_of s x) ft_regular); cbn [negb]; [|apply Hrep].
    assert (Heq : stat_equivalent (stat_of s (NLeaf i)) (stat_of s x) = N.eqb (number x) i).
    { unfold stat_equivalent. destruct (stat_of_ino s (NLeaf i)) as [-> ->], (stat_of_ino s x) as [-> ->]. cbn. apply N.eqb_sym. }
    rewrite Heq. destruct (N.eqb (number x) i); [apply Hrep|]. destruct (co_set co_skip_existing o); [reflexivity|].
    assert (Ht1 : st_mtim (stat_of s (NLeaf i)) = m_mtime (f_meta s i)) by reflexivity.
    assert (Ht2 : st_mtim (stat_of s x) = m_mtime (f_meta s (number x))) by (destruct x; reflexivity). rewrite Ht1, Ht2.
    destruct (co_set co_update_existing o); cbn [negb andb orb].
    + cbn [pbind fst snd]. destruct (newer _ _); cbn [negb]; reflexivity.
    + destruct (co_set co_overwrite_existing o); cbn [negb pbind fst snd]; [reflexivity|]. unfold report, refusal. destruct has; reflexivity.
Qed.

(** What can be followed has an entry. *)
Lemma found_entry : forall k s t l q, wf s -> find_at k s true t = Found l q -> exists x, node_at s (find_at k s false t) = Val x.
Proof.
  intros k s t l q Hw H.
  assert (Hf : exists l' q', find_at k s false t = Found l' q').
  { unfold find_at, resolve_comps in *. destruct (is_nil t); [discriminate|].
    destruct (snoc_cases (FS.comps t)) as [E|(cs & n & E)]; rewrite E in *; [rewrite steps_nil in *; eauto|].
    rewrite steps_app in * by discriminate. destruct (steps (look (f_root s)) (link_text s) true (k_links k) (if starts_slash t then [] else f_cwd s) cs) as [l1 q1|? ?|?]; try discriminate.
    rewrite steps_cons in *. destruct (look (f_root s) q1) as [[j|j]|] eqn:L; try discriminate.
    destruct (str_eqb n (lit ".")); [rewrite steps_nil in *; eauto|]. destruct (str_eqb n (lit "..")); [rewrite steps_nil in *; eauto|].
    destruct (look (f_root s) (q1 ++ [n])) as [[v|v]|]; [|rewrite steps_nil in *; eauto|discriminate].
    destruct (link_text s v); cbn; eauto. }
  destruct Hf as (l' & q' & F). destruct (find_found _ _ _ _ _ _ Hw F) as [x Hx]. exists x. rewrite F. cbn. rewrite Hx. auto.
Qed.

Lemma run_body_new : forall cf k s n has from to rfd wfd i j d rest x to_stat, i <> j -> two_fds s wfd rfd j 0 i 0 rest ->
  f_body s i = BReg d -> f_body s j = BReg [] -> length d < n -> node_at s (find_at k s false (native to)) = Val x ->
  exists s' o' o2' d', run (fsk k) (copy_file_body cf n has from to rfd wfd (stat_of s (NLeaf i)) to_stat false) s = Done (true, None) s' /\
    same_but j s s' /\ two_fds s' wfd rfd j o2' i o' rest /\ f_body s' j = BReg d' /\ arrives cf k d d'.
Proof.
  intros cf k s n has from to rfd wfd i j d rest x to_stat Hij Hf Hi Hj Hn Hto. unfold copy_file_body, refresh_status.
  rewrite run_bind, run_GetLinkStatus, Hto. cbn [stat_result snd failed]. rewrite run_bind.
  replace (st_size (stat_of s (NLeaf i))) with (Z.of_nat (length d)) by (cbn; rewrite Hi; reflexivity).
  destruct (run_do_copy cf k d rest i j rfd wfd n s Hij Hf Hi Hj Hn) as (s' & o' & o2' & d' & R1 & R2 & R3 & R4 & R5).
  rewrite R1. cbn [fst run]. exists s', o', o2', d'. auto 10.
Qed.

Lemma run_body_old : forall cf k s n has from to rfd wfd i j d d2 rest y, i <> j -> two_fds s wfd rfd j 0 i 0 rest ->
  f_body s i = BReg d -> f_body s j = BReg d2 -> length d < n -> node_at s (find_at k s false (native to)) = Val y ->
  if N.eqb (number y) j then
    exists s' o' o2' d',
      run (fsk k) (copy_file_body cf n has from to rfd wfd (stat_of s (NLeaf i)) (stat_of s (NLeaf j)) true) s = Done (true, None) s' /\
      same_but j (set_meta s j (with_perm (f_meta s j) (mode_bits (m_perm (f_meta s i))))) s' /\
      two_fds s' wfd rfd j o2' i o' rest /\ f_body s' j = BReg d' /\ (safe_transfer cf k d -> d' = d)
  else run (fsk k) (copy_file_body cf n has from to rfd wfd (stat_of s (NLeaf i)) (stat_of s (NLeaf j)) true) s = refusal has from to EBADF s.
Proof.
  intros cf k s n has from to rfd wfd i j d d2 rest y Hij Hf Hi Hj Hn Hto.
  assert (Hrun : run (fsk k) (copy_file_body cf n has from to rfd wfd (stat_of s (NLeaf i)) (stat_of s (NLeaf j)) true) s =
    if N.eqb (number y) j then
      match run (fsk k) (do_copy_file cf n rfd wfd (Z.of_nat (length d)))
              (set_body (set_meta s j (with_perm (f_meta s j) (mode_bits (m_perm (f_meta s i))))) j (BReg [])) with
      | Done c s1 => if fst c then Done (true, None) s1 else run (fsk k) (report has [to; from] false (snd c)) s1
      | Failed e s1 => Failed e s1
      end
    else refusal has from to EBADF s).
  { unfold copy_file_body, refresh_status. rewrite run_bind, run_GetLinkStatus, Hto. cbn [stat_result fst snd failed].
    assert (Heq : stat_equivalent (stat_of s (NLeaf j)) (stat_of s y) = N.eqb (number y) j).
    { unfold stat_equivalent. destruct (stat_of_ino s (NLeaf j)) as [-> ->], (stat_of_ino s y) as [-> ->]. cbn. apply N.eqb_sym. }
    rewrite Heq. destruct (N.eqb (number y) j); cbn [negb]; [|unfold report, refusal; destruct has; reflexivity].
    destruct Hf as [Hfd Hf]. rewrite run_sys. cbn [fsk]. unfold with_fd. rewrite Hf. cbn [nassoc]. rewrite N.eqb_refl. cbn [fst snd].
    rewrite run_sys. cbn [fsk]. unfold with_fd. cbn [f_fds set_meta]. rewrite Hf. cbn [nassoc]. rewrite N.eqb_refl.
    unfold resize_obj. cbn [f_body set_meta]. rewrite Hj. cbn [fst snd Z.ltb Z.compare Z.to_nat].
    replace (resized d2 0) with (@nil ascii) by reflexivity. rewrite run_bind.
    replace (st_size (stat_of s (NLeaf i))) with (Z.of_nat (length d)) by (cbn; rewrite Hi; reflexivity).
    replace (mode_bits (st_mode (stat_of s (NLeaf i)))) with (mode_bits (m_perm (f_meta s i))).
    - destruct (run _ (do_copy_file _ _ _ _ _) _) as [c s1|e s1]; auto. destruct (fst c); reflexivity.
    - rewrite stat_of_mode. cbn [number]. rewrite (mode_bits_mod (_ + _)).
      rewrite (proj2 (div_mode _ _ (mode_bits_lt (m_perm (f_meta s i))))). reflexivity. }
  destruct (N.eqb (number y) j); [|exact Hrun].
  destruct (run_do_copy cf k d rest i j rfd wfd n (set_body (set_meta s j (with_perm (f_meta s j) (mode_bits (m_perm (f_meta s i))))) j (BReg []))
    Hij) as (s' & o' & o2' & d' & R1 & R2 & R3 & R4 & R5 & _); auto.
  { cbn. unfold upd. rewrite (proj2 (N.eqb_neq i j) Hij). auto. }
  { cbn. unfold upd. rewrite N.eqb_refl. auto. }
  rewrite R1 in Hrun. cbn [fst] in Hrun. exists s', o', o2', d'. split; [auto|]. split; [|auto].
  destruct R2 as (A1 & A2 & A3 & A4 & A5 & A6 & A7 & A8). repeat split; auto. intros x Hx. rewrite A8; auto. cbn. unfold upd. rewrite (proj2 (N.eqb_neq x j) Hx). auto.
Qed.

Lemma same_but_extends : forall s s' j d d', (forall x, x <> j -> f_body s' x = f_body s x) -> f_root s' = f_root s -> f_cwd s' = f_cwd s ->
  f_body s j = BReg d -> f_body s' j = BReg d' -> extends s s'.
Proof.
  intros s s' j d d' Hb Hr Hc H1 H2. split; [|split]; auto.
  - intros q x. rewrite Hr. auto.
  - intros q i _. unfold link_text. destruct (N.eq_dec i j) as [->|Hx]; [rewrite H1, H2; auto|rewrite Hb; auto].
Qed.

Lemma is_file_opened : forall k s t q i d x, is_file k s t q i d -> is_file k (opened_fd s x) t q i d.
Proof. intros k s t q i d x H. exact H. Qed.

Lemma is_file_number : forall k s t q i d, is_file k s t q i d -> forall j d2 y, f_body s j = BReg d2 -> node_at s (find_at k s true t) = Val (NLeaf j) ->
  node_at s (find_at k s false t) = Val y -> y = NLeaf j.
Proof. intros k s t q i d H j d2 y _ H1 H2. destruct (node_file _ _ _ _ _ _ H) as [N1 N2]. congruence. Qed.

(** Copying over an existing file. *)
Lemma run_copy_old : forall cf k s n has from to o q i d j d2, wf s -> is_file k s (native from) q i d -> length d < n ->
  node_at s (find_at k s true (native to)) = Val (NLeaf j) -> f_body s j = BReg d2 -> j <> i -> co_set co_skip_existing o = false ->
  (if co_set co_update_existing o then later (m_mtime (f_meta s i)) (m_mtime (f_meta s j)) else co_set co_overwrite_existing o = true) ->
  (forall y, node_at s (find_at k s false (native to)) = Val y -> number y <> j ->
    exists s', run (fsk k) (copy_file_impl cf n has from to o) s = refusal has from to EBADF s' /\ same_state s s') /\
  (node_at s (find_at k s false (native to)) = Val (NLeaf j) ->
    exists s' d', run (fsk k) (copy_file_impl cf n has from to o) s = Done (true, None) s' /\ copied k s s' (native to) i d' /\
      (safe_transfer cf k d -> d' = d) /\ f_root s' = f_root s /\ f_next s' = f_next s /\
      find_at k s' true (native to) = find_at k s true (native to)).
Proof.
  intros cf k s n has from to o q i d j d2 Hw Hfrom Hn Hto Hj Hij Hskip Hdec.
  assert (Hrun : exists w, w = opened_fd (opened_fd s i) j /\ run (fsk k) (copy_file_impl cf n has from to o) s =
    close_in (f_handle s) (close_in (f_handle s + 1) (run (fsk k)
      (copy_file_body cf n has from to (f_handle s) (f_handle s + 1) (stat_of s (NLeaf i)) (stat_of s (NLeaf j)) true) w))).
  { exists (opened_fd (opened_fd s i) j). split; auto. rewrite (run_copy_file _ _ _ _ _ _ _ _ _ _ _ Hfrom). f_equal.
    rewrite (run_copy_from cf k (opened_fd s i) n has from to o (f_handle s) q i d Hfrom).
    change (node_at (opened_fd s i) (find_at k (opened_fd s i) true (native to))) with (node_at s (find_at k s true (native to))). rewrite Hto.
    assert (Hreg : type_of (opened_fd s i) (NLeaf j) = ft_regular) by (cbn; rewrite Hj; reflexivity). rewrite Hreg. cbn [file_type_eqb negb number].
    rewrite (proj2 (N.eqb_neq j i) Hij), Hskip.
    change (f_meta (opened_fd s i)) with (f_meta s).
    replace (co_set co_update_existing o && negb (newer (m_mtime (f_meta s i)) (m_mtime (f_meta s j)))) with false
      by (destruct (co_set co_update_existing o); auto; apply newer_later in Hdec; rewrite Hdec; auto).
    replace (negb (co_set co_update_existing o) && negb (co_set co_overwrite_existing o)) with false
      by (destruct (co_set co_update_existing o); auto; rewrite Hdec; auto).
    rewrite run_sys. cbn [fsk]. unfold sys_open.
    change (find_at k (opened_fd s i) true (native to)) with (find_at k s true (native to)).
    destruct (find_at k s true (native to)) as [l p|? ?|?]; try discriminate. cbn [node_at] in Hto.
    change (f_root (opened_fd s i)) with (f_root s). destruct (look (f_root s) p) as [x|]; [|discriminate]. inversion Hto; subst x.
    cbn [new_fd fst snd]. rewrite run_closing. reflexivity. }
  destruct Hrun as (w & Ew & Hrun).
  assert (Hfd : two_fds w (f_handle s + 1) (f_handle s) j 0 i 0 (f_fds s)). { subst w. split; [lia|reflexivity]. }
  assert (Hbi : f_body w i = BReg d) by (subst w; destruct Hfrom as (? & ? & ? & ?); auto).
  assert (Hbj : f_body w j = BReg d2) by (subst w; auto).
  assert (Hsi : stat_of s (NLeaf i) = stat_of w (NLeaf i)) by (subst w; reflexivity).
  assert (Hsj : stat_of s (NLeaf j) = stat_of w (NLeaf j)) by (subst w; reflexivity).
  assert (Hfind : forall last, find_at k w last (native to) = find_at k s last (native to)) by (subst w; reflexivity).
  assert (Hnode : forall p, node_at w p = node_at s p) by (subst w; reflexivity).
  assert (Hframe : f_root w = f_root s /\ f_meta w = f_meta s /\ f_next w = f_next s /\ f_cwd w = f_cwd s /\ f_dirs w = f_dirs s /\ f_env w = f_env s /\ f_body w = f_body s).
  { subst w. repeat split. }
  clear Ew. rewrite Hsi, Hsj in Hrun. split.
  - intros y Hy Hyj. pose proof (run_body_old cf k w n has from to _ _ i j d d2 (f_fds s) y (not_eq_sym Hij) Hfd Hbi Hbj Hn) as H.
    rewrite Hfind, Hnode in H. specialize (H Hy). rewrite (proj2 (N.eqb_neq _ _) Hyj) in H. rewrite H in Hrun.
    destruct Hfd as [Hne Hf]. eexists. split.
    + rewrite Hrun. unfold refusal. destruct has; cbn [close_in unwinds]; rewrite ?Hf; cbn [f_fds set_fds ndelete]; rewrite ?Hf; cbn [ndelete]; rewrite N.eqb_refl; cbn [f_fds set_fds ndelete]; rewrite N.eqb_refl; reflexivity.
    + destruct Hframe as (F1 & F2 & F3 & F4 & F5 & F6 & F7). repeat split; cbn; auto.
  - intros Hy. pose proof (run_body_old cf k w n has from to _ _ i j d d2 (f_fds s) (NLeaf j) (not_eq_sym Hij) Hfd Hbi Hbj Hn) as H.
    rewrite Hfind, Hnode in H. specialize (H Hy). cbn [number] in H. rewrite N.eqb_refl in H.
    destruct H as (s3 & o1 & o2 & d' & R1 & (A1 & A2 & A3 & A4 & A5 & A6 & A7 & A8) & [Hne Hf] & R4 & R5). rewrite R1 in Hrun. cbn [close_in] in Hrun. rewrite Hf in Hrun.
    cbn [ndelete f_fds set_fds] in Hrun. rewrite N.eqb_refl in Hrun. cbn [ndelete] in Hrun. rewrite N.eqb_refl in Hrun.
    destruct Hframe as (F1 & F2 & F3 & F4 & F5 & F6 & F7).
    eexists. exists d'. split; [exact Hrun|].
    cbn [f_root f_body f_meta f_cwd set_meta] in A1, A2, A4, A5, A7, A8.
    match goal with |- copied _ _ ?x _ _ _ /\ _ => set (s' := x) end.
    assert (Hb : forall x, x <> j -> f_body s' x = f_body s x). { intros x Hx. cbn. rewrite A8 by auto. rewrite F7. auto. }
    destruct (find_at k s true (native to)) as [l p|? ?|?] eqn:Hp; try discriminate. cbn [node_at] in Hto.
    destruct (look (f_root s) p) as [x|] eqn:Lp; [|discriminate]. inversion Hto; subst x.
    assert (Hlead : find_at k s' true (native to) = Found l p).
    { eapply find_extends; [|exact Hp].
      apply (same_but_extends s s' j d2 d'); auto. { cbn. rewrite A1. auto. } { cbn. rewrite A4. auto. } }
    split; [|split; [auto|split; [cbn; rewrite A1; exact F1|split; [cbn; rewrite A3; exact F3|exact Hlead]]]].
    exists p, j. split; [|split; [|split; [|split; [|split; [|split; [|split; [|split]]]]]]]; auto.
    + exists l. split; [exact Hlead|cbn; rewrite A1, F1; auto].
    + cbn. rewrite A2. unfold upd. rewrite N.eqb_refl. cbn. rewrite F2. auto.
    + intros x Hx. cbn. rewrite A2. unfold upd. rewrite (proj2 (N.eqb_neq x j) Hx), F2. auto.
    + intros r _. cbn. rewrite A1, F1. auto.
    + repeat split; cbn; rewrite ?A4, ?A5, ?A7; auto.
Qed.

(** Copying to a new file. *)
Lemma run_copy_new_arrives : forall cf k s n has from to o q i d p m, wf s -> is_file k s (native from) q i d -> length d < n ->
  find_at k s true (native to) = Missing p m ->
  exists s' d', run (fsk k) (copy_file_impl cf n has from to o) s = Done (true, None) s' /\ copied k s s' (native to) i d' /\
    leads_to k s' (native to) (p ++ [m]) (NLeaf (f_next s)) /\ look (f_root s) (p ++ [m]) = None /\ arrives cf k d d' /\
    f_root s' = insert_at p m (Leaf (f_next s)) (f_root s) /\ f_next s' = (f_next s + 1)%N.
Proof.
  intros cf k s n has from to o q i d p m Hw Hfrom Hn Hto.
  pose proof (find_missing _ _ _ _ _ _ Hto) as (di & dl & G1 & G2 & G3).
  set (s1 := opened_fd s i).
  set (mode := mode_bits (st_mode (stat_of s (NLeaf i)))).
  set (mk := set_body (make k s1 p m (Leaf (f_next s1)) mode 1) (f_next s1) (BReg [])).
  set (w := opened_fd mk (f_next s1)).
  assert (Hw1 : wf s1) by (eapply wf_unchanged; [exact Hw|reflexivity|reflexivity]).
  destruct (make_leaf_look k s1 p m (BReg []) mode 1 di dl Hw1 G1 G2) as (K1 & K2 & K3 & K4 & K5 & K6 & K7 & K8). fold mk in K1, K2, K3, K4, K5, K6, K7, K8.
  assert (Hwf : wf w).
  { pose proof (wf_step k (c_open (native to) O_WRITE_CREAT (st_mode (stat_of s (NLeaf i)))) s1 Hw1) as H. cbn [fsk] in H. unfold sys_open in H.
    change (find_at k s1 true (native to)) with (find_at k s true (native to)) in H. rewrite Hto in H. exact H. }
  assert (Hrun : run (fsk k) (copy_file_impl cf n has from to o) s =
    close_in (f_handle s) (close_in (f_handle s + 1) (run (fsk k)
      (copy_file_body cf n has from to (f_handle s) (f_handle s + 1) (stat_of s (NLeaf i)) stat_zero false) w))).
  { rewrite (run_copy_file _ _ _ _ _ _ _ _ _ _ _ Hfrom). f_equal. fold s1.
    rewrite (run_copy_from cf k s1 n has from to o (f_handle s) q i d Hfrom).
    change (node_at s1 (find_at k s1 true (native to))) with (node_at s (find_at k s true (native to))). rewrite Hto. cbn [node_at].
    change (file_type_eqb (st_type (missing_status ENOENT)) ft_none) with false. cbn iota.
    rewrite run_sys. cbn [fsk]. unfold sys_open.
    change (find_at k s1 true (native to)) with (find_at k s true (native to)). rewrite Hto. cbn [new_fd fst snd]. rewrite run_closing. reflexivity. }
  assert (Hi : (i < f_next s)%N) by (destruct Hfrom as (? & ? & L & ?); eapply look_fresh; eauto).
  assert (Hne : i <> f_next s) by lia.
  assert (Hfd : two_fds w (f_handle s + 1) (f_handle s) (f_next s) 0 i 0 (f_fds s)) by (split; [lia|reflexivity]).
  assert (Hbi : f_body w i = BReg d).
  { destruct Hfrom as (? & ? & ? & B). change (f_body w i) with (f_body mk i). rewrite K5; auto. }
  assert (Hbj : f_body w (f_next s) = BReg []) by exact K2.
  assert (Hfound : exists l, find_at k w true (native to) = Found l (p ++ [m])).
  { change (find_at k w true (native to)) with (find_at k mk true (native to)). unfold find_at.
    eapply resolve_fill; [exact K4|exact Hto|exact K1|]. intros j Hj. left. inversion Hj; subst. unfold link_text. change (f_next s1) with (f_next s) in K2. rewrite K2. auto. }
  destruct Hfound as [l Hfound]. destruct (found_entry _ _ _ _ _ Hwf Hfound) as [y Hy].
  assert (Hst : stat_of s (NLeaf i) = stat_of w (NLeaf i)).
  { unfold stat_of. change (f_meta w i) with (f_meta mk i). rewrite K6 by exact Hi. rewrite Hbi. destruct Hfrom as (? & ? & ? & ->). reflexivity. }
  rewrite Hst in Hrun.
  destruct (run_body_new cf k w n has from to _ _ i (f_next s) d (f_fds s) y stat_zero Hne Hfd Hbi Hbj Hn Hy)
    as (s3 & o1 & o2 & d' & R1 & (A1 & A2 & A3 & A4 & A5 & A6 & A7 & A8) & [_ Hf] & R4 & R5). rewrite R1 in Hrun. cbn [close_in] in Hrun. rewrite Hf in Hrun.
  cbn [ndelete f_fds set_fds] in Hrun. rewrite N.eqb_refl in Hrun. cbn [ndelete] in Hrun. rewrite N.eqb_refl in Hrun.
  eexists. exists d'. split; [exact Hrun|]. match goal with |- copied _ _ ?x _ _ _ /\ _ => set (s' := x) end.
  assert (Hleads : leads_to k s' (native to) (p ++ [m]) (NLeaf (f_next s))).
  { exists l. split.
    - eapply find_extends; [|exact Hfound]. apply (same_but_extends w s' (f_next s) [] d'); auto.
    - cbn. rewrite A1. exact K1. }
  assert (Hnone : look (f_root s) (p ++ [m]) = None). { apply look_None. rewrite get_snoc, G1. auto. }
  split; [|split; [auto|split; [auto|split; [auto|split; [cbn; rewrite A1; reflexivity|cbn; rewrite A3; reflexivity]]]]].
  exists (p ++ [m]), (f_next s). split; [auto|]. split; [auto|]. split; [auto|].
  assert (Hbs : forall x, x <> f_next s -> f_body s' x = f_body s x).
  { intros x Hx. cbn. rewrite A8 by auto. cbn. unfold upd. rewrite (proj2 (N.eqb_neq x _) Hx). auto. }
  split; [|split; [auto|split; [|split; [|split; [auto|]]]]].
  - cbn. rewrite A2. change (f_meta w (f_next s)) with (f_meta mk (f_next s1)). rewrite K7. cbn. unfold mode.
    rewrite stat_of_mode. cbn [number]. rewrite (mode_bits_mod (_ + _)). rewrite (proj2 (div_mode _ _ (mode_bits_lt (m_perm (f_meta s i))))). reflexivity.
  - intros x Hx. cbn. rewrite A2. cbn. unfold upd. rewrite (proj2 (N.eqb_neq x _) Hx). auto.
  - intros r Hr. cbn. rewrite A1. change (f_root w) with (f_root mk).
    destruct (below (p ++ [m]) r) eqn:B; [|apply K3; auto]. apply below_spec in B as [u ->]. destruct u as [|a u]; [rewrite app_nil_r in Hr; congruence|].
    assert (N1 : look (f_root s) ((p ++ [m]) ++ a :: u) = None).
    { destruct (look (f_root s) ((p ++ [m]) ++ a :: u)) eqn:N; auto. destruct (look_prefix _ _ _ _ N ltac:(discriminate)). congruence. }
    rewrite N1. apply look_None. rewrite get_app. apply look_leaf in K1. change (get (f_root mk) (p ++ [m])) with (get (f_root mk) (p ++ [m])). rewrite K1. reflexivity.
  - repeat split; cbn; rewrite ?A4, ?A5, ?A7; auto.
Qed.
Lemma run_copy_new_root : forall cf k s n has from to o q i d p m, wf s -> is_file k s (native from) q i d -> length d < n ->
  find_at k s true (native to) = Missing p m ->
  exists s' d', run (fsk k) (copy_file_impl cf n has from to o) s = Done (true, None) s' /\ copied k s s' (native to) i d' /\
    leads_to k s' (native to) (p ++ [m]) (NLeaf (f_next s)) /\ look (f_root s) (p ++ [m]) = None /\ (safe_transfer cf k d -> d' = d) /\
    f_root s' = insert_at p m (Leaf (f_next s)) (f_root s) /\ f_next s' = (f_next s + 1)%N.
Proof.
  intros cf k s n has from to o q i d p m Hw Hfrom Hn Hto.
  destruct (run_copy_new_arrives cf k s n has from to o q i d p m Hw Hfrom Hn Hto) as (s' & d' & H1 & H2 & H3 & H4 & [H5 _] & H6). exists s', d'. auto 10.
Qed.

Lemma run_copy_new : forall cf k s n has from to o q i d p m, wf s -> is_file k s (native from) q i d -> length d < n ->
  find_at k s true (native to) = Missing p m ->
  exists s' d', run (fsk k) (copy_file_impl cf n has from to o) s = Done (true, None) s' /\ copied k s s' (native to) i d' /\
    leads_to k s' (native to) (p ++ [m]) (NLeaf (f_next s)) /\ look (f_root s) (p ++ [m]) = None /\ (safe_transfer cf k d -> d' = d).
Proof.
  intros cf k s n has from to o q i d p m Hw Hfrom Hn Hto.
  destruct (run_copy_new_root cf k s n has from to o q i d p m Hw Hfrom Hn Hto) as (s' & d' & H1 & H2 & H3 & H4 & H5 & _). exists s', d'. auto.
Qed.

(** A source that is not a regular file: nothing changes. *)
Lemma run_copy_bad_source : forall cf k s n has from to o, wf s -> (forall q i d, ~ is_file k s (native from) q i d) ->
  exists e s', run (fsk k) (copy_file_impl cf n has from to o) s = refusal has from to e s' /\ same_state s s' /\
    forall q x, leads_to k s (native from) q x -> e = ENOTSUP.
Proof.
  intros cf k s n has from to o Hw Hnot.
  assert (Hrep : forall e s, run (fsk k) (report has [to; from] false (Some e)) s = refusal has from to e s) by (intros; unfold report, refusal; destruct has; reflexivity).
  unfold copy_file_impl. rewrite run_sys. cbn [fsk]. unfold sys_open.
  destruct (find_at k s true (native from)) as [l p|p m|e] eqn:F.
  - destruct (found_entry _ _ _ _ _ Hw F) as [y Hy].
    destruct (find_found _ _ _ _ _ _ Hw F) as [x0 Lx0]. rewrite Lx0.
    assert (Hx : (match x0 with NDir i => new_fd s i | NLeaf i => new_fd s i end) = (Val (f_handle s), opened_fd s (number x0))) by (destruct x0; reflexivity).
    rewrite Hx. cbn [fst snd]. rewrite run_closing. unfold copy_file_from, refresh_status. rewrite run_bind, run_GetLinkStatus.
    change (node_at (opened_fd s (number x0)) (find_at k (opened_fd s (number x0)) false (native from))) with (node_at s (find_at k s false (native from))).
    rewrite Hy. cbn [stat_result failed].
    assert (Hreg : st_is_regular_file (status_of (opened_fd s (number x0)) y) = false).
    { unfold st_is_regular_file, has_type, status_of. cbn [st_type]. change (type_of (opened_fd s (number x0)) y) with (type_of s y).
      destruct y as [i|i]; [|reflexivity]. cbn [type_of]. destruct (f_body s i) as [d|t|sp] eqn:B; [|reflexivity|destruct sp; reflexivity]. exfalso.
      destruct (find_at k s false (native from)) as [l2 q|? ?|?] eqn:F2; try discriminate. cbn [node_at] in Hy.
      destruct (look (f_root s) q) as [z|] eqn:Lz; [|discriminate]. inversion Hy; subst z. apply (Hnot q i d). exists l2. auto. }
    rewrite Hreg. cbn [negb]. rewrite Hrep. exists ENOTSUP. unfold refusal.
    assert (Hs : same_state s (set_fds (opened_fd s (number x0)) (ndelete (f_handle s) (f_fds (opened_fd s (number x0)))))).
    { split; [reflexivity|]. split; [reflexivity|]. split; [reflexivity|]. split; [reflexivity|]. split; [reflexivity|]. split; [|split; reflexivity].
      cbn. rewrite N.eqb_refl. reflexivity. }
    destruct has; cbn [close_in unwinds]; eexists; (split; [reflexivity|]); (split; [exact Hs|]); auto.
  - cbn [fst snd]. rewrite Hrep. exists ENOENT, s. split; [auto|]. split; [repeat split|]. intros q x (l & G & _). congruence.
  - cbn [fst snd]. rewrite Hrep. exists e, s. split; [auto|]. split; [repeat split|]. intros q x (l & G & _). congruence.
Qed.

(** A destination that is refused or left alone. *)
Lemma run_copy_kept : forall cf k s n has from to o q i d r, is_file k s (native from) q i d ->
  run (fsk k) (copy_file_from cf n has from to o (f_handle s)) (opened_fd s i) = r (opened_fd s i) ->
  (exists e, r = refusal has from to e) \/ r = Done (false, None) ->
  exists s', run (fsk k) (copy_file_impl cf n has from to o) s = r s' /\ same_state s s'.
Proof.
  intros cf k s n has from to o q i d r Hfrom H Hr. rewrite (run_copy_file _ _ _ _ _ _ _ _ _ _ _ Hfrom), H.
  exists (set_fds (opened_fd s i) (ndelete (f_handle s) (f_fds (opened_fd s i)))). split.
  - destruct Hr as [[e ->]| ->]; [unfold refusal; destruct has|]; reflexivity.
  - split; [reflexivity|]. split; [reflexivity|]. split; [reflexivity|]. split; [reflexivity|]. split; [reflexivity|]. split; [|split; reflexivity].
    cbn. rewrite N.eqb_refl. reflexivity.
Qed.

(** * C31: the decision table *)

(** The options a caller combines. *)
Definition options (l : list copt_name) : N := FlagsModel.combine width_copy_options copt_value l.

Lemma options_set : forall l c, co_set c (options l) = true <-> In c l.
Proof. intros l c. apply (proj1 C54_options_seen). Qed.

Lemma options_unset : forall l c, co_set c (options l) = false <-> ~ In c l.
Proof. intros l c. rewrite <- (options_set l c). destruct (co_set c (options l)); split; intros H; auto; try discriminate; exfalso; auto. Qed.

(** [t], symlinks followed, names the missing entry [m] of the directory at [p]. *)
Definition leads_nowhere (k : choices) (s : fs) (t : str) (p : loc) (m : str) : Prop := find_at k s true t = Missing p m.

(** Refused with [e], or done with nothing to do; in both cases everything is as it was. *)
Definition refuses (k : choices) (s : fs) (c : bool -> prog (bool * ecode)) (has : bool) (from to : path) (e : errno) : Prop :=
  exists s', run (fsk k) (c has) s = refusal has from to e s' /\ same_state s s'.
Definition declines (k : choices) (s : fs) (c : bool -> prog (bool * ecode)) (has : bool) : Prop :=
  exists s', run (fsk k) (c has) s = Done (false, None) s' /\ same_state s s'.
(** Done, with a copy of [i] at [to]. (What its content is, is the subject of C30.) *)
Definition copies (k : choices) (s : fs) (c : bool -> prog (bool * ecode)) (has : bool) (to : path) (i : N) : Prop :=
  exists s' d', run (fsk k) (c has) s = Done (true, None) s' /\ copied k s s' (native to) i d'.

(** The table, when the destination is not a symlink to a file that would be overwritten, and for any number of options. What is
    missing from the property: several existing-file options are not refused (C31_options_refuted). *)
Theorem C31_table_partial : forall cf k s n has from to l, wf s -> let c has := copy_file_impl cf n has from to (options l) in
  ((forall q i d, ~ is_file k s (native from) q i d) ->
     exists e, refuses k s c has from to e /\ forall q x, leads_to k s (native from) q x -> e = ENOTSUP) /\
  (forall q i d, is_file k s (native from) q i d -> length d < n ->
     (forall p m, leads_nowhere k s (native to) p m -> copies k s c has to i /\ look (f_root s) (p ++ [m]) = None) /\
     (forall e, find_at k s true (native to) = Fail e -> refuses k s c has from to e) /\
     (forall q2 x, leads_to k s (native to) q2 x ->
        (type_of s x <> ft_regular -> refuses k s c has from to ENOTSUP) /\
        (x = NLeaf i -> refuses k s c has from to EEXIST)) /\
     (forall q2 j d2, leads_to k s (native to) q2 (NLeaf j) -> f_body s j = BReg d2 -> j <> i ->
        (In co_skip_existing l -> declines k s c has) /\
        (In co_update_existing l -> ~ later (m_mtime (f_meta s i)) (m_mtime (f_meta s j)) -> declines k s c has) /\
        (~ In co_skip_existing l -> ~ In co_update_existing l -> ~ In co_overwrite_existing l -> refuses k s c has from to EEXIST)) /\
     (forall q2 j d2, is_file k s (native to) q2 j d2 -> j <> i -> ~ In co_skip_existing l ->
        (In co_update_existing l -> later (m_mtime (f_meta s i)) (m_mtime (f_meta s j)) -> copies k s c has to i) /\
        (In co_overwrite_existing l -> ~ In co_update_existing l -> copies k s c has to i))).
Proof.
  intros cf k s n has from to l Hw c. split.
  { intros Hnot. destruct (run_copy_bad_source cf k s n has from to (options l) Hw Hnot) as (e & s' & H1 & H2 & H3). exists e. split; [exists s'; auto|auto]. }
  intros q i d Hfrom Hn.
  pose proof (run_copy_from cf k (opened_fd s i) n has from to (options l) (f_handle s) q i d Hfrom) as HF.
  change (node_at (opened_fd s i) (find_at k (opened_fd s i) true (native to))) with (node_at s (find_at k s true (native to))) in HF.
  change (f_meta (opened_fd s i)) with (f_meta s) in HF.
  assert (Hkept : forall r, run (fsk k) (copy_file_from cf n has from to (options l) (f_handle s)) (opened_fd s i) = r (opened_fd s i) ->
    (exists e, r = refusal has from to e) \/ r = Done (false, None) -> exists s', run (fsk k) (c has) s = r s' /\ same_state s s').
  { intros r H1 H2. eapply run_copy_kept; eauto. }
  split; [|split; [|split; [|split]]].
  - intros p m Hm. destruct (run_copy_new cf k s n has from to (options l) q i d p m Hw Hfrom Hn Hm) as (s' & d' & R1 & R2 & R3 & R4 & R5).
    split; [exists s', d'; auto|auto].
  - intros e He. apply (Hkept (refusal has from to e)); [|left; eauto]. rewrite HF, He. cbn [node_at].
    destruct (file_type_eqb (st_type (missing_status e)) ft_none); [reflexivity|]. rewrite run_sys. cbn [fsk]. unfold sys_open.
    change (find_at k (opened_fd s i) true (native to)) with (find_at k s true (native to)). rewrite He. cbn [fst snd]. unfold report, refusal. destruct has; reflexivity.
  - intros q2 x (lk & F & L). rewrite F in HF. cbn [node_at] in HF. rewrite L in HF. change (type_of (opened_fd s i) x) with (type_of s x) in HF. split.
    + intros Ht. apply (Hkept (refusal has from to ENOTSUP)); [|left; eauto]. rewrite HF.
      destruct (file_type_eqb (type_of s x) ft_regular) eqn:E; [|reflexivity]. exfalso. apply Ht. destruct (type_of s x); try discriminate; auto.
    + intros ->. apply (Hkept (refusal has from to EEXIST)); [|left; eauto]. rewrite HF.
      assert (Ht : type_of s (NLeaf i) = ft_regular) by (cbn; destruct Hfrom as (? & ? & ? & ->); auto). rewrite Ht. cbn [file_type_eqb negb number].
      rewrite N.eqb_refl. reflexivity.
  - intros q2 j d2 (lk & F & L) B Hij. rewrite F in HF. cbn [node_at] in HF. rewrite L in HF. change (type_of (opened_fd s i) (NLeaf j)) with (type_of s (NLeaf j)) in HF.
    assert (Ht : type_of s (NLeaf j) = ft_regular) by (cbn; rewrite B; auto). rewrite Ht in HF. cbn [file_type_eqb negb number] in HF.
    rewrite (proj2 (N.eqb_neq j i) Hij) in HF. split; [|split].
    + intros H. apply options_set in H. apply (Hkept (Done (false, None))); auto. rewrite HF, H. reflexivity.
    + intros H Hl. apply options_set in H. apply (Hkept (Done (false, None))); auto. rewrite HF, H. destruct (co_set co_skip_existing (options l)); auto.
      destruct (newer (m_mtime (f_meta s i)) (m_mtime (f_meta s j))) eqn:E; [apply newer_later in E; contradiction|reflexivity].
    + intros H1 H2 H3. apply options_unset in H1, H2, H3. apply (Hkept (refusal has from to EEXIST)); [|left; eauto]. rewrite HF, H1, H2, H3. reflexivity.
  - intros q2 j d2 Hto Hij Hs. destruct (node_file _ _ _ _ _ _ Hto) as [N1 N2]. pose proof Hto as (_ & _ & _ & B). apply options_unset in Hs. split.
    + intros Hu Hl. apply options_set in Hu. destruct (run_copy_old cf k s n has from to (options l) q i d j d2 Hw Hfrom Hn N2 B Hij Hs) as [_ H]; [rewrite Hu; auto|].
      destruct (H N1) as (s' & d' & R1 & R2 & R3). exists s', d'. auto.
    + intros Ho Hu. apply options_set in Ho. apply options_unset in Hu. destruct (run_copy_old cf k s n has from to (options l) q i d j d2 Hw Hfrom Hn N2 B Hij Hs) as [_ H]; [rewrite Hu; auto|].
      destruct (H N1) as (s' & d' & R1 & R2 & R3). exists s', d'. auto.
Qed.

(** Several existing-file options, which is not refused, in any state: with skip_existing the file is skipped whatever else is asked for,
    with update_existing and overwrite_existing a file that is not older is left alone. *)
Theorem C31_options_refuted : forall cf k s n has from to l q i d q2 j d2, wf s ->
  is_file k s (native from) q i d -> length d < n -> leads_to k s (native to) q2 (NLeaf j) -> f_body s j = BReg d2 -> j <> i ->
  let c has := copy_file_impl cf n has from to (options l) in
  (In co_skip_existing l -> In co_overwrite_existing l \/ In co_update_existing l -> declines k s c has) /\
  (In co_update_existing l -> In co_overwrite_existing l -> ~ later (m_mtime (f_meta s i)) (m_mtime (f_meta s j)) -> declines k s c has).
Proof.
  intros cf k s n has from to l q i d q2 j d2 Hw Hfrom Hn Hto B Hij c.
  destruct (C31_table_partial cf k s n has from to l Hw) as [_ H]. destruct (H q i d Hfrom Hn) as (_ & _ & _ & H3 & _).
  destruct (H3 q2 j d2 Hto B Hij) as (A1 & A2 & _). split; auto.
Qed.
Example C31_options_example : is_file demo_choices demo (lit "f") [lit "a"; lit "f"] 3 (lit "hello") /\ is_file demo_choices demo (lit "d/g") [lit "a"; lit "d"; lit "g"] 6 [] /\
  exists s', run (fsk demo_choices) (copy_file_impl plain_config 20 false (topath (lit "f")) (topath (lit "d/g")) (options [co_overwrite_existing; co_skip_existing])) demo = Done (false, None) s'.
Proof. split; [exists 40; repeat split|]. split; [exists 40; repeat split|]. eexists. vm_compute. reflexivity. Qed.

(** An existing file reached through a symlink is not overwritten: the call fails with bad_file_descriptor, always. *)
Theorem C31_symlink_refuted : forall cf k s n has from to q i d q2 j d2, wf s ->
  is_file k s (native from) q i d -> length d < n -> leads_to k s (native to) q2 (NLeaf j) -> f_body s j = BReg d2 -> j <> i ->
  (forall r d3, ~ is_file k s (native to) r j d3) ->
  refuses k s (fun has => copy_file_impl cf n has from to (options [co_overwrite_existing])) has from to EBADF.
Proof.
  intros cf k s n has from to q i d q2 j d2 Hw Hfrom Hn (lk & F & L) B Hij Hnot.
  assert (N2 : node_at s (find_at k s true (native to)) = Val (NLeaf j)) by (rewrite F; cbn; rewrite L; auto).
  destruct (run_copy_old cf k s n has from to (options [co_overwrite_existing]) q i d j d2 Hw Hfrom Hn N2 B Hij) as [H _]; [reflexivity|reflexivity|].
  destruct (found_entry _ _ _ _ _ Hw F) as [y Hy]. apply (H y Hy). intros Hyj.
  destruct (find_at k s false (native to)) as [l2 r|? ?|?] eqn:F2; try discriminate. cbn [node_at] in Hy.
  destruct (look (f_root s) r) as [z|] eqn:Lz; [|discriminate]. inversion Hy; subst z.
  destruct y as [y|y]; cbn [number] in Hyj; subst y; [apply (Hnot r d2); exists l2; auto|].
  assert (F3 : find_at k s true (native to) = Found l2 r).
  { unfold find_at, resolve_comps in F2 |- *. destruct (is_nil (native to)); [discriminate|]. apply steps_last; auto. intros z Hz. congruence. }
  rewrite F in F3. inversion F3; subst. congruence.
Qed.

Example C31_example : let k := demo_choices in let s := demo in
  is_file k s (lit "/b/h") [lit "b"; lit "h"] 3 (lit "hello") /\ is_file k s (lit "d/g") [lit "a"; lit "d"; lit "g"] 6 [] /\
  leads_nowhere k s (lit "l/new") [lit "b"] (lit "new") /\ leads_to k s (lit "f") [lit "a"; lit "f"] (NLeaf 3) /\
  (forall q i d, ~ is_file k s (lit "l") q i d) /\ type_of s (NLeaf 8) = ft_fifo /\
  (exists s', run (fsk k) (copy_file_impl plain_config 20 false (topath (lit "/b/h")) (topath (lit "d/g")) (options [co_overwrite_existing])) s = Done (true, None) s' /\
     f_body s' 6 = BReg (lit "hello") /\ f_fds s' = []) /\
  (exists s', run (fsk k) (copy_file_impl plain_config 20 false (topath (lit "/b/h")) (topath (lit "l/new")) (options [])) s = Done (true, None) s' /\
     f_body s' 10 = BReg (lit "hello") /\ look (f_root s') [lit "b"; lit "new"] = Some (NLeaf 10)).
Proof.
  split; [exists 40; repeat split|]. split; [exists 40; repeat split|]. split; [reflexivity|]. split; [exists 40; split; reflexivity|].
  split; [intros q i d (l & F & L & B); vm_compute in F; inversion F; subst; vm_compute in L; inversion L; subst; discriminate|].
  split; [reflexivity|]. split; (eexists; split; [vm_compute; reflexivity|split; vm_compute; reflexivity]).
Qed.

(** /b/k is a symlink to the file /a/d/g. *)
Definition demo_filelink : fs :=
  Fs (Dir 1 [(lit "a", Dir 2 [(lit "f", Leaf 3); (lit "d", Dir 5 [(lit "g", Leaf 6)])]); (lit "b", Dir 7 [(lit "k", Leaf 4)])])
     (fun i => match i with 4%N => BLink (lit "/a/d/g") | _ => demo_body i end) demo_meta 10 [lit "a"] [] [] 0 (fun _ => None) 0.

Example C31_symlink_example : let k := demo_choices in let s := demo_filelink in
  is_file k s (lit "f") [lit "a"; lit "f"] 3 (lit "hello") /\ leads_to k s (lit "/b/k") [lit "a"; lit "d"; lit "g"] (NLeaf 6) /\ f_body s 6 = BReg [] /\
  (forall r d3, ~ is_file k s (lit "/b/k") r 6 d3) /\
  exists s', run (fsk k) (copy_file_impl plain_config 20 true (topath (lit "f")) (topath (lit "/b/k")) (options [co_overwrite_existing])) s = Done (false, Some EBADF) s'.
Proof.
  split; [exists 40; repeat split|]. split; [exists 39; repeat split|]. split; [reflexivity|].
  split; [intros r d3 (l & F & L & B); vm_compute in F; inversion F; subst; vm_compute in L; discriminate|]. eexists. vm_compute. reflexivity.
Qed.

(** * C30: the bytes *)

(** Whenever copy_file returns true, [from] is a regular file and [to] a file with its permissions, everything else being as it was.
    The content is that of [from] when sendfile is used, or when no write is cut short. Missing: short writes (C30_short_write_refuted). *)
Theorem C30_copies_bytes_partial : forall cf k s n has from to o s', wf s ->
  (forall q i d, is_file k s (native from) q i d -> length d < n) ->
  run (fsk k) (copy_file_impl cf n has from to o) s = Done (true, None) s' ->
  exists q i d d', is_file k s (native from) q i d /\ f_body s' i = BReg d /\ copied k s s' (native to) i d' /\ (safe_transfer cf k d -> d' = d).
Proof.
  intros cf k s n has from to o s' Hw Hfuel Hrun.
  assert (Hfile : exists q i d, is_file k s (native from) q i d).
  { destruct (node_at s (find_at k s false (native from))) as [e|[i|i]] eqn:N1.
    - exfalso. destruct (run_copy_bad_source cf k s n has from to o Hw) as (e' & s2 & H & _).
      { intros q i d (l & F & L & _). rewrite F in N1. cbn in N1. rewrite L in N1. discriminate. }
      rewrite H in Hrun. unfold refusal in Hrun. destruct has; discriminate.
    - destruct (f_body s i) as [d|t|t] eqn:B.
      + destruct (find_at k s false (native from)) as [l q|? ?|?] eqn:F; try discriminate. cbn in N1. destruct (look (f_root s) q) as [z|] eqn:L; [|discriminate].
        inversion N1; subst z. exists q, i, d, l. auto.
      + exfalso. destruct (run_copy_bad_source cf k s n has from to o Hw) as (e' & s2 & H & _).
        { intros q i2 d (l & F & L & B2). rewrite F in N1. cbn in N1. rewrite L in N1. congruence. }
        rewrite H in Hrun. unfold refusal in Hrun. destruct has; discriminate.
      + exfalso. destruct (run_copy_bad_source cf k s n has from to o Hw) as (e' & s2 & H & _).
        { intros q i2 d (l & F & L & B2). rewrite F in N1. cbn in N1. rewrite L in N1. congruence. }
        rewrite H in Hrun. unfold refusal in Hrun. destruct has; discriminate.
    - exfalso. destruct (run_copy_bad_source cf k s n has from to o Hw) as (e' & s2 & H & _).
      { intros q i2 d (l & F & L & B2). rewrite F in N1. cbn in N1. rewrite L in N1. congruence. }
      rewrite H in Hrun. unfold refusal in Hrun. destruct has; discriminate. }
  destruct Hfile as (q & i & d & Hfrom). specialize (Hfuel q i d Hfrom). exists q, i, d.
  assert (Hend : forall d', copied k s s' (native to) i d' -> (safe_transfer cf k d -> d' = d) ->
    exists d', is_file k s (native from) q i d /\ f_body s' i = BReg d /\ copied k s s' (native to) i d' /\ (safe_transfer cf k d -> d' = d)).
  { intros d' HC HS. exists d'. split; [auto|]. split; [|auto]. destruct HC as (q2 & j & _ & Hji & _ & _ & Hb & _). rewrite Hb by auto.
    destruct Hfrom as (? & ? & ? & B). auto. }
  assert (Hkeep : forall r, run (fsk k) (copy_file_from cf n has from to o (f_handle s)) (opened_fd s i) = r (opened_fd s i) ->
    (exists e, r = refusal has from to e) \/ r = Done (false, None) -> False).
  { intros r H1 H2. destruct (run_copy_kept cf k s n has from to o q i d r Hfrom H1 H2) as (s2 & R & _). rewrite R in Hrun.
    destruct H2 as [[e ->]| ->]; [unfold refusal in Hrun; destruct has|]; discriminate. }
  pose proof (run_copy_from cf k (opened_fd s i) n has from to o (f_handle s) q i d Hfrom) as HF.
  change (node_at (opened_fd s i) (find_at k (opened_fd s i) true (native to))) with (node_at s (find_at k s true (native to))) in HF.
  change (f_meta (opened_fd s i)) with (f_meta s) in HF.
  destruct (find_at k s true (native to)) as [l2 q2|p m|e] eqn:F.
  - destruct (find_found _ _ _ _ _ _ Hw F) as [x L]. cbn [node_at] in HF. rewrite L in HF. change (type_of (opened_fd s i) x) with (type_of s x) in HF.
    destruct (file_type_eqb (type_of s x) ft_regular) eqn:E; cbn [negb] in HF; [|exfalso; apply (Hkeep (refusal has from to ENOTSUP)); eauto].
    destruct x as [j|j]; [|discriminate]. cbn [number] in HF. cbn [type_of] in E. destruct (f_body s j) as [d2|?|sp] eqn:B; [|discriminate|destruct sp; discriminate].
    destruct (N.eqb_spec j i) as [->|Hij]; [exfalso; apply (Hkeep (refusal has from to EEXIST)); eauto|].
    destruct (co_set co_skip_existing o) eqn:Es; [exfalso; apply (Hkeep (Done (false, None))); eauto|].
    assert (N2 : node_at s (find_at k s true (native to)) = Val (NLeaf j)) by (rewrite F; cbn; rewrite L; auto).
    destruct (run_copy_old cf k s n has from to o q i d j d2 Hw Hfrom Hfuel N2 B Hij Es) as [H1 H2].
    + destruct (co_set co_update_existing o) eqn:Eu; cbn [andb negb] in HF.
      * apply newer_later. destruct (newer (m_mtime (f_meta s i)) (m_mtime (f_meta s j))); auto. exfalso. apply (Hkeep (Done (false, None))); auto.
      * destruct (co_set co_overwrite_existing o); auto. exfalso. apply (Hkeep (refusal has from to EEXIST)); eauto.
    + destruct (found_entry _ _ _ _ _ Hw F) as [y Hy]. destruct (N.eq_dec (number y) j) as [Hyj|Hyj].
      * assert (y = NLeaf j) as ->.
        { destruct y as [y|y]; cbn [number] in Hyj; subst y; auto. exfalso.
          destruct (find_at k s false (native to)) as [l3 r|? ?|?] eqn:F2; try discriminate. cbn [node_at] in Hy.
          destruct (look (f_root s) r) as [z|] eqn:Lz; [|discriminate]. inversion Hy; subst z.
          assert (F3 : find_at k s true (native to) = Found l3 r).
          { unfold find_at, resolve_comps in F2 |- *. destruct (is_nil (native to)); [discriminate|]. apply steps_last; auto. intros z Hz. congruence. }
          rewrite F in F3. inversion F3; subst. congruence. }
        destruct (H2 Hy) as (s2 & d' & R1 & R2 & R3 & _). rewrite R1 in Hrun. inversion Hrun; subst s2. eauto.
      * exfalso. destruct (H1 y Hy Hyj) as (s2 & R1 & _). rewrite R1 in Hrun. unfold refusal in Hrun. destruct has; discriminate.
  - destruct (run_copy_new cf k s n has from to o q i d p m Hw Hfrom Hfuel F) as (s2 & d' & R1 & R2 & _ & _ & R3).
    rewrite R1 in Hrun. inversion Hrun; subst s2. eauto.
  - exfalso. cbn [node_at] in HF. destruct (file_type_eqb (st_type (missing_status e)) ft_none); [apply (Hkeep (refusal has from to e)); eauto|].
    rewrite run_sys in HF. cbn [fsk] in HF. unfold sys_open in HF.
    change (find_at k (opened_fd s i) true (native to)) with (find_at k s true (native to)) in HF. rewrite F in HF. cbn [fst snd] in HF.
    apply (Hkeep (refusal has from to e)); eauto. rewrite HF. unfold report, refusal. destruct has; reflexivity.
Qed.

(** Without sendfile (or for a file sendfile is not used for), writes that are cut short lose bytes, and true is returned: whatever the file, the copy is shorter. *)
Theorem C30_short_write_refuted : forall cf k s n has from to l q i d p m, wf s -> is_file k s (native from) q i d -> length d < n ->
  find_at k s true (native to) = Missing p m -> cut_transfer cf k d ->
  exists s' j d', run (fsk k) (copy_file_impl cf n has from to (options l)) s = Done (true, None) s' /\
    leads_to k s' (native to) (p ++ [m]) (NLeaf j) /\ f_body s' j = BReg d' /\ length d' < length d.
Proof.
  intros cf k s n has from to l q i d p m Hw Hf Hn Hto Hc.
  destruct (run_copy_new_arrives cf k s n has from to (options l) q i d p m Hw Hf Hn Hto) as (s' & d' & R & (q2 & j & (l1 & C1 & C2) & _ & C3 & _) & (l2 & L1 & L2) & _ & [_ A] & _).
  rewrite C1 in L1. injection L1 as -> ->. rewrite C2 in L2. injection L2 as ->. exists s', (f_next s), d'.
  split; [exact R|]. split; [exists l2; auto|]. auto.
Qed.

Definition portable_config : config := Config (cf_el plain_config) (cf_dbg plain_config) (cf_mode plain_config) false.
Definition short_choices : choices :=
  Choices (fun _ => 3) (fun _ => 2) (fun n => S n) 40 true (StatVfs 0 0 0 0) 4096 (TimeSpec 2000 0).
(** Reads that fill the buffer, writes of three bytes. *)
Definition three_bytes : choices :=
  Choices (fun _ => Z.to_nat bufsiz) (fun _ => 3) (fun n => S n) 40 true (StatVfs 0 0 0 0) 4096 (TimeSpec 2000 0).
Example C30_short_write_example : cut_transfer portable_config three_bytes (lit "hello") /\ is_file three_bytes demo (lit "f") [lit "a"; lit "f"] 3 (lit "hello") /\
  exists s', run (fsk three_bytes) (copy_file_impl portable_config 20 true (topath (lit "f")) (topath (lit "n")) (options [])) demo = Done (true, None) s' /\
    leads_to three_bytes s' (lit "n") [lit "a"; lit "n"] (NLeaf 10) /\ f_body s' 10 = BReg (lit "hel").
Proof.
  split; [split; [left; reflexivity|split; [cbn; lia|intros c; split; [apply le_n|vm_compute; lia]]]|]. split; [exists 40; repeat split|].
  eexists. split; [vm_compute; reflexivity|]. split; [exists 40; split; vm_compute; reflexivity|]. vm_compute. reflexivity.
Qed.

(** With the same short transfers, but sendfile, and with full writes but short reads: the hypotheses of the theorem above are met. *)
Example C30_example : safe_transfer plain_config short_choices (lit "hello") /\
  exists s', run (fsk short_choices) (copy_file_impl plain_config 20 true (topath (lit "f")) (topath (lit "n")) (options [])) demo = Done (true, None) s' /\
    look (f_root s') [lit "a"; lit "n"] = Some (NLeaf 10) /\ f_body s' 10 = BReg (lit "hello").
Proof.
  split; [left; split; [reflexivity|vm_compute; discriminate]|]. eexists. split; [vm_compute; reflexivity|]. split; vm_compute; reflexivity.
Qed.

Print Assumptions C31_table_partial.
Print Assumptions C31_options_refuted.
Print Assumptions C31_symlink_refuted.
Print Assumptions C30_copies_bytes_partial.
Print Assumptions C30_short_write_refuted.
