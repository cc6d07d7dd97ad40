(** When copy_file and copy end (C92). *)
From Coq Require Import Ascii String Bool Arith NArith ZArith Lia.
From Verif Require Import Str PathModel PathSpec StrProofs PathProofs PathOps PathOps2 PathReach PathLaws ArithProps
  FlagsModel TimeModel Prog DirModel OpsModel OpsProps FS FSProofs FSSpec FSOps FSPlace FSProps FSProps2 IterProps FSIter FSRemove FSCopy FSDispatch FSCopyTree
  RaceProps Fuel.
From Coq Require Import List.
Import ListNotations.

(** * Vocabulary *)

(** The programs of the model carry a bound on the number of steps of their loops. A call ends when some bound is enough, and is endless when none is: the call
    goes on making system calls for ever. *)
Definition ends {A S} (h : kernel S) (P : nat -> prog A) (s : S) : Prop := exists n, forall s', run h (P n) s <> Failed FFuel s'.
Definition endless {A S} (h : kernel S) (P : nat -> prog A) (s : S) : Prop := forall n, exists s', run h (P n) s = Failed FFuel s'.

(** * Reading and writing *)

(** The bytes that the system delivers to read(2). *)
Definition delivered (c : call) : answer c -> nat :=
  match c as c return answer c -> nat with
  | c_read _ _ => fun a => match a with Val d => length d | Err _ => 0 end
  | _ => fun _ => 0
  end.

(** Any system, with a count of the bytes it delivers. *)
Definition metered {S} (h : kernel S) : kernel (S * nat) := fun c st =>
  let (a, s) := h c (fst st) in (a, (s, snd st + delivered c a)).

Section Metered.
Context {S : Type} (h : kernel S) (n : nat).

Definition paid {A} (p : prog A) : Prop :=
  forall s m s' m', run (metered h) p (s, m) = Failed FFuel (s', m') -> m + n <= m'.

Lemma meter_mono : forall A (p : prog A) s m, match run (metered h) p (s, m) with Done _ st => m <= snd st | Failed _ st => m <= snd st end.
Proof.
  intros A. induction p as [a|f|c g IH]; intros s m; cbn [run snd]; auto. unfold metered at 1. cbn [fst snd]. destruct (h c s) as [a s1].
  specialize (IH a s1 (m + delivered c a)). destruct (run (metered h) (g a) (s1, m + delivered c a)); lia.
Qed.

Lemma paid_ret : forall A (a : A), paid (Ret a).
Proof. intros A a s m s' m' H. discriminate. Qed.
Lemma paid_stop : forall A f, f <> FFuel -> paid (@Stop A f).
Proof. intros A f Hf s m s' m' H. cbn in H. congruence. Qed.
Lemma paid_report : forall A has ps (v : A) e, paid (report has ps v e).
Proof. intros. unfold report. destruct has; [apply paid_ret|apply paid_stop; discriminate]. Qed.
Lemma paid_sys : forall A c (g : answer c -> prog A), (forall a, paid (g a)) -> paid (Sys c g).
Proof.
  intros A c g Hg s m s' m' H. cbn [run] in H. unfold metered at 1 in H. cbn [fst snd] in H. destruct (h c s) as [a s1]. apply Hg in H. lia.
Qed.
Lemma paid_bind : forall A B (p : prog A) (g : A -> prog B), paid p -> (forall a, paid (g a)) -> paid (pbind p g).
Proof.
  intros A B p g Hp Hg s m s' m' H. rewrite run_bind in H. pose proof (meter_mono _ p s m) as M.
  destruct (run (metered h) p (s, m)) as [a [s1 m1]|f [s1 m1]] eqn:E; cbn [snd] in M.
  - apply Hg in H. lia.
  - injection H as -> -> ->. apply Hp in E. auto.
Qed.
Lemma paid_scoped : forall A (p : prog A) fd, paid p -> paid (scoped p (close_fd fd)).
Proof.
  intros A p fd Hp s m s' m' H. rewrite run_scoped in H. destruct (run (metered h) p (s, m)) as [a [s1 m1]|f [s1 m1]] eqn:E.
  - unfold close_fd in H. cbn [run] in H. destruct (metered h (c_close fd) (s1, m1)). discriminate.
  - destruct (unwinds f) eqn:U.
    + unfold close_fd in H. cbn [run] in H. destruct (metered h (c_close fd) (s1, m1)). injection H as -> _. discriminate.
    + injection H as -> -> ->. apply Hp in E. auto.
Qed.
Lemma paid_status : forall b p, paid (GetFileStatus b p) /\ paid (GetLinkStatus b p).
Proof.
  intros b p. assert (H : forall r, paid (let! se := CreateFileStatus b p r in Ret (fst se, stat_buf r, snd se))).
  { intros r. apply paid_bind; [|intros; apply paid_ret]. unfold CreateFileStatus. destruct r as [e|a]; [|apply paid_ret].
    repeat match goal with |- paid (if ?c then _ else _) => destruct c end; try apply paid_ret; apply paid_report. }
  split; apply paid_sys; auto.
Qed.

End Metered.

Lemma paid_default : forall S (h : kernel S) n r w, paid h n (do_copy_file_default n r w).
Proof.
  intros S h. induction n as [|n IH]; intros r w s m s' m' H; cbn [do_copy_file_default run] in H.
  - injection H as _ ->. lia.
  - unfold metered at 1 in H. cbn [fst snd] in H. destruct (h (c_read r bufsiz) s) as [[e|[|c d]] s1]; try discriminate.
    cbn [run] in H. unfold metered at 1 in H. cbn [fst snd] in H. destruct (h (c_write w (c :: d)) s1) as [[e|x] s2]; [discriminate|].
    apply IH in H. cbn [delivered length] in H. lia.
Qed.

(** The copy with read and write ends on any system, whatever other processes do to the files meanwhile, unless the source goes on delivering data for ever:
    a run with the bound [n] that is cut off has read at least [n] bytes. *)
Theorem C92_reading_partial : forall S (h : kernel S) cf n has from to o s s' m, cf_sendfile cf = false ->
  run (metered h) (copy_file_impl cf n has from to o) (s, 0) = Failed FFuel (s', m) -> n <= m.
Proof.
  intros S h cf n has from to o s s' m Hcf H.
  assert (Hp : paid h n (copy_file_impl cf n has from to o)); [|apply Hp in H; lia].
  assert (Hd : forall r w z, paid h n (do_copy_file cf n r w z)) by (intros; unfold do_copy_file; rewrite Hcf; apply paid_default).
  unfold copy_file_impl. apply paid_sys. intros [e|rfd]; [apply paid_report|]. apply paid_scoped. unfold copy_file_from. cbv zeta.
  apply paid_bind; [apply paid_status|]. intros [[st x] e]. destruct (failed e); [apply paid_report|]. destruct (negb (st_is_regular_file st)); [apply paid_report|].
  apply paid_bind; [apply paid_status|]. intros [[st2 x2] e2]. destruct (negb (status_known st2)); [apply paid_report|].
  destruct (st_exists st2 && negb (st_is_regular_file st2)); [apply paid_report|]. destruct (st_exists st2 && stat_equivalent x x2); [apply paid_report|].
  destruct (st_exists st2 && co_set co_skip_existing o); [apply paid_ret|]. apply paid_bind.
  { destruct (st_exists st2 && co_set co_update_existing o); [apply paid_ret|]. destruct (negb (st_exists st2) || co_set co_overwrite_existing o); [apply paid_ret|apply paid_report]. }
  intros [b e3]. cbn [fst snd]. destruct (negb b); [apply paid_ret|]. apply paid_sys. intros [e4|wfd]; [apply paid_report|]. apply paid_scoped.
  unfold copy_file_body. apply paid_bind; [apply paid_status|]. intros [[st3 x3] e5]. cbn [fst snd]. destruct (failed e5); [apply paid_report|]. cbv zeta.
  assert (Hc : paid h n (let! c := do_copy_file cf n rfd wfd (st_size x) in if fst c then Ret (true, None) else report has [to; from] false (snd c))).
  { apply paid_bind; [apply Hd|]. intros c. destruct (fst c); [apply paid_ret|apply paid_report]. }
  destruct (st_exists st2); [|exact Hc]. destruct (negb (stat_equivalent x2 x3)); [apply paid_report|].
  apply paid_sys. intros [e6|?]; [apply paid_report|]. apply paid_sys. intros [e7|?]; [apply paid_report|exact Hc].
Qed.

(** * Without interference *)

Lemma is_file_dec : forall k s t, (exists q i d, is_file k s t q i d) \/ (forall q i d, ~ is_file k s t q i d).
Proof.
  intros k s t. unfold is_file. destruct (find_at k s false t) as [l q|? ?|?]; [|right; intros q i d (? & ? & _); discriminate..].
  destruct (look (f_root s) q) as [[i|i]|] eqn:L; [|right; intros q' i' d (? & E & ? & _); injection E as _ ->; congruence..].
  destruct (f_body s i) as [d|?|?] eqn:B; [left; exists q, i, d, l; auto| |]; right; intros q' i' d (? & E & L' & B'); injection E as _ ->; congruence.
Qed.

Lemma refusal_ends : forall has from to e s s', refusal has from to e s <> Failed FFuel s'.
Proof. intros. unfold refusal. destruct has; discriminate. Qed.

(** copy_file on its own always ends, with every system, every state and all options. *)
Theorem C92_alone : forall cf k s has from to o, wf s -> ends (fsk k) (fun n => copy_file_impl cf n has from to o) s.
Proof.
  intros cf k s has from to o Hw. destruct (is_file_dec k s (native from)) as [(q & i & d & Hfrom)|Hbad].
  2:{ exists 0. intros s'. destruct (run_copy_bad_source cf k s 0 has from to o Hw Hbad) as (e & s1 & -> & _). apply refusal_ends. }
  exists (S (length d)). intros s'.
  pose proof (run_copy_from cf k (opened_fd s i) (S (length d)) has from to o (f_handle s) q i d Hfrom) as HF.
  change (node_at (opened_fd s i) (find_at k (opened_fd s i) true (native to))) with (node_at s (find_at k s true (native to))) in HF.
  change (f_meta (opened_fd s i)) with (f_meta s) in HF. change (type_of (opened_fd s i)) with (type_of s) in HF.
  assert (Hkept : forall r, run (fsk k) (copy_file_from cf (S (length d)) has from to o (f_handle s)) (opened_fd s i) = r (opened_fd s i) ->
    (exists e, r = refusal has from to e) \/ r = Done (false, None) -> run (fsk k) (copy_file_impl cf (S (length d)) has from to o) s <> Failed FFuel s').
  { intros r H1 H2. destruct (run_copy_kept cf k s (S (length d)) has from to o q i d r Hfrom H1 H2) as (s1 & -> & _). destruct H2 as [[e ->]| ->]; [apply refusal_ends|discriminate]. }
  destruct (find_at k s true (native to)) as [l p|p m|e] eqn:F; cbn [node_at] in HF.
  - destruct (look (f_root s) p) as [x|] eqn:L.
    2:{ apply (Hkept (refusal has from to ENOENT)); eauto. rewrite HF. change (file_type_eqb (st_type (missing_status ENOENT)) ft_none) with false. cbv iota.
        rewrite run_sys. cbn [fsk]. unfold sys_open. change (find_at k (opened_fd s i) true (native to)) with (find_at k s true (native to)). rewrite F.
        change (f_root (opened_fd s i)) with (f_root s). rewrite L. cbn [fst snd]. unfold report, refusal. destruct has; reflexivity. }
    destruct (negb (file_type_eqb (type_of s x) ft_regular)) eqn:T; [apply (Hkept (refusal has from to ENOTSUP)); eauto|].
    destruct (N.eqb (number x) i) eqn:Ei; [apply (Hkept (refusal has from to EEXIST)); eauto|].
    destruct (co_set co_skip_existing o) eqn:Es; [apply (Hkept (Done (false, None))); eauto|].
    destruct (co_set co_update_existing o && negb (newer (m_mtime (f_meta s i)) (m_mtime (f_meta s (number x))))) eqn:Eu; [apply (Hkept (Done (false, None))); eauto|].
    destruct (negb (co_set co_update_existing o) && negb (co_set co_overwrite_existing o)) eqn:Eo; [apply (Hkept (refusal has from to EEXIST)); eauto|].
    destruct x as [j|j]; [|discriminate T]. cbn [number] in *. cbn [type_of] in T. destruct (f_body s j) as [d2|?|[| | |]] eqn:Bj; try discriminate T. clear HF Hkept.
    apply N.eqb_neq in Ei. destruct (found_entry _ _ _ _ _ Hw F) as [y Hy].
    destruct (run_copy_old cf k s (S (length d)) has from to o q i d j d2 Hw Hfrom) as [R1 R2]; auto.
    { rewrite F. cbn [node_at]. rewrite L. reflexivity. }
    { destruct (co_set co_update_existing o); cbn in Eu, Eo; [|destruct (co_set co_overwrite_existing o); auto].
      apply newer_later. destruct (newer _ _); auto. }
    destruct (N.eq_dec (number y) j) as [E|E].
    + destruct R2 as (s1 & d' & -> & _); [|discriminate]. rewrite Hy. f_equal. destruct y as [y|y]; cbn in E; [congruence|]. subst y. exfalso.
      destruct (find_at k s false (native to)) as [l2 q2|? ?|?] eqn:F2; try discriminate Hy. cbn [node_at] in Hy. destruct (look (f_root s) q2) as [z|] eqn:L2; [|discriminate Hy].
      injection Hy as ->. rewrite (find_dir_true _ _ _ _ _ _ F2 L2) in F. injection F as <- <-. congruence.
    + destruct (R1 y Hy E) as (s1 & -> & _). apply refusal_ends.
  - destruct (run_copy_new cf k s (S (length d)) has from to o q i d p m Hw Hfrom) as (s1 & d' & -> & _); auto. discriminate.
  - apply (Hkept (refusal has from to e)); eauto. rewrite HF. destruct (file_type_eqb (st_type (missing_status e)) ft_none); [reflexivity|].
    rewrite run_sys. cbn [fsk]. unfold sys_open. change (find_at k (opened_fd s i) true (native to)) with (find_at k s true (native to)). rewrite F. cbn [fst snd].
    unfold report, refusal. destruct has; reflexivity.
Qed.

(** A call that ends has one result, whatever the bound. *)
Theorem ends_once : forall A (P : nat -> prog A) S (h : kernel S) s, bound_free P -> ends h P s ->
  exists N r, (forall s', r <> Failed FFuel s') /\ forall n, N <= n -> run h (P n) s = r.
Proof.
  intros A P S h s HP [N HN]. exists N, (run h (P N) s). split; auto. intros n Hn. destruct (HP S h s N n Hn) as [[s' E]|E]; auto. destruct (HN s' E).
Qed.

(** * sendfile and a source that is shortened *)

(** Another process does nothing for five calls, and then cuts the object [i]. *)
Definition cut (i : N) (d : str) : list (fs -> fs) := repeat (fun s => s) 5 ++ [fun s => set_body s i (BReg d)].

Lemma run_sendfile_stuck : forall k d i j rfd wfd rest c, i <> j -> forall n s o, two_fds s wfd rfd j o i o rest -> f_body s i = BReg d ->
  (exists x, f_body s j = BReg x) -> o <= length d -> (Z.of_nat (length d) < Z.of_nat o + c)%Z ->
  exists st, run (interfered k) (sendfile_loop n rfd wfd c) (s, []) = Failed FFuel st.
Proof.
  intros k d i j rfd wfd rest c Hij n. revert c. induction n as [|n IH]; intros c s o [Hfd Hf] Hi [x Hj] Ho Hc; cbn [sendfile_loop]; [eexists; reflexivity|].
  cbn [run]. unfold interfered at 1. cbn [fsk]. unfold sys_sendfile. rewrite Hf. cbn [nassoc]. rewrite (proj2 (N.eqb_neq wfd rfd) Hfd), !N.eqb_refl, Hi, Hj.
  set (m := moved (k_send k (f_clock s)) (Nat.min (Z.to_nat c) (length (skipn o d)))).
  assert (Hm : m <= length d - o). { destruct (moved_bounds (k_send k (f_clock s)) (Nat.min (Z.to_nat c) (length (skipn o d)))) as [M _]. fold m in M. rewrite skipn_length in M. lia. }
  replace (0 <? c - Z.of_nat m)%Z with true by (symmetry; apply Z.ltb_lt; lia).
  apply IH with (o := o + m).
  - split; auto. cbn [f_fds tick set_fds nupdate]. rewrite (proj2 (N.eqb_neq wfd rfd) Hfd), !N.eqb_refl. cbn [nupdate]. rewrite N.eqb_refl. reflexivity.
  - cbn. unfold upd. rewrite (proj2 (N.eqb_neq i j) Hij). exact Hi.
  - cbn. unfold upd. rewrite N.eqb_refl. eauto.
  - lia.
  - lia.
Qed.

Lemma scoped_eq : forall A S (h : kernel S) (p p2 : prog A) c s s2, run h p s = run h p2 s2 -> run h (scoped p c) s = run h (scoped p2 c) s2.
Proof. intros A S h p p2 c s s2 H. rewrite !run_scoped, H. reflexivity. Qed.

(** The transfer of copy_file, with what follows. *)
Definition transfer (cf : config) (n : nat) (has : bool) (from to : path) (rfd wfd : N) (size : Z) : prog (bool * ecode) :=
  scoped (scoped (let! c := do_copy_file cf n rfd wfd size in if fst c then Ret (true, None) else report has [to; from] false (snd c)) (close_fd wfd)) (close_fd rfd).

(** What copy_file does on any system when the source is a regular file and the destination does not exist. *)
Lemma run_new_any : forall S (h : kernel S) cf n has from to o s rfd s1 a s2 s3 wfd s4 b s5,
  h (c_open (native from) O_READ 0%N) s = (Val rfd, s1) -> h (c_lstat (native from)) s1 = (Val a, s2) -> type_of_mode (st_mode a) = ft_regular ->
  h (c_stat (native to)) s2 = (Err ENOENT, s3) -> h (c_open (native to) O_WRITE_CREAT (st_mode a)) s3 = (Val wfd, s4) -> h (c_lstat (native to)) s4 = (Val b, s5) ->
  run h (copy_file_impl cf n has from to o) s = run h (transfer cf n has from to rfd wfd (st_size a)) s5.
Proof.
  intros S h cf n has from to o s rfd s1 a s2 s3 wfd s4 b s5 H1 H2 Ht H3 H4 H5. unfold copy_file_impl, transfer. cbn [run]. rewrite H1. apply scoped_eq.
  unfold copy_file_from, refresh_status. rewrite run_bind. unfold GetLinkStatus at 1. cbn [run pbind]. rewrite H2. cbn [CreateFileStatus pbind fst snd run stat_buf failed].
  unfold st_is_regular_file at 1, has_type at 1. cbn [st_type]. rewrite Ht. change (file_type_eqb ft_regular ft_regular) with true. cbn [negb].
  rewrite run_bind. unfold GetFileStatus. cbn [run pbind]. rewrite H3. cbn [CreateFileStatus errno_eqb]. change (errno_eqb ENOENT ENOENT || errno_eqb ENOENT ENOTDIR) with true. cbv iota.
  cbn [pbind fst snd run stat_buf]. change (status_known (status_of_type ft_not_found)) with true. change (st_exists (status_of_type ft_not_found)) with false. cbn [negb andb orb pbind fst snd].
  cbn [run]. rewrite H4. apply scoped_eq. unfold copy_file_body, refresh_status. rewrite run_bind. unfold GetLinkStatus. cbn [run pbind]. rewrite H5. cbn [CreateFileStatus pbind fst snd run stat_buf failed].
  reflexivity.
Qed.

Lemma leaf_mode : forall s i d, f_body s i = BReg d -> type_of_mode (st_mode (stat_of s (NLeaf i))) = ft_regular.
Proof. intros s i d H. rewrite stat_of_type. cbn. rewrite H. reflexivity. Qed.

(** The states when the source is open and when the destination is made and open. *)
Definition made_fd (k : choices) (s : fs) (i : N) (p : loc) (m : str) : fs :=
  opened_fd (set_body (make k (opened_fd s i) p m (Leaf (f_next s)) (mode_bits (st_mode (stat_of s (NLeaf i)))) 1) (f_next s) (BReg [])) (f_next s).

Lemma new_calls : forall k s from to q i d p m, wf s -> is_file k s from q i d -> find_at k s true to = Missing p m ->
  let s1 := opened_fd s i in let s4 := made_fd k s i p m in
  fsk k (c_open from O_READ 0%N) s = (Val (f_handle s), s1) /\ fsk k (c_lstat from) s1 = (Val (stat_of s (NLeaf i)), s1) /\ fsk k (c_stat to) s1 = (Err ENOENT, s1) /\
  fsk k (c_open to O_WRITE_CREAT (st_mode (stat_of s (NLeaf i)))) s1 = (Val (f_handle s + 1)%N, s4) /\ (exists b, fsk k (c_lstat to) s4 = (Val b, s4)) /\
  two_fds s4 (f_handle s + 1) (f_handle s) (f_next s) 0 i 0 (f_fds s) /\ i <> f_next s /\ f_body s4 i = BReg d /\ f_body s4 (f_next s) = BReg [] /\
  leads_to k s4 to (p ++ [m]) (NLeaf (f_next s)).
Proof.
  intros k s from to q i d p m Hw Hfrom Hto s1 s4. pose proof Hfrom as (l0 & F0 & L0 & B0). destruct (file_leads _ _ _ _ _ _ Hfrom) as (l & F & _).
  pose proof (find_missing _ _ _ _ _ _ Hto) as (di & dl & G1 & G2 & G3).
  set (mode := mode_bits (st_mode (stat_of s (NLeaf i)))) in *.
  set (mk := set_body (make k s1 p m (Leaf (f_next s1)) mode 1) (f_next s1) (BReg [])).
  assert (Hw1 : wf s1) by (eapply wf_unchanged; [exact Hw|reflexivity|reflexivity]).
  destruct (make_leaf_look k s1 p m (BReg []) mode 1 di dl Hw1 G1 G2) as (K1 & K2 & K3 & K4 & K5 & K6 & K7 & K8). fold mk in K1, K2, K3, K4, K5, K6, K7, K8.
  assert (Ho : fsk k (c_open to O_WRITE_CREAT (st_mode (stat_of s (NLeaf i)))) s1 = (Val (f_handle s + 1)%N, s4)).
  { cbn [fsk]. unfold sys_open. change (find_at k s1 true to) with (find_at k s true to). rewrite Hto. reflexivity. }
  assert (Hwf : wf s4).
  { pose proof (wf_step k (c_open to O_WRITE_CREAT (st_mode (stat_of s (NLeaf i)))) s1 Hw1) as H. rewrite Ho in H. exact H. }
  assert (Hi : (i < f_next s)%N) by (eapply look_fresh; eauto).
  assert (Hne : i <> f_next s) by lia.
  assert (Hbj : f_body s4 (f_next s) = BReg []) by exact K2.
  assert (Hfound : exists l, find_at k s4 true to = Found l (p ++ [m])).
  { change (find_at k s4 true to) with (find_at k mk true to). unfold find_at.
    eapply resolve_fill; [exact K4|exact Hto|exact K1|]. intros j Hj. left. inversion Hj; subst. unfold link_text. change (f_next s1) with (f_next s) in K2. rewrite K2. auto. }
  destruct Hfound as [l4 Hfound]. destruct (found_entry _ _ _ _ _ Hwf Hfound) as [y Hy].
  split. { cbn [fsk]. unfold sys_open. rewrite F, L0. reflexivity. }
  split. { cbn [fsk]. unfold sys_stat. change (find_at k s1 false from) with (find_at k s false from). rewrite F0. cbn [node_at]. change (f_root s1) with (f_root s). rewrite L0. reflexivity. }
  split. { cbn [fsk]. unfold sys_stat. change (find_at k s1 true to) with (find_at k s true to). rewrite Hto. reflexivity. }
  split; [exact Ho|].
  split. { exists (stat_of s4 y). cbn [fsk]. unfold sys_stat. rewrite Hy. reflexivity. }
  split; [split; [lia|reflexivity]|]. split; [exact Hne|].
  split. { change (f_body s4 i) with (f_body mk i). rewrite K5; auto. }
  split; [exact Hbj|]. exists l4. split; [exact Hfound|exact K1].
Qed.

(** With sendfile (the Linux build), a source of up to 2147479552 bytes that is shortened by another process between the lstat(2) of copy_file and the end of the
    transfer makes the call go on for ever: sendfile(2) moves nothing at the end of the file, and the loop asks for the missing bytes again. *)
Theorem C92_shortened_refuted : forall cf k s has from to o q i d p m x, wf s -> is_file k s (native from) q i d -> leads_nowhere k s (native to) p m ->
  cf_sendfile cf = true -> (Z.of_nat (length d) <= sendfile_max)%Z -> x < length d ->
  endless (interfered k) (fun n => copy_file_impl cf n has from to o) (s, cut i (firstn x d)).
Proof.
  intros cf k s has from to o q i d p m x Hw Hfrom Hto Hcf Hmax Hx n.
  destruct (new_calls k s _ _ q i d p m Hw Hfrom Hto) as (C1 & C2 & C3 & C4 & (b & C5) & C6 & C7 & C8 & C9 & _).
  assert (Hl : forall c s u l a, fsk k c s = (a, u) -> interfered k c (s, (fun s => s) :: l) = (a, (u, l))) by (intros c s0 u l a E; unfold interfered; rewrite E; reflexivity).
  unfold cut. cbn [repeat app].
  rewrite (run_new_any _ (interfered k) cf n has from to o _ _ _ _ _ _ _ _ _ _ (Hl _ _ _ _ _ C1) (Hl _ _ _ _ _ C2)
    (leaf_mode s i d ltac:(destruct Hfrom as (? & ? & ? & ?); auto)) (Hl _ _ _ _ _ C3) (Hl _ _ _ _ _ C4) (Hl _ _ _ _ _ C5)).
  unfold transfer. set (s4 := made_fd k s i p m) in *.
  replace (st_size (stat_of s (NLeaf i))) with (Z.of_nat (length d)) by (destruct Hfrom as (? & ? & ? & B); cbn; rewrite B; reflexivity).
  assert (Hr : exists st, run (interfered k) (do_copy_file cf n (f_handle s) (f_handle s + 1) (Z.of_nat (length d))) (s4, [fun s => set_body s i (BReg (firstn x d))]) = Failed FFuel st).
  { unfold do_copy_file, do_copy_file_sendfile. rewrite Hcf. replace ((Z.of_nat (length d) <? 0)%Z || (sendfile_max <? Z.of_nat (length d))%Z) with false.
    2:{ symmetry. apply orb_false_intro; [apply Z.ltb_ge; lia|apply Z.ltb_ge; lia]. }
    assert (Hs : exists st, run (interfered k) (sendfile_loop n (f_handle s) (f_handle s + 1) (Z.of_nat (length d))) (s4, [fun s => set_body s i (BReg (firstn x d))]) = Failed FFuel st).
    { assert (E : run (interfered k) (sendfile_loop n (f_handle s) (f_handle s + 1) (Z.of_nat (length d))) (s4, [fun s => set_body s i (BReg (firstn x d))]) = run (interfered k) (sendfile_loop n (f_handle s) (f_handle s + 1) (Z.of_nat (length d))) (set_body s4 i (BReg (firstn x d)), [])
          \/ n = 0). { destruct n; auto. }
      destruct E as [E| ->]; [|eexists; reflexivity]. rewrite E.
      apply (run_sendfile_stuck k (firstn x d) i (f_next s) (f_handle s) (f_handle s + 1) (f_fds s)) with (o := 0); auto.
      - cbn. unfold upd. rewrite N.eqb_refl. reflexivity.
      - exists []. cbn [f_body set_body]. unfold upd at 1. rewrite (proj2 (N.eqb_neq (f_next s) i)) by auto. exact C9.
      - lia.
      - rewrite firstn_length. lia. }
    destruct Hs as [st Hs]. exists st. rewrite run_bind, Hs. reflexivity. }
  destruct Hr as [st Hr]. exists st. rewrite run_scoped, run_scoped, run_bind, Hr. reflexivity.
Qed.

(** ** Sources whose size is not told *)

(** A system on which stat(2) and lstat(2) report the size 0, as Linux does for the files below /proc. *)
Definition sizeless (r : res stat_t) : res stat_t :=
  match r with Val a => Val (Stat (st_dev a) (st_ino a) (st_mode a) (st_nlink a) 0 (st_mtim a) (st_atim a)) | Err e => Err e end.
Definition unsized (k : choices) : kernel fs := fun c =>
  match c as c return fs -> answer c * fs with
  | c_stat t => fun s => let (a, u) := fsk k (c_stat t) s in (sizeless a, u)
  | c_lstat t => fun s => let (a, u) := fsk k (c_lstat t) s in (sizeless a, u)
  | c => fsk k c
  end.

(** With sendfile, such a file is copied without error to an empty one, whatever its content. *)
Theorem C30_unsized_refuted : forall cf k s n has from to o q i d p m, wf s -> is_file k s (native from) q i d -> leads_nowhere k s (native to) p m ->
  cf_sendfile cf = true -> 1 <= n ->
  exists s', run (unsized k) (copy_file_impl cf n has from to o) s = Done (true, None) s' /\ f_body s' i = BReg d /\
    leads_to k s' (native to) (p ++ [m]) (NLeaf (f_next s)) /\ f_body s' (f_next s) = BReg [].
Proof.
  intros cf k s n has from to o q i d p m Hw Hfrom Hto Hcf Hn.
  destruct (new_calls k s _ _ q i d p m Hw Hfrom Hto) as (C1 & C2 & C3 & C4 & (b & C5) & C6 & C7 & C8 & C9 & C10). set (s4 := made_fd k s i p m) in *.
  assert (D2 : unsized k (c_lstat (native from)) (opened_fd s i) = (sizeless (Val (stat_of s (NLeaf i))), opened_fd s i)) by (cbn [unsized]; rewrite C2; reflexivity).
  assert (D3 : unsized k (c_stat (native to)) (opened_fd s i) = (Err ENOENT, opened_fd s i)) by (cbn [unsized]; rewrite C3; reflexivity).
  assert (D5 : exists b, unsized k (c_lstat (native to)) s4 = (Val b, s4)) by (cbn [unsized]; rewrite C5; eexists; reflexivity). destruct D5 as [b' D5].
  cbn [sizeless] in D2.
  rewrite (run_new_any _ (unsized k) cf n has from to o s (f_handle s) (opened_fd s i) _ (opened_fd s i) (opened_fd s i) (f_handle s + 1)%N s4 b' s4 C1 D2
    (leaf_mode s i d ltac:(destruct Hfrom as (? & ? & ? & ?); auto)) D3 C4 D5).
  cbn [st_size]. destruct n as [|n]; [lia|]. unfold transfer, do_copy_file, do_copy_file_sendfile. rewrite Hcf. cbn [Z.ltb Z.compare orb].
  change (sendfile_max <? 0)%Z with false. cbn [orb]. rewrite !run_scoped, run_bind, run_bind. cbn [sendfile_loop run].
  change (unsized k (c_sendfile (f_handle s + 1) (f_handle s) 0)) with (fsk k (c_sendfile (f_handle s + 1) (f_handle s) 0)). cbn [fsk]. unfold sys_sendfile.
  destruct C6 as [C6a C6b]. rewrite C6b. cbn [nassoc]. rewrite (proj2 (N.eqb_neq _ _) C6a), !N.eqb_refl, C8, C9.
  change (Z.to_nat 0) with 0. cbn [Nat.min]. unfold moved. cbn [Nat.min Z.of_nat]. change (0 <? 0 - 0)%Z with false. cbv iota. cbn [fst snd run firstn].
  unfold close_fd. cbn [run]. cbn [unsized fsk]. eexists. split; [reflexivity|].
  split; [|split].
  - cbn. unfold upd at 1. rewrite (proj2 (N.eqb_neq _ _) C7). exact C8.
  - destruct C10 as (l4 & E1 & E2). exists l4. split; [|exact E2].
    assert (X : extends s4 (set_body s4 (f_next s) (BReg (spliced [] 0 [])))).
    { apply (same_but_extends s4 _ (f_next s) [] []); auto. - intros y Hy. cbn. unfold upd at 1. rewrite (proj2 (N.eqb_neq _ _) Hy). auto. - cbn. unfold upd. rewrite N.eqb_refl. reflexivity. }
    exact (find_extends _ _ _ _ _ _ _ X E1).
  - cbn. unfold upd at 1. rewrite N.eqb_refl. reflexivity.
Qed.

(** * A directory copied into itself *)

Lemma alter_split : forall (f : tree -> tree) name0 (es : list (str * tree)) c, assoc name0 es = Some c ->
  exists pre post, es = pre ++ (name0, c) :: post /\ update name0 f es = pre ++ (name0, f c) :: post /\ ~ In name0 (map fst pre).
Proof.
  intros f name0 es c. induction es as [|[a t] es IH]; cbn [assoc update]; intros H; [discriminate|]. destruct (str_eqb a name0) eqn:E.
  - injection H as ->. apply str_eqb_spec in E. subst a. exists [], es. auto.
  - destruct (IH H) as (pre & post & E1 & E2 & E3). exists ((a, t) :: pre), post. rewrite E2, E1. split; [reflexivity|]. split; [reflexivity|].
    cbn. intros [Ha|Ha]; auto. subst a. rewrite str_eqb_refl in E. discriminate.
Qed.

Lemma get_alter_above : forall f q t r i l, get t q = Some (Dir i l) -> get (alter f (q ++ r) t) q = Some (alter f r (Dir i l)).
Proof.
  intros f. induction q as [|a q IH]; intros t r i l H; cbn [app get] in *.
  - injection H as ->. reflexivity.
  - destruct t as [|j es]; [discriminate|]. cbn [alter get]. destruct (assoc a es) as [c|] eqn:E; [|discriminate].
    assert (Hu : assoc a (update a (alter f (q ++ r)) es) = Some (alter f (q ++ r) c)).
    { clear - E. induction es as [|[b x] es IHe]; cbn [assoc update] in *; [discriminate|]. destruct (str_eqb b a) eqn:Eb; cbn [assoc]; rewrite Eb; [congruence|auto]. }
    rewrite Hu. auto.
Qed.

(** The entries of the source after the destination is made inside it: the one that leads to the destination, and those before it, which are as they were. *)
Lemma source_entries : forall s q i es r m c di dl, get (f_root s) q = Some (Dir i es) -> get (f_root s) (q ++ r) = Some (Dir di dl) -> assoc m dl = None ->
  exists name0 r0 pre es2 c0 post, r ++ [m] = name0 :: r0 /\ es = pre ++ es2 /\ ~ In name0 (map fst pre) /\
    get (insert_at (q ++ r) m c (f_root s)) q = Some (Dir i (pre ++ (name0, c0) :: post)).
Proof.
  intros s q i es r m c di dl Hq Hp Ha. unfold insert_at. rewrite (get_alter_above _ _ _ _ _ _ Hq). destruct r as [|name0 r]; cbn [app alter].
  - rewrite app_nil_r, Hq in Hp. injection Hp as <- <-. exists m, [], es, [], c, []. rewrite app_nil_r. split; [reflexivity|]. split; [reflexivity|]. split; [|reflexivity].
    apply assoc_None. exact Ha.
  - rewrite get_app, Hq in Hp. cbn [get] in Hp. destruct (assoc name0 es) as [c1|] eqn:E; [|discriminate].
    destruct (alter_split (alter (fun l => l ++ [(m, c)]) r) name0 es c1 E) as (pre & post & E1 & E2 & E3).
    exists name0, (r ++ [m]), pre, ((name0, c1) :: post), (alter (fun l => l ++ [(m, c)]) r c1), post. rewrite E2. auto.
Qed.

Definition FF {A S} (x : outcome A S) : Prop := exists s', x = Failed FFuel s'.

Section Inside.
Context (cf : config) (k : choices) (l : list copt_name) (has : bool) (from to : path) (q p : loc) (m : str) (i di : N) (dl : list (str * tree))
  (s : fs) (b : bool) (lk : nat) (B n : nat) (j : N) (name0 : str) (s0 : fs) (h : N) (ds : list (N * list (str * dtype))) (dt : dtype) (more : list (str * dtype)).
Hypothesis (Hw : wf s) (Cf : canon from) (Ct : canon to) (Hl : copying_tree l) (Hb : if b then from_follows l else ~ from_follows l)
  (Hf : find_at k s true (native from) = Found lk q) (Hp : get (f_root s) p = Some (Dir di dl)) (Ha : assoc m dl = None)
  (Hm : find_entry k s (native to) = Missing p m)
  (Hok : forall r x, look (f_root s) (q ++ r) = Some (NLeaf x) -> copyable cf k s l x /\ short s B x)
  (Hbel : below (q ++ [name0]) (p ++ [m]) = true) (Hg0 : good_name name0 = true) (Hdt : dt <> DT_OTHER).

Definition entry_prog (p' : path) (d : cached) : prog (unit * ecode) :=
  let! e := dir_iter_deref cf (Some (Stream (Some h) from (Entry p' d))) in
  let! fn := lift (filename Posix (de_path e)) in
  let! to2 := lift (path_div Posix (cf_el cf) to fn) in
  copy_impl cf n has (de_path e) to2 (options l).

Lemma run_copy_until : forall todo es2 l1 l1' u p' d kf hn t0 x, wf u ->
  get (f_root s) q = Some (Dir i (l1 ++ todo ++ es2)) -> ~ In name0 (map fst (l1 ++ todo)) ->
  (hn, t0) :: x = listing k s0 todo ++ (name0, dt) :: more -> f_dirs u = (h, x) :: ds ->
  planted (set_dirs s (f_dirs u)) u p m (Dir i l1) (Dir j l1') -> canon p' -> native p' = append_text (native from) hn ->
  (forall l2 u p' d, wf u -> planted (set_dirs s (f_dirs u)) u p m (Dir i (l1 ++ todo)) (Dir j l2) -> canon p' -> native p' = append_text (native from) name0 ->
    FF (run (fsk k) (entry_prog p' d) u)) ->
  FF (run (fsk k) (copy_loop cf (fun a b => copy_impl cf n has a b (options l)) n has from to kf (Some (Stream (Some h) from (Entry p' d))) None) u).
Proof.
  induction todo as [|[name c] todo IH]; intros es2 l1 l1' u p' d kf hn t0 x Hwu Hg Hnin Hx Hd Hpl Cp' Np' Hlast; (destruct kf as [|kf]; [eexists; reflexivity|]).
  - cbn [listing map app] in Hx. injection Hx as -> -> ->. rewrite app_nil_r in Hlast. destruct (Hlast l1' u p' d Hwu Hpl Cp' Np') as [s' Hs].
    exists s'. cbn [copy_loop is_end failed]. rewrite run_bind, run_unwinding. unfold entry_prog in Hs. rewrite Hs. reflexivity.
  - cbn [listing map app fst snd] in Hx. injection Hx as -> -> Hx.
    assert (Hne : name <> name0). { intros ->. apply Hnin. rewrite map_app. apply in_or_app. right. left. reflexivity. }
    assert (Hbe : below (q ++ [name]) (p ++ [m]) = false).
    { destruct (below (q ++ [name]) (p ++ [m])) eqn:E; auto. exfalso. apply below_spec in E as [v1 E1], Hbel as [v2 E2]. rewrite E1, <- !app_assoc in E2. apply app_inv_head in E2.
      cbn in E2. injection E2 as E2 _. auto. }
    destruct (run_copy_entry cf k l has from to q p m i di dl s b lk B (n + (size c + B)) j Hw Ct Hb Hf Hp Ha Hm Hok l1 l1' name c (todo ++ es2) u p' d h Hwu Hg
      (copies_any cf k l c Hl) ltac:(lia) Hbe Hpl Cp' Np') as (u1 & c' & Hr & Hwu1 & Hpl1).
    assert (Hap : approx (entry_prog p' d) (let! e := dir_iter_deref cf (Some (Stream (Some h) from (Entry p' d))) in
      let! fn := lift (filename Posix (de_path e)) in let! to2 := lift (path_div Posix (cf_el cf) to fn) in copy_impl cf (n + (size c + B)) has (de_path e) to2 (options l))).
    { unfold entry_prog. apply ap_bind; [apply ap_refl|]. intros e. apply ap_bind; [apply ap_refl|]. intros fn. apply ap_bind; [apply ap_refl|]. intros to2. apply ap_copy. lia. }
    destruct (run_approx _ _ _ Hap _ (fsk k) u) as [[s' E]|E].
    { exists s'. cbn [copy_loop is_end failed]. rewrite run_bind, run_unwinding. unfold entry_prog in E. rewrite E. reflexivity. }
    rewrite Hr in E. unfold entry_prog in E.
    assert (Hd1 : f_dirs u1 = f_dirs u) by (destruct Hpl1 as (_ & _ & _ & _ & (_ & _ & H & _) & _); exact H).
    cbn [copy_loop is_end failed]. rewrite run_bind, run_unwinding, E. cbn [failed snd]. rewrite run_bind. unfold dir_iter_increment. rewrite run_bind.
    destruct n as [|n'] eqn:En; [eexists; reflexivity|].
    assert (Hx2 : exists hn2 t2 x2, x = (hn2, t2) :: x2 /\ good_name hn2 = true /\ t2 <> DT_OTHER).
    { destruct todo as [|[nm2 c2] todo]; cbn [listing map app fst snd] in Hx; rewrite Hx; [exists name0, dt, more; auto|].
      exists nm2, (dtype_of k s0 c2), (listing k s0 todo ++ (name0, dt) :: more). split; [reflexivity|]. split; [|apply dtype_of_ok].
      pose proof (wf_get _ _ _ (wf_root s Hw) Hg) as Hwt. apply wf_tree_dir in Hwt as (_ & Hgn & _). rewrite Forall_forall in Hgn. apply (Hgn (nm2, c2)).
      apply in_or_app. right. right. left. reflexivity. }
    destruct Hx2 as (hn2 & t2 & x2 & Ex & Hg2 & Ht2). rewrite Ex in Hx, Hd.
    destruct (fs_advance cf k n' u1 h hn2 t2 x2 ds from (Entry p' d)) as (p2 & Hadv & Cp2 & Np2); auto; [rewrite Hd1; exact Hd|].
    rewrite Hadv. cbn iota. cbn [run fst snd de_data]. rewrite <- En in *.
    set (u2 := set_dirs u1 ((h, x2) :: ds)) in *.
    assert (Hwu2 : wf u2) by (eapply wf_unchanged; [exact Hwu1|reflexivity|reflexivity]).
    apply (IH es2 (l1 ++ [(name, c)]) (l1' ++ [(name, c')]) u2 p2 (iter_data d (told t2)) kf hn2 t2 x2); auto.
    + rewrite <- app_assoc. exact Hg.
    + rewrite <- app_assoc. exact Hnin.
    + destruct Hpl1 as (P1 & P2 & P3 & P4 & (P5 & P6 & P7 & P8) & P9). split; [exact P1|]. split; [exact P2|]. split; [exact P3|]. split; [exact P4|].
      split; [split; [exact P5|split; [exact P6|split; [reflexivity|exact P8]]]|exact P9].
    + intros l2 u3 p3 d3 H1 H2. rewrite <- app_assoc in H2. apply (Hlast l2); auto.
Qed.

End Inside.

Lemma reported_copyable : forall x, x <> [] -> reported_text x <> [] /\ length (reported_text x) <= length x.
Proof.
  intros x Hx. unfold reported_text. destruct (negb (is_nil x) && only_slashes x); [|auto]. split; [discriminate|]. destruct x; [congruence|]. cbn. lia.
Qed.

Lemma copy_inside : forall cf k l has, copying_tree l -> forall n s from to q i es p m b lk, wf s -> canon from -> canon to -> (if b : bool then from_follows l else ~ from_follows l) ->
  find_at k s b (native from) = Found lk q -> get (f_root s) q = Some (Dir i es) -> find_entry k s (native to) = Missing p m -> below q p = true ->
  (forall r x, look (f_root s) (q ++ r) = Some (NLeaf x) -> copyable cf k s l x) ->
  FF (run (fsk k) (copy_impl cf n has from to (options l)) s).
Proof.
  intros cf k l has Hlt. pose proof Hlt as (Hrec & Hcs & Hsk & Hhl & Hdo).
  induction n as [|n IHn]; intros s from to q i es p m b lk Hw Cf Ct Hb Hf Hg Hm Hbel Hok; [eexists; reflexivity|].
  assert (Hq : look (f_root s) q = Some (NDir i)) by (apply look_dir; eauto).
  assert (Hft : find_at k s true (native from) = Found lk q) by (destruct b; auto; eapply find_dir_true; eauto).
  assert (Hs : sees k s (native from) (from_follows l) (Val (NDir i))).
  { destruct b; [left|right]; auto; rewrite Hf; cbn; rewrite Hq; reflexivity. }
  assert (Ht : sees k s (native to) (to_follows l) (Err ENOENT)) by (left; [split; auto|]; eapply entry_absent; eauto).
  pose proof (entry_missing _ _ _ _ _ Hm) as (di & dl & G1 & G2 & G3).
  set (s1 := make k s p m (Dir (f_next s) []) (mode_bits (m_perm (f_meta s i))) 2).
  destruct (make_look k s p m (Dir (f_next s) []) (mode_bits (m_perm (f_meta s i))) 2 di dl G1 G2) as (K1 & K2 & K3 & K4 & K5 & K6 & K7). fold s1 in K1, K2, K3, K4, K5, K6, K7.
  assert (Hw1 : wf s1).
  { apply (wf_make s Hw p m (Dir (f_next s) []) _ 2 k di dl); auto; [apply wf_tree_dir; repeat constructor|]. intros x [<-|[]]. auto. }
  assert (Hrun : run (fsk k) (copy_impl cf (S n) has from to (options l)) s =
    run (fsk k) (let! i := dir_iter_ctor cf n has from 0 in if failed (snd i) then Ret (tt, snd i)
      else copy_loop cf (fun a b => copy_impl cf n has a b (options l)) n has from to n (fst i) None) s1).
  { rewrite (run_copy_suits cf k s n has from to l (NDir i) (Err ENOENT) Hs Ht); [|right; left; auto|left; auto].
    unfold copy_tail. destruct (type_tests s (NDir i)) as (-> & -> & ->). cbn [type_of]. change (file_type_eqb ft_directory ft_symlink) with false.
    change (file_type_eqb ft_directory ft_regular) with false. change (file_type_eqb ft_directory ft_directory) with true. cbv iota. cbn [andb].
    apply options_unset in Hcs. rewrite Hcs.
    assert (Hr : co_set co_recursive (options l) || (options l =? 0)%N = true).
    { destruct Hrec as [H| ->]; [|reflexivity]. apply options_set in H. rewrite H. reflexivity. }
    rewrite Hr. cbn [to_status]. rewrite missing_not_exists. cbn [negb]. rewrite run_bind, (run_like k s has to from lk q i p m Hft Hq Hm). reflexivity. }
  rewrite Hrun. rewrite run_bind. clear Hrun.
  assert (Hf1 : find_at k s1 true (native from) = Found lk q) by (eapply find_extends; eauto).
  apply below_spec in Hbel as [r Hr]. subst p.
  destruct (source_entries s q i es r m (Dir (f_next s) []) di dl Hg G1 G2) as (name0 & r0 & pre & es2 & c0 & post & Er & Ees & Hnin & Hg1).
  change (get (f_root s1) q = Some (Dir i (pre ++ (name0, c0) :: post))) in Hg1.
  assert (Hbel0 : below (q ++ [name0]) ((q ++ r) ++ [m]) = true).
  { apply below_spec. exists r0. rewrite <- !app_assoc. f_equal. exact Er. }
  pose proof (wf_get _ _ _ (wf_root s1 Hw1) Hg1) as Hwt. apply wf_tree_dir in Hwt as (_ & Hgn & _).
  assert (Hg0 : good_name name0 = true) by (rewrite Forall_forall in Hgn; apply (Hgn (name0, c0)); apply in_or_app; right; left; reflexivity).
  destruct (bound_exists s (Dir i es)) as [B HB].
  assert (Hpl0 : planted s s1 (q ++ r) m (Dir i []) (Dir (f_next s) [])).
  { split; [reflexivity|]. split; [|split; [|split; [|split]]]; auto.
    - intros [|a r1]; cbn; auto. unfold upd. rewrite N.eqb_refl. reflexivity.
    - intros x _. rewrite K4. auto.
    - split; [cbn; lia|]. intros [|? ?] ? Hy; [injection Hy as <-; cbn; lia|discriminate]. }
  (* the first entry *)
  assert (Hhd : exists hn hc tl, pre ++ (name0, c0) :: post = (hn, hc) :: tl) by (destruct pre as [|[a c] pre]; cbn; eauto).
  destruct Hhd as (hn & hc & tl & Ehd). rewrite Ehd in Hg1.
  destruct (fs_ctor_cons cf k (3 + n) s1 has from lk q i hn hc tl Hw1 Cf Hf1 Hg1) as (p' & Cp' & Np' & Hctor); [lia|].
  destruct (run_approx _ _ _ (ap_dir_iter_ctor cf n (3 + n) has from 0 ltac:(lia)) _ (fsk k) s1) as [[s' E]|E]; [rewrite E; eexists; reflexivity|].
  rewrite Hctor in E. rewrite E. cbn [failed snd fst]. clear E Hctor.
  set (u := opened s1 (listing k s1 tl)) in *.
  assert (Hwu : wf u) by (eapply wf_unchanged; [exact Hw1|reflexivity|reflexivity]).
  apply (run_copy_until cf k l has from to q (q ++ r) m i di dl s b lk B n (f_next s) name0 s1 (f_handle s1) (f_dirs s1) (dtype_of k s1 c0) (listing k s1 post)
    Hw Cf Ct Hlt Hb Hft G1 G2 Hm) with (todo := pre) (es2 := es2) (l1 := @nil (str * tree)) (l1' := @nil (str * tree)) (hn := hn) (t0 := dtype_of k s1 hc) (x := listing k s1 tl); auto.
  - intros r1 x Hx. split; [apply (Hok r1 x Hx)|]. apply (HB r1 x). unfold look in *. rewrite get_app, Hg in Hx. exact Hx.
  - apply dtype_of_ok.
  - cbn [app]. rewrite <- Ees. exact Hg.
  - change ((hn, dtype_of k s1 hc) :: listing k s1 tl) with (listing k s1 ((hn, hc) :: tl)). rewrite <- Ehd. unfold listing. rewrite map_app. reflexivity.
  - destruct Hpl0 as (P1 & P2 & P3 & P4 & (P5 & P6 & P7 & P8) & P9). split; [exact P1|]. split; [exact P2|]. split; [exact P3|]. split; [exact P4|].
    split; [split; [exact P5|split; [exact P6|split; [reflexivity|exact P8]]]|exact P9].
  - (* the entry that leads to the destination *)
    cbn [app]. intros l2 v p2 d2 Hwv (R1 & R2 & R3 & R4 & R5 & R6) Cp2 Np2. cbn [f_root set_dirs] in R1.
    change (mirrors s v (Dir i pre) (Dir (f_next s) l2)) in R2. change (same_bodies s v) in R3. change (same_metas s v) in R4.
    assert (He : extends s v) by (apply (insert_extends s v (q ++ r) m (Dir (f_next s) l2) di dl); auto; apply R5).
    assert (Hqv : look (f_root v) q = Some (NDir i)) by (apply He; auto).
    assert (Hfv : find_at k v true (native from) = Found lk q) by (eapply find_extends; eauto).
    assert (Hdest : get (f_root v) ((q ++ r) ++ [m]) = Some (Dir (f_next s) l2)).
    { rewrite R1. replace ((q ++ r) ++ [m]) with ((q ++ r) ++ m :: []) by reflexivity. rewrite (get_insert_new (q ++ r) m _ _ di dl [] G1 G2). reflexivity. }
    assert (Hdl : look (f_root v) ((q ++ r) ++ [m]) = Some (NDir (f_next s))) by (apply look_dir; eauto).
    destruct (entry_filled k s v (native to) (q ++ r) m (f_next s) Hm He Hdl) as [lk' Hto].
    assert (Hfresh' : assoc name0 l2 = None).
    { specialize (R2 [name0]). unfold look in R2. cbn in R2. apply assoc_None in Hnin. rewrite Hnin in R2. cbn in R2. destruct (assoc name0 l2) as [[]|]; [destruct R2|destruct R2|auto]. }
    assert (Hnone : look (f_root v) (((q ++ r) ++ [m]) ++ [name0]) = None) by (apply look_None; rewrite get_snoc, Hdest; auto).
    destruct (filename_child p2 _ name0 Cp2 Np2 Hg0) as (fn & Ef & Cfn & Nfn).
    destruct (gives_div (cf_el cf) to fn Ct Cfn) as (to2 & Eto & Cto & Nto).
    rewrite Nfn in Nto. rewrite append_collapse in Nto; [|apply canon_native; auto|rewrite <- Nfn; apply canon_native; auto].
    assert (Hvace : find_entry k v (native to2) = Missing ((q ++ r) ++ [m]) name0).
    { rewrite Nto, (entry_child k v (native to) name0 lk' ((q ++ r) ++ [m]) (f_next s) Hwv Hto Hdl Hg0), (steps_child _ _ _ _ _ _ (f_next s) Hdl Hg0), Hnone. reflexivity. }
    assert (Hc1 : exists i1 es1, get (f_root v) (q ++ [name0]) = Some (Dir i1 es1)).
    { assert (E : get (f_root v) ((q ++ [name0]) ++ r0) = Some (Dir (f_next s) l2)).
      { rewrite <- Hdest. f_equal. rewrite <- !app_assoc. f_equal. symmetry. exact Er. }
      rewrite get_app in E. destruct (get (f_root v) (q ++ [name0])) as [[x|x es1]|]; [|eauto|discriminate]. destruct r0; discriminate E. }
    destruct Hc1 as (i1 & es1 & Hc1).
    unfold entry_prog. cbn [dir_iter_deref ds_entry]. rewrite run_bind. cbn [run de_path]. rewrite run_bind, Ef. cbn [lift run]. rewrite run_bind, Eto. cbn [lift run].
    apply (IHn v p2 to2 (q ++ [name0]) i1 es1 ((q ++ r) ++ [m]) name0 b lk); auto.
    + rewrite Np2. eapply child_found; eauto. intros x Hx. discriminate.
    + intros r1 x Hx. rewrite <- app_assoc in Hx.
      destruct (below ((q ++ r) ++ [m]) (q ++ [name0] ++ r1)) eqn:Eb.
      * apply below_spec in Eb as [r2 Eb]. rewrite Eb in Hx. assert (Hx2 : look (Dir (f_next s) l2) r2 = Some (NLeaf x)) by (unfold look in *; rewrite get_app, Hdest in Hx; exact Hx).
        specialize (R2 r2). rewrite Hx2 in R2. unfold same_object in R2. destruct (look (Dir i pre) r2) as [[y|y]|] eqn:Ey; try destruct R2.
        -- assert (Hy : look (f_root s) (q ++ r2) = Some (NLeaf y)).
           { unfold look in *. rewrite get_app, Hg, Ees. destruct r2 as [|a r2]; [discriminate Ey|]. cbn [get] in *. rewrite assoc_app. destruct (assoc a pre); [exact Ey|discriminate Ey]. }
           pose proof (Hok r2 y Hy) as Hcy. destruct H as (d0 & B1 & B2 & _). left. exists d0. split; auto. destruct Hcy as [(d1 & B3 & Sd)|(z & B3 & _)]; congruence.
        -- assert (Hy : look (f_root s) (q ++ r2) = Some (NLeaf y)).
           { unfold look in *. rewrite get_app, Hg, Ees. destruct r2 as [|a r2]; [discriminate Ey|]. cbn [get] in *. rewrite assoc_app. destruct (assoc a pre); [exact Ey|discriminate Ey]. }
           pose proof (Hok r2 y Hy) as Hcy. destruct H as (z & B1 & B2). right. exists (reported_text z). split; auto.
           destruct Hcy as [(d1 & B3 & _)|(z2 & B3 & C1 & C2 & C3)]; [congruence|]. assert (z2 = z) by congruence. subst z2. destruct (reported_copyable z C2) as [X1 X2]. split; auto. split; auto. lia.
      * assert (Hx2 : look (f_root s) (q ++ [name0] ++ r1) = Some (NLeaf x)).
        { rewrite <- Hx, R1. symmetry. eapply look_insert_out; eauto. }
        assert (Hlt2 : (x < f_next s)%N) by (eapply look_fresh; eauto).
        pose proof (Hok _ x Hx2) as Hcx. unfold copyable in *. rewrite R3 by auto. exact Hcx.
Qed.

(** copy of a directory of files and directories (and of symlinks, with copy_symlinks) to a missing place inside it goes on for ever: the copy is made inside what is
    still to be copied. *)
Theorem C92_into_itself_refuted : forall cf k s l has from to q i p m, wf s -> canon from -> canon to -> copying_tree l ->
  sees k s (native from) (from_follows l) (Val (NDir i)) -> leads_to k s (native from) q (NDir i) ->
  names_missing k s (native to) p m -> below q p = true ->
  (forall r x, look (f_root s) (q ++ r) = Some (NLeaf x) -> copyable cf k s l x) ->
  endless (fsk k) (fun n => copy_impl cf n has from to (options l)) s.
Proof.
  intros cf k s l has from to q i p m Hw Cf Ct Hl Hs (lk & Hf & Hq) Hm Hbel Hok n.
  pose proof Hq as Hq'. apply look_dir in Hq' as (es & Hg).
  assert (Hsrc : exists (b : bool) lk, (if b then from_follows l else ~ from_follows l) /\ find_at k s b (native from) = Found lk q).
  { inversion Hs as [H1 H2|H1 H2]; [exists true, lk; auto|]. exists false. destruct (find_at k s false (native from)) as [l2 q2| |] eqn:F; try discriminate.
    cbn [node_at] in H2. destruct (look (f_root s) q2) eqn:L; [|discriminate]. injection H2 as ->. pose proof (find_dir_true _ _ _ _ _ _ F L) as F2. rewrite Hf in F2. injection F2 as <- <-. eauto. }
  destruct Hsrc as (b & lk' & Hb & Hf'). apply (copy_inside cf k l has Hl n s from to q i es p m b lk'); auto.
Qed.

(** To a missing place outside, the copy ends. *)
Theorem C92_outside : forall cf k s l has from to q i p m, wf s -> canon from -> canon to -> copying_tree l ->
  sees k s (native from) (from_follows l) (Val (NDir i)) -> leads_to k s (native from) q (NDir i) ->
  names_missing k s (native to) p m -> below q p = false ->
  (forall r x, look (f_root s) (q ++ r) = Some (NLeaf x) -> copyable cf k s l x) ->
  ends (fsk k) (fun n => copy_impl cf n has from to (options l)) s.
Proof.
  intros cf k s l has from to q i p m Hw Cf Ct Hl Hs Hq Hm Hbel Hok.
  destruct (C34_copy_tree_partial cf k s l has from to q i p m) as [N HN]; auto. exists N. destruct (HN N) as (s' & E & _); auto. intros s2. rewrite E. discriminate.
Qed.

(** * Cases *)

(** The five bytes of /a/f, with bounds that are too small and large enough. *)
Example C92_reading_example : let c n := copy_file_impl portable_config n true (topath (lit "f")) (topath (lit "new")) 0 in
  cf_sendfile portable_config = false /\
  match run (metered (fsk demo_choices)) (c 1) (demo, 0) with Failed FFuel (_, m) => m = 3 | _ => False end /\
  match run (metered (fsk demo_choices)) (c 3) (demo, 0) with Done (true, None) (_, m) => m = 5 | _ => False end.
Proof. intros c. split; [reflexivity|]. split; vm_compute; reflexivity. Qed.

Example C92_alone_example :
  match run (fsk demo_choices) (copy_file_impl plain_config 6 true (topath (lit "f")) (topath (lit "d/g")) (options [co_overwrite_existing])) demo with
  | Done (true, None) s' => f_body s' 6 = BReg (lit "hello") | _ => False end.
Proof. vm_compute. reflexivity. Qed.

(** /a/f is cut to two bytes while it is copied. *)
Example C92_shortened_example : is_file demo_choices demo (lit "f") [lit "a"; lit "f"] 3 (lit "hello") /\
  leads_nowhere demo_choices demo (lit "d/new") [lit "a"; lit "d"] (lit "new") /\ cf_sendfile plain_config = true /\
  cut 3 (firstn 2 (lit "hello")) = repeat (fun s => s) 5 ++ [fun s => set_body s 3 (BReg (lit "he"))] /\
  match run (interfered demo_choices) (copy_file_impl plain_config 30 true (topath (lit "f")) (topath (lit "d/new")) 0) (demo, cut 3 (lit "he")) with
  | Failed FFuel (s', _) => f_body s' (f_next demo) = BReg (lit "he") | _ => False end.
Proof.
  split; [exists 40; split; [vm_compute; reflexivity|split; reflexivity]|]. split; [vm_compute; reflexivity|]. split; [reflexivity|]. split; [reflexivity|]. vm_compute. reflexivity.
Qed.

Example C30_unsized_example : match run (unsized demo_choices) (copy_file_impl plain_config 30 true (topath (lit "f")) (topath (lit "d/new")) 0) demo with
  | Done (true, None) s' => f_body s' 3 = BReg (lit "hello") /\ f_body s' (f_next demo) = BReg [] | _ => False end.
Proof. vm_compute. split; reflexivity. Qed.

(** /a copied to /a/d/new: with the bound 15 there are already three copies, one in the other. *)
Example C92_into_itself_example : let k := demo_choices in let s := demo in let l := [co_recursive; co_copy_symlinks] in
  leads_to k s (lit "/a") [lit "a"] (NDir 2) /\ names_missing k s (lit "/a/d/new") [lit "a"; lit "d"] (lit "new") /\ below [lit "a"] [lit "a"; lit "d"] = true /\
  match run (fsk k) (copy_impl plain_config 15 true (topath (lit "/a")) (topath (lit "/a/d/new")) (options l)) s with
  | Failed FFuel s' => look (f_root s') [lit "a"; lit "d"; lit "new"; lit "d"; lit "new"; lit "d"; lit "new"] <> None
  | _ => False
  end.
Proof.
  intros k s l. split; [exists 40; split; vm_compute; reflexivity|]. split; [vm_compute; reflexivity|]. split; [reflexivity|]. vm_compute. discriminate.
Qed.

Print Assumptions C92_reading_partial.
Print Assumptions C92_alone.
Print Assumptions C92_outside.
Print Assumptions ends_once.
Print Assumptions C92_shortened_refuted.
Print Assumptions C30_unsized_refuted.
Print Assumptions C92_into_itself_refuted.
