(** Properties of the pure arithmetic and bitmask parts: C41, C42 (the product), C54, C55, C56, C57. *)
From Coq Require Import Ascii String Bool Arith NArith ZArith Lia List.
From Verif Require Import Str PathModel PathSpec StrProofs PathProofs PathOps PathOps2 PathNormal PathNormal2 PathMisc PathReach PathLaws FlagsModel TimeModel WinPermsModel ErrorModel.
Import ListNotations.

(** * C54 bitmask operators *)

Section C54.
Local Open Scope N_scope.

Lemma trunc_small : forall w x, x < 2 ^ w -> trunc w x = x.
Proof. intros. apply N.mod_small. auto. Qed.

Lemma testbit_high : forall w x i, x < 2 ^ w -> w <= i -> N.testbit x i = false.
Proof.
  intros w x i Hx Hi. rewrite <- (N.mod_small _ _ Hx). apply N.mod_pow2_bits_high. auto.
Qed.

Lemma below_of_bits : forall w x, (forall i, w <= i -> N.testbit x i = false) -> x < 2 ^ w.
Proof.
  intros w x H. replace x with (x mod 2 ^ w).
  - apply N.mod_lt. apply N.pow_nonzero. discriminate.
  - apply N.bits_inj. intros i. destruct (N.lt_ge_cases i w) as [Hi|Hi].
    + apply N.mod_pow2_bits_low. auto.
    + rewrite N.mod_pow2_bits_high, H; auto.
Qed.

Lemma trunc_bit : forall w x i, i < w -> N.testbit (trunc w x) i = N.testbit x i.
Proof. intros. apply N.mod_pow2_bits_low. auto. Qed.

Lemma trunc_lt : forall w x, trunc w x < 2 ^ w.
Proof. intros. apply N.mod_lt, N.pow_nonzero. discriminate. Qed.

Lemma ones32 : forall i, i < 32 -> N.testbit (2 ^ 32 - 1) i = true.
Proof. intros i Hi. change (2 ^ 32 - 1) with (N.ones 32). apply N.ones_spec_low. auto. Qed.

(** The four operators on values of an enumeration with a [w] bit underlying type: the result is a value of the
    enumeration and each of its bits is the boolean operation on the bits of the operands. *)
Theorem C54_bitwise : forall w a b, (w = 8 \/ w = 16 \/ w = 32) -> a < 2 ^ w -> b < 2 ^ w ->
  (op_and w a b < 2 ^ w /\ forall i, N.testbit (op_and w a b) i = N.testbit a i && N.testbit b i) /\
  (op_or w a b < 2 ^ w /\ forall i, N.testbit (op_or w a b) i = N.testbit a i || N.testbit b i) /\
  (op_xor w a b < 2 ^ w /\ forall i, N.testbit (op_xor w a b) i = xorb (N.testbit a i) (N.testbit b i)) /\
  (op_not w a < 2 ^ w /\ forall i, i < w -> N.testbit (op_not w a) i = negb (N.testbit a i)).
Proof.
  intros w a b Hw Ha Hb.
  assert (Hspec : forall f g, (forall i, N.testbit f i = g (N.testbit a i) (N.testbit b i)) ->
            g false false = false -> trunc w f < 2 ^ w /\ forall i, N.testbit (trunc w f) i = g (N.testbit a i) (N.testbit b i)).
  { intros f g Hf Hg. split; [apply trunc_lt|]. intros i. destruct (N.lt_ge_cases i w) as [Hi|Hi].
    - rewrite trunc_bit; auto.
    - rewrite (testbit_high w (trunc w f)), (testbit_high w a), (testbit_high w b); auto using trunc_lt. }
  split; [|split; [|split]].
  - apply (Hspec (N.land a b) andb); auto. intros; apply N.land_spec.
  - apply (Hspec (N.lor a b) orb); auto. intros; apply N.lor_spec.
  - apply (Hspec (N.lxor a b) xorb); auto. intros; apply N.lxor_spec.
  - split; [apply trunc_lt|]. intros i Hi. unfold op_not. rewrite trunc_bit; auto.
    rewrite N.lxor_spec, ones32; [apply xorb_true_r|]. destruct Hw as [->|[->| ->]]; lia.
Qed.

(** Membership in a combination, for any enumeration whose values are bits. *)
Lemma combine_bits : forall {T} w (value : T -> N) l acc i, i < w ->
  N.testbit (fold_left (fun acc x => op_or w acc (value x)) l acc) i
  = N.testbit acc i || existsb (fun x => N.testbit (value x) i) l.
Proof.
  intros T w value l. induction l as [|x l IH]; intros acc i Hi; cbn [fold_left existsb].
  - rewrite orb_false_r. reflexivity.
  - rewrite IH; auto. unfold op_or. rewrite trunc_bit, N.lor_spec, orb_assoc; auto.
Qed.

Lemma is_set_pow2 : forall w a i, i < w -> is_set w a (2 ^ i) = N.testbit a i.
Proof.
  intros w a i Hi. unfold is_set, op_and.
  destruct (N.testbit a i) eqn:Hb.
  - apply negb_true_iff, N.eqb_neq. intros H. apply (f_equal (fun x => N.testbit x i)) in H.
    rewrite trunc_bit, N.land_spec, Hb, N.pow2_bits_true, N.bits_0 in H; auto. discriminate.
  - apply negb_false_iff, N.eqb_eq. apply N.bits_inj. intros j. rewrite N.bits_0.
    destruct (N.lt_ge_cases j w) as [Hj|Hj].
    + rewrite trunc_bit, N.land_spec, N.pow2_bits_eqb; auto. destruct (N.eqb_spec i j) as [->|]; [rewrite Hb|]; auto using andb_false_r.
    + apply (testbit_high w); auto using trunc_lt.
Qed.

Lemma is_set_combine : forall {T} w (value : T -> N) (bit : T -> N) l x,
  (forall y, In y l \/ y = x -> value y = 2 ^ bit y /\ bit y < w) ->
  (forall y, In y l -> bit x = bit y -> x = y) ->
  is_set w (combine w value l) (value x) = true <-> In x l.
Proof.
  intros T w value bit l x Hv Hinj. destruct (Hv x) as [Hx Hxw]; auto. rewrite Hx, is_set_pow2; auto.
  unfold combine. rewrite combine_bits, N.bits_0; auto. cbn [orb]. rewrite existsb_exists. split.
  - intros (y & Hy & Hb). destruct (Hv y) as [Hvy _]; auto. rewrite Hvy, N.pow2_bits_eqb in Hb.
    apply N.eqb_eq in Hb. rewrite (Hinj y); auto.
  - intros Hin. exists x. split; auto. rewrite Hx. apply N.pow2_bits_true.
Qed.

(** The option tests used by the operations see exactly the flags the caller combined, for
    copy_options, perm_options and directory_options. *)
Theorem C54_options_seen :
  (forall l x, is_set width_copy_options (combine width_copy_options copt_value l) (copt_value x) = true <-> In x l) /\
  (forall l x, is_set width_perm_options (combine width_perm_options popt_value l) (popt_value x) = true <-> In x l) /\
  (forall l x, is_set width_directory_options (combine width_directory_options dopt_value l) (dopt_value x) = true <-> In x l).
Proof.
  split; [|split]; intros l x.
  - apply (is_set_combine _ _ (fun x => N.log2 (copt_value x))).
    + intros y _. destruct y; split; reflexivity.
    + intros y _. destruct x, y; auto; discriminate.
  - apply (is_set_combine _ _ (fun x => N.log2 (popt_value x))).
    + intros y _. destruct y; split; reflexivity.
    + intros y _. destruct x, y; auto; discriminate.
  - apply (is_set_combine _ _ (fun x => N.log2 (dopt_value x))).
    + intros y _. destruct y; split; reflexivity.
    + intros y _. destruct x, y; auto; discriminate.
Qed.

(** For perms this holds of all permissions except set_gid and sticky_bit. *)
Theorem C54_perms_seen_partial : forall l x,
  ~ In set_gid (x :: l) -> ~ In sticky_bit (x :: l) ->
  is_set width_perms (combine width_perms perm_value l) (perm_value x) = true <-> In x l.
Proof.
  intros l x H1 H2. apply (is_set_combine _ _ (fun x => N.log2 (perm_value x))).
  - intros y Hy. assert (In y (x :: l)) by (destruct Hy as [| ->]; cbn; auto).
    destruct y; try (split; reflexivity); contradiction.
  - intros y Hy. assert (In y (x :: l)) by (cbn; auto). assert (In x (x :: l)) by (cbn; auto).
    destruct x, y; auto; try discriminate; contradiction.
Qed.

(** set_gid and sticky_bit have the value 0: wherever they are combined with other permissions they have no effect, and they are
    never seen, whatever was combined. *)
Theorem C54_perms_refuted : forall x l1 l2, x = set_gid \/ x = sticky_bit ->
  is_set width_perms (combine width_perms perm_value (l1 ++ x :: l2)) (perm_value x) = false /\
  combine width_perms perm_value (l1 ++ x :: l2) = combine width_perms perm_value (l1 ++ l2).
Proof.
  intros x l1 l2 Hx. assert (Hv : perm_value x = 0) by (destruct Hx; subst; reflexivity). rewrite Hv. split.
  - unfold is_set, op_and. rewrite N.land_0_r. reflexivity.
  - unfold combine. rewrite !fold_left_app. cbn [fold_left]. f_equal. rewrite Hv. unfold op_or. rewrite N.lor_0_r.
    assert (H : forall l a, a < 2 ^ width_perms -> fold_left (fun acc y => op_or width_perms acc (perm_value y)) l a < 2 ^ width_perms).
    { induction l as [|y l IH]; intros a Ha; cbn [fold_left]; auto. apply IH. unfold op_or. apply N.mod_lt. discriminate. }
    apply N.mod_small, H. reflexivity.
Qed.

Example C54_example :
  is_set 16 (combine 16 copt_value [co_recursive; co_overwrite_existing]) (copt_value co_overwrite_existing) = true /\
  is_set 16 (combine 16 copt_value [co_recursive; co_overwrite_existing]) (copt_value co_skip_existing) = false /\
  op_not 8 2 = 253 /\ op_xor 32 5 6 = 3.
Proof. repeat split; reflexivity. Qed.

Example C54_perms_example : ~ In set_gid [owner_read; others_exec] /\ ~ In sticky_bit [owner_read; others_exec] /\
  is_set 32 (combine 32 perm_value [owner_read; others_exec]) (perm_value others_exec) = true.
Proof. split; [|split]; [cbn; intuition discriminate..|reflexivity]. Qed.

End C54.

(** * C41 time conversion *)

Section C41.
Local Open Scope Z_scope.

(** What a correct conversion returns: the number of nanoseconds, when it is representable. *)
Definition exact_time (t : timespec) : Z := tv_sec t * 1000000000 + tv_nsec t.
Definition representable (z : Z) : Prop := - 2 ^ 63 <= z < 2 ^ 63.

(** A timespec as the kernel delivers it: 64 bit seconds, nanoseconds in [0, 10^9). *)
Definition kernel_timespec (t : timespec) : Prop :=
  - 2 ^ 63 <= tv_sec t < 2 ^ 63 /\ 0 <= tv_nsec t < 1000000000.

Lemma sint_ok : forall m z, representable z -> sint m z = Ok z.
Proof.
  intros m z [H1 H2]. unfold sint, in_i64, i64_min, i64_max.
  replace ((- 2 ^ 63 <=? z) && (z <=? 2 ^ 63 - 1))%bool with true; auto.
  symmetry. apply andb_true_intro. split; apply Z.leb_le; lia.
Qed.

Lemma sint_bad : forall z, ~ representable z -> sint Strict z = UB.
Proof.
  intros z H. unfold sint, in_i64, i64_min, i64_max, representable in *.
  destruct ((- 2 ^ 63 <=? z) && (z <=? 2 ^ 63 - 1))%bool eqn:E; auto.
  apply andb_prop in E. destruct E as [E1 E2]. apply Z.leb_le in E1, E2. lia.
Qed.

Lemma convert_exact : forall m t, 0 <= tv_nsec t < 1000000000 -> representable (exact_time t) ->
  FileTimeTypeFromPosixTimeSpec m t = Ok (exact_time t).
Proof.
  intros m [s n] Hn Hr. unfold exact_time, representable in *. cbn [tv_sec tv_nsec] in *.
  unfold FileTimeTypeFromPosixTimeSpec, to_ns, ns_per_s. cbn [tv_sec tv_nsec].
  destruct (0 <=? s) eqn:Hs; [|destruct (n =? 0) eqn:Hz]; cbn [orb];
    rewrite ?Z.leb_le, ?Z.leb_gt, ?Z.eqb_eq, ?Z.eqb_neq in *.
  - rewrite sint_ok by (red; lia). cbn [bind]. apply sint_ok. red; lia.
  - rewrite sint_ok by (red; lia). cbn [bind]. apply sint_ok. red; lia.
  - rewrite sint_ok by (red; lia). cbn [bind]. rewrite sint_ok by (red; lia). cbn [bind].
    rewrite sint_ok by (red; lia). cbn [bind]. rewrite sint_ok by (red; lia). cbn [bind].
    rewrite sint_ok by (red; lia). f_equal. lia.
Qed.

Lemma convert_overflow : forall t, kernel_timespec t -> ~ representable (exact_time t) ->
  FileTimeTypeFromPosixTimeSpec Strict t = UB.
Proof.
  intros [s n] [Hk1 Hk2] Hr. unfold exact_time in *. cbn [tv_sec tv_nsec] in *.
  unfold FileTimeTypeFromPosixTimeSpec, to_ns, ns_per_s. cbn [tv_sec tv_nsec].
  assert (D : forall z, {representable z} + {~ representable z}).
  { intros z. unfold representable. destruct (Z_le_dec (- 2 ^ 63) z), (Z_lt_dec z (2 ^ 63)); auto; right; lia. }
  destruct (0 <=? s) eqn:Hs; [|destruct (n =? 0) eqn:Hz]; cbn [orb];
    rewrite ?Z.leb_le, ?Z.leb_gt, ?Z.eqb_eq, ?Z.eqb_neq in *.
  - destruct (D (s * 1000000000)).
    + rewrite sint_ok; auto. cbn [bind]. apply sint_bad; auto.
    + rewrite sint_bad; auto.
  - destruct (D (s * 1000000000)).
    + rewrite sint_ok; auto. cbn [bind]. apply sint_bad; auto.
    + rewrite sint_bad; auto.
  - rewrite sint_ok by (red; lia). cbn [bind]. rewrite sint_ok by (red; lia). cbn [bind].
    rewrite sint_ok by (red; lia). cbn [bind]. destruct (D ((s + 1) * 1000000000)).
    + rewrite sint_ok; auto. cbn [bind]. apply sint_bad. intros H. apply Hr.
      replace (s * 1000000000 + n) with ((s + 1) * 1000000000 - (1 * 1000000000 - n)) by ring. exact H.
    + rewrite sint_bad; auto.
Qed.

(** Times from 1970 on whose nanosecond count fits in 64 bits (up to the year 2262) are converted exactly, under
    either reading of signed overflow. *)
Theorem C41_exact_partial : forall m t, kernel_timespec t -> 0 <= tv_sec t -> representable (exact_time t) ->
  extract_last_write_time m t = Ok (Some (exact_time t)).
Proof.
  intros m t [Hs Hn] H0 Hr. unfold extract_last_write_time, FileTimeIsRepresentable.
  replace (0 <=? tv_sec t) with true by (symmetry; apply Z.leb_le; auto). cbn [bind].
  replace (tv_sec t <=? i64_max) with true by (symmetry; apply Z.leb_le; unfold i64_max; lia).
  cbn match. rewrite convert_exact; auto.
Qed.

(** Earlier times are converted exactly if seconds::min().count() - 1 is allowed to wrap ... *)
Theorem C41_exact_before_epoch_partial : forall t, kernel_timespec t -> tv_sec t < 0 -> representable (exact_time t) ->
  extract_last_write_time Wrapping t = Ok (Some (exact_time t)).
Proof.
  intros t [Hs Hn] H0 Hr. unfold extract_last_write_time, FileTimeIsRepresentable.
  replace (0 <=? tv_sec t) with false by (symmetry; apply Z.leb_gt; auto).
  replace (sint Wrapping (i64_min - 1)) with (Ok i64_max) by reflexivity. cbn [bind].
  replace (tv_sec t =? i64_max) with false by (symmetry; apply Z.eqb_neq; unfold i64_max; lia).
  replace (i64_min <=? tv_sec t) with true by (symmetry; apply Z.leb_le; unfold i64_min; lia).
  cbn [bind]. rewrite convert_exact; auto.
Qed.

(** ... and are undefined behaviour by the letter of the standard, every one of them. *)
Theorem C41_before_epoch_refuted : forall t, tv_sec t < 0 -> extract_last_write_time Strict t = UB.
Proof.
  intros t H. unfold extract_last_write_time, FileTimeIsRepresentable.
  replace (0 <=? tv_sec t) with false by (symmetry; apply Z.leb_gt; auto). reflexivity.
Qed.

(** value_too_large is never reported: a time that does not fit overflows (any 64 bit time). *)
Theorem C41_overflow_refuted : forall t, kernel_timespec t -> ~ representable (exact_time t) ->
  extract_last_write_time Strict t = UB /\
  (forall m, extract_last_write_time m t <> Ok None).
Proof.
  intros t Hk Hr. assert (Hk' := Hk). destruct Hk' as [Hs Hn].
  assert (Hrep : 0 <= tv_sec t -> forall m, FileTimeIsRepresentable m t = Ok true).
  { intros H0 m. unfold FileTimeIsRepresentable. replace (0 <=? tv_sec t) with true by (symmetry; apply Z.leb_le; auto).
    replace (tv_sec t <=? i64_max) with true by (symmetry; apply Z.leb_le; unfold i64_max; lia). reflexivity. }
  split.
  - destruct (Z_lt_ge_dec (tv_sec t) 0) as [H0|H0]; [apply C41_before_epoch_refuted; auto|].
    unfold extract_last_write_time. rewrite Hrep by lia. cbn [bind]. rewrite convert_overflow; auto.
  - intros m H. destruct (Z_lt_ge_dec (tv_sec t) 0) as [H0|H0].
    + destruct m; [rewrite C41_before_epoch_refuted in H; auto; discriminate|].
      unfold extract_last_write_time, FileTimeIsRepresentable in H.
      replace (0 <=? tv_sec t) with false in H by (symmetry; apply Z.leb_gt; auto).
      replace (sint Wrapping (i64_min - 1)) with (Ok i64_max) in H by reflexivity. cbn [bind] in H.
      replace (tv_sec t =? i64_max) with false in H by (symmetry; apply Z.eqb_neq; unfold i64_max; lia).
      replace (i64_min <=? tv_sec t) with true in H by (symmetry; apply Z.leb_le; unfold i64_min; lia).
      cbn [bind] in H. destruct (FileTimeTypeFromPosixTimeSpec Wrapping t); discriminate.
    + unfold extract_last_write_time in H. rewrite Hrep in H by lia. cbn [bind] in H.
      destruct (FileTimeTypeFromPosixTimeSpec m t); discriminate.
Qed.

Lemma wrap64_cong : forall a, exists k, a = wrap64 a + k * 2 ^ 64 /\ representable (wrap64 a).
Proof.
  intros a. exists ((a + 2 ^ 63) / 2 ^ 64). unfold wrap64, representable.
  pose proof (Z.div_mod (a + 2 ^ 63) (2 ^ 64)). pose proof (Z.mod_pos_bound (a + 2 ^ 63) (2 ^ 64)). lia.
Qed.
Lemma wrap64_unique : forall a v k, a = v + k * 2 ^ 64 -> representable v -> wrap64 a = v.
Proof. intros a v k -> Hv. destruct (wrap64_cong (v + k * 2 ^ 64)) as (j & H1 & H2). unfold representable in *. lia. Qed.
Lemma sint_wraps : forall a, sint Wrapping a = Ok (wrap64 a).
Proof.
  intros a. unfold sint, in_i64, i64_min, i64_max. destruct ((- 2 ^ 63 <=? a) && (a <=? 2 ^ 63 - 1))%bool eqn:E; auto.
  apply andb_prop in E. destruct E as [E1 E2]. apply Z.leb_le in E1, E2. f_equal. symmetry. apply (wrap64_unique a a 0); [lia|]. unfold representable; lia.
Qed.

(** With wrapping arithmetic each of these times is reported, without an error, as a wrong one: the value is off by a multiple of
    2^64 nanoseconds, which is not 0. *)
Theorem C41_wrong_value_refuted : forall t, kernel_timespec t -> ~ representable (exact_time t) ->
  exists v k, extract_last_write_time Wrapping t = Ok (Some v) /\ representable v /\ k <> 0 /\ exact_time t = v + k * 2 ^ 64.
Proof.
  intros t Hk Hr. destruct (C41_overflow_refuted t Hk Hr) as [_ Hn]. specialize (Hn Wrapping).
  assert (Hx : FileTimeTypeFromPosixTimeSpec Wrapping t = Ok (wrap64 (exact_time t))).
  { destruct t as [s n]. unfold FileTimeTypeFromPosixTimeSpec, to_ns, ns_per_s, exact_time in *. cbn [tv_sec tv_nsec] in *.
    assert (W : forall a b k, a = b + k * 2 ^ 64 -> wrap64 a = wrap64 b).
    { intros a b k ->. destruct (wrap64_cong b) as (j & H1 & H2). apply (wrap64_unique _ _ (j + k)); [lia|auto]. }
    destruct ((0 <=? s) || (n =? 0)); rewrite !sint_wraps; cbn [bind]; rewrite !sint_wraps; cbn [bind]; rewrite ?sint_wraps; cbn [bind]; rewrite ?sint_wraps; cbn [bind]; rewrite ?sint_wraps; f_equal.
    - destruct (wrap64_cong (s * 1000000000)) as (k & H & _). apply (W _ _ (- k)). lia.
    - destruct (wrap64_cong (s + 1)) as (k1 & H1 & _). destruct (wrap64_cong (wrap64 (s + 1) * 1000000000)) as (k2 & H2 & _).
      destruct (wrap64_cong (1 * 1000000000)) as (k3 & H3 & _). destruct (wrap64_cong (wrap64 (1 * 1000000000) - n)) as (k4 & H4 & _).
      apply (W _ _ (- k2 - k1 * 1000000000 + k4 + k3)). lia. }
  unfold extract_last_write_time in *. rewrite Hx in *. destruct Hk as [Hk1 Hk2].
  destruct (FileTimeIsRepresentable Wrapping t) as [[]| | |] eqn:E; cbn [bind] in *;
    [|contradiction|exfalso..]; [|unfold FileTimeIsRepresentable in E; rewrite sint_wraps in E; cbn [bind] in E;
     destruct (0 <=? tv_sec t), (tv_sec t =? wrap64 (i64_min - 1)); discriminate..].
  destruct (wrap64_cong (exact_time t)) as (k & H1 & H2). exists (wrap64 (exact_time t)), k. split; [reflexivity|]. split; [auto|]. split; [|auto].
  intros ->. apply Hr. rewrite H1. rewrite Z.mul_0_l, Z.add_0_r. auto.
Qed.
(** The year 2300 is reported as a time in the 18th century. *)
Example C41_wrong_value_example : kernel_timespec (TimeSpec 10414000000 0) /\ ~ representable (exact_time (TimeSpec 10414000000 0)) /\
  extract_last_write_time Wrapping (TimeSpec 10414000000 0) = Ok (Some (-8032744073709551616)).
Proof. unfold kernel_timespec, representable, exact_time. cbn [tv_sec tv_nsec]. repeat split; try lia; reflexivity. Qed.

Example C41_example : kernel_timespec (TimeSpec 1700000000 123456789) /\
  representable (exact_time (TimeSpec 1700000000 123456789)) /\
  extract_last_write_time Strict (TimeSpec 1700000000 123456789) = Ok (Some 1700000000123456789) /\
  kernel_timespec (TimeSpec (-2) 500000000) /\
  extract_last_write_time Wrapping (TimeSpec (-2) 500000000) = Ok (Some (-1500000000)).
Proof. unfold kernel_timespec, representable, exact_time. cbn [tv_sec tv_nsec]. repeat split; try lia; reflexivity. Qed.

(** Setting: every non-negative file_time_type is split into a timespec of which it is the exact value;
    negative ones are rejected. *)
Lemma timespec_of_time_ok : forall m d, representable d ->
  timespec_of_time m d =
    if d <? 0 then Ok None else Ok (Some (TimeSpec (d / 1000000000) (d mod 1000000000))).
Proof.
  intros m d Hr. unfold timespec_of_time, to_ns, ns_per_s, representable in *.
  destruct (d <? 0) eqn:Hd; rewrite ?Z.ltb_lt, ?Z.ltb_ge in *.
  - pose proof (Z.quot_rem' d 1000000000) as Hq.
    pose proof (Z.rem_nonpos d 1000000000 ltac:(lia) ltac:(lia)) as Hm.
    assert (Hb : -1000000000 < Z.rem d 1000000000) by (pose proof (Z.rem_bound_abs d 1000000000); lia).
    set (q := Z.quot d 1000000000) in *. set (r := Z.rem d 1000000000) in *.
    rewrite sint_ok by (red; lia). cbn [bind]. rewrite sint_ok by (red; lia). cbn [bind].
    replace (d - q * 1000000000) with r by lia.
    destruct (r <? 0) eqn:Hr0; rewrite ?Z.ltb_lt, ?Z.ltb_ge in *.
    + rewrite sint_ok by (red; lia). cbn [bind]. rewrite sint_ok by (red; lia). cbn [bind].
      replace (q - 1 <? 0) with true by (symmetry; apply Z.ltb_lt; lia). reflexivity.
    + cbn [bind]. replace (q <? 0) with true by (symmetry; apply Z.ltb_lt; lia). reflexivity.
  - rewrite Z.quot_div_nonneg by lia. pose proof (Z.div_mod d 1000000000 ltac:(lia)) as Hq.
    pose proof (Z.mod_pos_bound d 1000000000 ltac:(lia)) as Hm.
    set (q := d / 1000000000) in *. set (r := d mod 1000000000) in *.
    rewrite sint_ok by (red; lia). cbn [bind]. rewrite sint_ok by (red; lia). cbn [bind].
    replace (d - q * 1000000000) with r by lia.
    replace (r <? 0) with false by (symmetry; apply Z.ltb_ge; lia). cbn [bind].
    replace (q <? 0) with false by (symmetry; apply Z.ltb_ge; lia). reflexivity.
Qed.

End C41.

(** * C42 the product *)

Section C42.
Local Open Scope Z_scope.

Lemma do_mult_spec : forall b f, 0 <= b < 2 ^ 64 -> 0 <= f < 2 ^ 64 ->
  do_mult b f = if b =? 0 then u64_max else if b * f <? 2 ^ 64 then b * f else u64_max.
Proof.
  intros b f Hb Hf. unfold do_mult. destruct (b =? 0) eqn:H0; auto. apply Z.eqb_neq in H0. cbn [orb].
  destruct (b * f <? 2 ^ 64) eqn:Hl.
  - apply Z.ltb_lt in Hl. rewrite Z.mod_small by nia. rewrite (Z.mul_comm b f), Z.div_mul, Z.eqb_refl; auto.
  - apply Z.ltb_ge in Hl. set (o := (b * f) mod 2 ^ 64).
    assert (Ho : 0 <= o < 2 ^ 64) by (apply Z.mod_pos_bound; reflexivity).
    destruct (o / b =? f) eqn:Hq; auto. apply Z.eqb_eq in Hq.
    pose proof (Z.mul_div_le o b ltac:(lia)). nia.
Qed.

End C42.

(** * C57 Windows file times *)

Section C57.
Local Open Scope Z_scope.

(** 1970-01-01 as a FILETIME. *)
Definition epoch_filetime : Z := 116444736000000000.

Lemma from_filetime_ok : forall m tps q, 0 < tps -> 0 <= q < 2 ^ 64 ->
  representable ((q / 10000000 - 11644473600) * tps) ->
  FileTimeTypeFromWindowsFileTime m tps q = Ok ((q / 10000000 - 11644473600) * tps).
Proof.
  intros m tps q Ht Hq Hr. unfold FileTimeTypeFromWindowsFileTime.
  pose proof (Z.div_mod q 10000000 ltac:(lia)). pose proof (Z.mod_pos_bound q 10000000 ltac:(lia)).
  set (s := q / 10000000) in *.
  assert (Hs : - 2 ^ 63 <= s - 11644473600 < 2 ^ 63) by lia.
  assert (Hw : wrap64 ((s - 11644473600) mod 2 ^ 64) = s - 11644473600).
  { unfold wrap64. rewrite Zplus_mod_idemp_l. rewrite Z.mod_small; lia. }
  rewrite Hw. apply sint_ok; auto.
Qed.

(** From 1970 on, and while the nanosecond count fits in 64 bits, a FILETIME converted to file_time_type and back is
    the same second: the fraction of a second is dropped and nothing else. *)
Theorem C57_round_trip : forall m tps q, (tps = 10000000 \/ tps = 1000000000) ->
  epoch_filetime <= q -> (q / 10000000 - 11644473600) * 1000000000 < 2 ^ 63 ->
  exists t, FileTimeTypeFromWindowsFileTime m tps q = Ok t /\
            t = (q / 10000000 - 11644473600) * tps /\
            FileTimeTypeToWindowsFileTime m tps t = Ok (Some (q - q mod 10000000)).
Proof.
  intros m tps q Ht Hq Hr. unfold epoch_filetime in Hq.
  pose proof (Z.div_mod q 10000000 ltac:(lia)) as Hd. pose proof (Z.mod_pos_bound q 10000000 ltac:(lia)) as Hb.
  set (s := q / 10000000) in *.
  assert (Hs : 0 <= s - 11644473600) by lia.
  exists ((s - 11644473600) * tps). split; [|split; [reflexivity|]].
  - apply from_filetime_ok; fold s; [lia|lia|]. red. destruct Ht; subst tps; lia.
  - unfold FileTimeTypeToWindowsFileTime, ns_per_s.
    replace ((s - 11644473600) * tps <? 0) with false by (symmetry; apply Z.ltb_ge; destruct Ht; subst tps; lia).
    assert (Hm : (s - 11644473600) * tps * (1000000000 / tps) = (s - 11644473600) * 1000000000).
    { destruct Ht; subst tps; change (1000000000 / 10000000) with 100; change (1000000000 / 1000000000) with 1; lia. }
    rewrite Hm. rewrite sint_ok by (red; lia). cbn [bind].
    rewrite Z.quot_div_nonneg by lia.
    replace ((s - 11644473600) * 1000000000 / 100) with ((s - 11644473600) * 10000000).
    2:{ replace ((s - 11644473600) * 1000000000) with (((s - 11644473600) * 10000000) * 100) by ring.
        rewrite Z.div_mul; lia. }
    replace ((s - 11644473600) * 10000000 + 116444736000000000) with (q - q mod 10000000) by lia.
    rewrite sint_ok by (red; lia). cbn [bind].
    set (x := q - q mod 10000000) in *.
    assert (Hx : 0 <= x < 2 ^ 63) by lia.
    rewrite (Z.mod_small x (2 ^ 64)) by lia.
    pose proof (Z.div_mod x (2 ^ 32) ltac:(lia)). pose proof (Z.mod_pos_bound x (2 ^ 32) ltac:(lia)).
    rewrite (Z.mod_small (x / 2 ^ 32) (2 ^ 32)).
    + f_equal. f_equal. lia.
    + split; [apply Z.div_pos; lia|]. apply Z.div_lt_upper_bound; lia.
Qed.

(** The conversion from FILETIME is monotone. *)
Theorem C57_monotone : forall m tps q1 q2 t1 t2, 0 < tps ->
  0 <= q1 <= q2 -> q2 < 2 ^ 64 ->
  representable ((q1 / 10000000 - 11644473600) * tps) -> representable ((q2 / 10000000 - 11644473600) * tps) ->
  FileTimeTypeFromWindowsFileTime m tps q1 = Ok t1 -> FileTimeTypeFromWindowsFileTime m tps q2 = Ok t2 -> t1 <= t2.
Proof.
  intros m tps q1 q2 t1 t2 Ht H1 H2 R1 R2 E1 E2. rewrite from_filetime_ok in E1, E2; auto; try lia.
  injection E1 as <-. injection E2 as <-. apply Z.mul_le_mono_nonneg_r; [lia|].
  pose proof (Z.div_le_mono q1 q2 10000000 ltac:(lia) ltac:(lia)). lia.
Qed.

(** What is excepted: a time that is set is read back as the start of its second, so a time with a fraction of a second is never
    read back equal. *)
Theorem C57_fraction_lost : forall m tps t, (tps = 10000000 \/ tps = 1000000000) -> 0 <= t -> t * (1000000000 / tps) < 2 ^ 63 ->
  exists q, FileTimeTypeToWindowsFileTime m tps t = Ok (Some q) /\ FileTimeTypeFromWindowsFileTime m tps q = Ok (t - t mod tps).
Proof.
  intros m tps t Ht H0 Hl. unfold FileTimeTypeToWindowsFileTime, ns_per_s.
  replace (t <? 0) with false by (symmetry; apply Z.ltb_ge; lia).
  assert (Hp : 0 <= t * (1000000000 / tps)).
  { apply Z.mul_nonneg_nonneg; [lia|]. apply Z.div_pos; destruct Ht; lia. }
  rewrite sint_ok by (red; lia). cbn [bind]. rewrite Z.quot_div_nonneg by lia.
  set (y := t * (1000000000 / tps) / 100) in *.
  assert (Hy : 0 <= y < 2 ^ 63 - 116444736000000000).
  { unfold y. split; [apply Z.div_pos; lia|]. apply Z.div_lt_upper_bound; lia. }
  rewrite sint_ok by (red; lia). cbn [bind].
  set (x := y + 116444736000000000) in *.
  rewrite (Z.mod_small x (2 ^ 64)) by lia.
  pose proof (Z.div_mod x (2 ^ 32) ltac:(lia)) as Hx. pose proof (Z.mod_pos_bound x (2 ^ 32) ltac:(lia)) as Hx2.
  rewrite (Z.mod_small (x / 2 ^ 32) (2 ^ 32)) by (split; [apply Z.div_pos; lia|apply Z.div_lt_upper_bound; lia]).
  eexists. split; [reflexivity|].
  match goal with |- FileTimeTypeFromWindowsFileTime _ _ ?e = _ => replace e with x by lia end.
  assert (Hs : x / 10000000 - 11644473600 = t / tps).
  { unfold x. replace 116444736000000000 with (11644473600 * 10000000) by reflexivity. rewrite Z.div_add by lia.
    enough (y / 10000000 = t / tps) by lia. unfold y. destruct Ht; subst tps.
    - change (1000000000 / 10000000) with 100. rewrite Z.div_mul by lia. reflexivity.
    - change (1000000000 / 1000000000) with 1. rewrite Z.mul_1_r, Z.div_div by lia. reflexivity. }
  pose proof (Z.div_mod t tps) as Hd. pose proof (Z.mod_pos_bound t tps) as Hm. assert (0 < tps) by (destruct Ht; lia).
  assert (Hv : t / tps * tps = t - t mod tps) by lia.
  rewrite from_filetime_ok; rewrite ?Hs, ?Hv; auto; [lia|].
  red. assert (t < 2 ^ 63); [|lia]. destruct Ht; subst tps; [change (1000000000 / 10000000) with 100 in *|change (1000000000 / 1000000000) with 1 in *]; lia.
Qed.
Example C57_fraction_example : FileTimeTypeToWindowsFileTime Strict 10000000 17000000005000000 = Ok (Some 133444736005000000) /\
  FileTimeTypeFromWindowsFileTime Strict 10000000 133444736005000000 = Ok 17000000000000000 /\
  17000000005000000 * (1000000000 / 10000000) < 2 ^ 63.
Proof. repeat split; reflexivity. Qed.

(** Times before 1970 are rejected when converted back. *)
Theorem C57_before_epoch : forall m tps t, t < 0 -> FileTimeTypeToWindowsFileTime m tps t = Ok None.
Proof.
  intros m tps t H. unfold FileTimeTypeToWindowsFileTime.
  replace (t <? 0) with true by (symmetry; apply Z.ltb_lt; auto). reflexivity.
Qed.

Example C57_example : epoch_filetime <= 133444736005000000 /\
  (133444736005000000 / 10000000 - 11644473600) * 1000000000 < 2 ^ 63 /\
  FileTimeTypeFromWindowsFileTime Strict 10000000 133444736005000000 = Ok 17000000000000000 /\
  FileTimeTypeToWindowsFileTime Strict 10000000 17000000000000000 = Ok (Some 133444736000000000).
Proof. unfold epoch_filetime. repeat split; try reflexivity; try lia. Qed.

End C57.

(** * C56 Windows permission mapping *)

Section C56.
Local Open Scope N_scope.

(** The generic rights of the Windows SDK (winnt.h): FILE_GENERIC_READ, FILE_GENERIC_WRITE and
    FILE_GENERIC_EXECUTE. On directories write additionally needs FILE_DELETE_CHILD
    (permissions.cpp:65-72). *)
Definition FILE_GENERIC_READ : N := 1179785.       (* 0x120089 *)
Definition FILE_GENERIC_WRITE : N := 1179926.      (* 0x120116 *)
Definition FILE_GENERIC_EXECUTE : N := 1179808.    (* 0x1200A0 *)

(** [mask] grants every right in [rights]. *)
Definition grants (mask rights : N) : Prop := forall i, N.testbit rights i = true -> N.testbit mask i = true.

Definition needed (dir : bool) (o : operation) : N :=
  match o with
  | o_read => FILE_GENERIC_READ
  | o_write => if dir then N.lor FILE_GENERIC_WRITE FILE_DELETE_CHILD else FILE_GENERIC_WRITE
  | o_exec => FILE_GENERIC_EXECUTE
  end.

(** Bit of the permission (trustee, operation) in the usual octal layout rwxrwxrwx. *)
Definition perm_bit (t : trustee) (o : operation) : N :=
  (match t with t_owner => 6 | t_group => 3 | _ => 0 end) + (match o with o_read => 2 | o_write => 1 | o_exec => 0 end).

Lemma FlagTest_grants : forall m f, FlagTest m f = true <-> grants m f.
Proof.
  intros m f. unfold FlagTest, grants. rewrite N.eqb_eq. split.
  - intros H i Hi. rewrite <- H, N.land_spec in Hi. apply andb_prop in Hi. tauto.
  - intros H. apply N.bits_inj. intros i. rewrite N.land_spec. destruct (N.testbit f i) eqn:Hf.
    + rewrite H; auto.
    + apply andb_false_r.
Qed.

(** Bits of a value put together from three conditional permissions. *)
Definition bits3 (b1 b2 b3 : bool) (v1 v2 v3 : N) : N :=
  let p1 := if b1 then op_or width_perms perms_none v1 else perms_none in
  let p2 := if b2 then op_or width_perms p1 v2 else p1 in
  if b3 then op_or width_perms p2 v3 else p2.

(** For owner, group and others, for files of every kind and directories, and for every access mask: the result has
    a permission exactly when the mask grants all rights of that permission, and no other bits. *)
Theorem C56_mapping : forall mask t type dir, In t [t_owner; t_group; t_others] ->
  (dir = true /\ type = ft_directory \/
   dir = false /\ In type [ft_regular; ft_symlink; ft_block; ft_character; ft_fifo; ft_socket]) ->
  exists p, MapAccessMaskToPerms mask t type = Ok p /\
    (forall o, N.testbit p (perm_bit t o) = true <-> grants mask (needed dir o)) /\
    (forall i, N.testbit p i = true -> exists o, i = perm_bit t o).
Proof.
  intros mask t type dir Ht Htype.
  assert (H0 : MapAccessMaskToPerms mask t type =
    (do p1 <- add_if mask (needed dir o_read) t o_read perms_none ;;
     do p2 <- add_if mask (needed dir o_write) t o_write p1 ;;
     add_if mask (needed dir o_exec) t o_exec p2)).
  { unfold MapAccessMaskToPerms.
    destruct (N.eqb_spec mask 0) as [->|Hm].
    - destruct Htype as [[-> ->]|[-> Hin]]; [reflexivity|].
      cbn [In] in Hin. destruct Hin as [<-|[<-|[<-|[<-|[<-|[<-|[]]]]]]]; reflexivity.
    - destruct Htype as [[-> ->]|[-> Hin]]; [reflexivity|].
      cbn [In] in Hin. destruct Hin as [<-|[<-|[<-|[<-|[<-|[<-|[]]]]]]]; reflexivity. }
  set (b1 := FlagTest mask (needed dir o_read)) in *.
  set (b2 := FlagTest mask (needed dir o_write)) in *.
  set (b3 := FlagTest mask (needed dir o_exec)) in *.
  assert (Hv : exists v1 v2 v3, posix_perm t o_read = Ok v1 /\ posix_perm t o_write = Ok v2 /\ posix_perm t o_exec = Ok v3 /\
             v1 = 2 ^ perm_bit t o_read /\ v2 = 2 ^ perm_bit t o_write /\ v3 = 2 ^ perm_bit t o_exec).
  { cbn [In] in Ht. destruct Ht as [<-|[<-|[<-|[]]]]; do 3 eexists; repeat split. }
  destruct Hv as (v1 & v2 & v3 & P1 & P2 & P3 & V1 & V2 & V3).
  exists (bits3 b1 b2 b3 v1 v2 v3). split; [|split].
  - rewrite H0. unfold add_if. fold b1 b2 b3. rewrite P1, P2, P3. unfold bits3. destruct b1, b2, b3; reflexivity.
  - intros o. rewrite <- FlagTest_grants.
    replace (N.testbit (bits3 b1 b2 b3 v1 v2 v3) (perm_bit t o)) with
      (match o with o_read => b1 | o_write => b2 | o_exec => b3 end).
    + destruct o; reflexivity.
    + subst v1 v2 v3. clear. destruct t, o, b1, b2, b3; reflexivity.
  - intros i Hi. subst v1 v2 v3. clear - Hi Ht.
    assert (Hb : i < 32).
    { destruct (N.lt_ge_cases i 32) as [|Hge]; auto. rewrite (testbit_high 32) in Hi; auto; [discriminate|].
      cbn [In] in Ht. destruct Ht as [<-|[<-|[<-|[]]]], b1, b2, b3; reflexivity. }
    assert (Hall : forallb (fun i => negb (N.testbit (bits3 b1 b2 b3 (2 ^ perm_bit t o_read) (2 ^ perm_bit t o_write) (2 ^ perm_bit t o_exec)) i)
              || (i =? perm_bit t o_read) || (i =? perm_bit t o_write) || (i =? perm_bit t o_exec))%bool
              (map N.of_nat (seq 0 32)) = true).
    { cbn [In] in Ht. destruct Ht as [<-|[<-|[<-|[]]]], b1, b2, b3; reflexivity. }
    rewrite forallb_forall in Hall. specialize (Hall i). rewrite Hi in Hall. cbn [negb orb] in Hall.
    assert (Hin : In i (map N.of_nat (seq 0 32))).
    { apply in_map_iff. exists (N.to_nat i). split; [apply N2Nat.id|]. apply in_seq. lia. }
    specialize (Hall Hin). apply orb_prop in Hall. destruct Hall as [Hall|Hall]; [apply orb_prop in Hall; destruct Hall as [Hall|Hall]|];
      apply N.eqb_eq in Hall; eexists; exact Hall.
Qed.

(** For the trustees system and admins the table is read out of bounds as soon as a right is granted. *)
Theorem C56_other_trustees : forall t, t = t_system \/ t = t_admins ->
  MapAccessMaskToPerms FILE_GENERIC_READ t ft_regular = UB.
Proof. intros t [->| ->]; reflexivity. Qed.

(** A read-only file loses its read permissions instead of its write permissions. *)
Theorem C59_readonly_refuted : exists mask, grants mask FILE_GENERIC_READ /\ grants mask FILE_GENERIC_WRITE /\
  forall t, In t [t_owner; t_group; t_others] -> exists p,
    trustee_permissions t mask FILE_ATTRIBUTE_READONLY = Ok p /\
    N.testbit p (perm_bit t o_read) = false /\ N.testbit p (perm_bit t o_write) = true.
Proof.
  exists (N.lor FILE_GENERIC_READ FILE_GENERIC_WRITE). split; [|split].
  - apply FlagTest_grants. reflexivity.
  - apply FlagTest_grants. reflexivity.
  - intros t Ht. cbn [In] in Ht. destruct Ht as [<-|[<-|[<-|[]]]]; eexists; repeat split.
Qed.

(** For every access mask: without the read-only attribute each permission is there exactly when the mask grants
    it; with it the write permission still is, and the read permission never is. *)
Theorem C59_attributes_partial : forall t mask attr, In t [t_owner; t_group; t_others] ->
  exists p, trustee_permissions t mask attr = Ok p /\
    (FlagTest attr FILE_ATTRIBUTE_READONLY = false ->
     forall o, N.testbit p (perm_bit t o) = true <-> grants mask (needed (FlagTest attr FILE_ATTRIBUTE_DIRECTORY) o)) /\
    (FlagTest attr FILE_ATTRIBUTE_READONLY = true ->
     (forall o, o <> o_read -> N.testbit p (perm_bit t o) = true <-> grants mask (needed (FlagTest attr FILE_ATTRIBUTE_DIRECTORY) o)) /\
     N.testbit p (perm_bit t o_read) = false).
Proof.
  intros t mask attr Ht. unfold trustee_permissions.
  set (dir := FlagTest attr FILE_ATTRIBUTE_DIRECTORY).
  destruct (C56_mapping mask t (if dir then ft_directory else ft_regular) dir Ht) as (p & -> & Hp & _).
  { destruct dir; [left; auto|right; split; [reflexivity|left; reflexivity]]. }
  assert (Hv : exists v, posix_perm t o_read = Ok v /\ v = 2 ^ perm_bit t o_read).
  { cbn [In] in Ht. destruct Ht as [<-|[<-|[<-|[]]]]; eexists; split; reflexivity. }
  destruct Hv as (v & Hv & Ev). cbn [bind].
  destruct (FlagTest attr FILE_ATTRIBUTE_READONLY).
  - rewrite Hv. cbn [bind]. eexists. split; [reflexivity|]. split; [discriminate|]. intros _. unfold FlagClear. subst v. split.
    + intros o Ho. rewrite N.ldiff_spec, N.pow2_bits_eqb.
      replace (perm_bit t o_read =? perm_bit t o) with false by (destruct t, o; (reflexivity || contradiction)).
      rewrite andb_true_r. apply Hp.
    + rewrite N.ldiff_spec, N.pow2_bits_true. apply andb_false_r.
  - eexists. split; [reflexivity|]. split; [intros _; exact Hp|discriminate].
Qed.

Example C59_example : FlagTest 33 FILE_ATTRIBUTE_READONLY = true /\ FlagTest 48 FILE_ATTRIBUTE_READONLY = false /\
  trustee_permissions t_owner 2032127 33 = Ok 192 /\ trustee_permissions t_group 2032127 48 = Ok 56.
Proof. repeat split; reflexivity. Qed.

Example C56_example : grants 2032127 FILE_GENERIC_WRITE /\ (* FILE_ALL_ACCESS 0x1F01FF *)
  MapAccessMaskToPerms 2032127 t_group ft_directory = Ok perms_group_all /\
  MapAccessMaskToPerms FILE_GENERIC_WRITE t_owner ft_directory = Ok 0 /\
  MapAccessMaskToPerms FILE_GENERIC_WRITE t_owner ft_regular = Ok 128.
Proof. split; [apply FlagTest_grants; reflexivity|repeat split; reflexivity]. Qed.

End C56.

(** * C55 filesystem_error *)

Definition contains (sub s : str) : Prop := exists a b, s = a ++ sub ++ b.

Definition no_nul (s : str) : Prop := ~ In zero s.

Lemma c_string_id : forall s, no_nul s -> c_string s = s.
Proof.
  induction s as [|c s IH]; intros H; auto. cbn. destruct (Ascii.eqb_spec c zero) as [->|].
  - exfalso. apply H. left. reflexivity.
  - f_equal. apply IH. intros Hin. apply H. right. exact Hin.
Qed.

Lemma data_path_same : forall s, data_path Posix (mkpath s) = mkpath s.
Proof. intros s. unfold data_path, move_ctor. cbn [fst]. apply mkpath_native. Qed.

Section C55.
Variable code : Type.
Variable system_what : code -> str -> str.
(** std::system_error::what() contains the text it was given ([system.error.syserr.members]). *)
Hypothesis system_what_contains : forall c m, contains m (system_what c m).
(** It is a NUL terminated string. *)
Hypothesis system_what_no_nul : forall c m, no_nul m -> no_nul (system_what c m).

Lemma what_contains_message : forall n what p1 p2 c, no_nul what ->
  contains what (fe_what (make_error Posix code system_what n what p1 p2 c)).
Proof.
  intros n what p1 p2 c Hn. unfold make_error. cbn [fe_what]. unfold create_what.
  rewrite c_string_id by (apply system_what_no_nul; auto).
  destruct (system_what_contains c what) as (a & b & ->).
  destruct (Nat.eqb n 1), (Nat.eqb n 2);
    eexists (lit "filesystem error: " ++ a), _; rewrite <- ?app_assoc; reflexivity.
Qed.

(** What is given to the constructors is what the accessors return (the same paths), and
    what() contains the message; the path of the one-path form and the second path of the
    two-path form appear in what(). *)
Theorem C55_error_partial : forall what c s1 s2, no_nul what ->
  let e0 := filesystem_error0 Posix code system_what what c in
  let e1 := filesystem_error1 Posix code system_what what (mkpath s1) c in
  let e2 := filesystem_error2 Posix code system_what what (mkpath s1) (mkpath s2) c in
  (fe_code e0 = c /\ fe_code e1 = c /\ fe_code e2 = c) /\
  (fe_path1 e1 = mkpath s1 /\ fe_path1 e2 = mkpath s1 /\ fe_path2 e2 = mkpath s2) /\
  (native (fe_path1 e0) = [] /\ native (fe_path2 e0) = [] /\ native (fe_path2 e1) = []) /\
  (contains what (fe_what e0) /\ contains what (fe_what e1) /\ contains what (fe_what e2)) /\
  (no_nul (native (mkpath s1)) -> contains (native (mkpath s1)) (fe_what e1)) /\
  (no_nul (native (mkpath s2)) -> contains (native (mkpath s2)) (fe_what e2)).
Proof.
  intros what c s1 s2 Hn. cbn zeta.
  split; [auto|]. split; [|split; [auto|split; [|split]]].
  - repeat split; apply data_path_same.
  - repeat split; apply what_contains_message; auto.
  - intros H1. unfold filesystem_error1, make_error. cbn [fe_what]. unfold create_what, quoted_or_empty. cbn [Nat.eqb].
    rewrite (data_path_same s1). destruct (native (mkpath s1)) as [|x t] eqn:Hx.
    + exists [], (lit "filesystem error: " ++ c_string (system_what c what) ++ lit " [" ++ lit """""" ++ lit "]").
      cbn [is_nil app]. rewrite <- ?app_assoc. reflexivity.
    + cbn [is_nil]. rewrite (c_string_id (x :: t)); auto.
      exists (lit "filesystem error: " ++ c_string (system_what c what) ++ lit " ["), (lit "]").
      rewrite <- !app_assoc. reflexivity.
  - intros H1. unfold filesystem_error2, make_error. cbn [fe_what]. unfold create_what, quoted_or_empty. cbn [Nat.eqb].
    rewrite (data_path_same s2). destruct (native (mkpath s2)) as [|x t] eqn:Hx.
    + exists [], (lit "filesystem error: " ++ c_string (system_what c what) ++ lit " [" ++ lit """""" ++ lit "]").
      cbn [is_nil app]. rewrite <- ?app_assoc. reflexivity.
    + cbn [is_nil]. rewrite (c_string_id (x :: t)); auto.
      exists (lit "filesystem error: " ++ c_string (system_what c what) ++ lit " ["), (lit "]").
      rewrite <- !app_assoc. reflexivity.
Qed.

End C55.

(** The first path of a two-path error has no influence on what(), for any message, code and paths ... *)
Theorem C55_first_path_refuted : forall code (sw : code -> str -> str) what p1 p1' p2 c,
  fe_what (filesystem_error2 Posix code sw what p1 p2 c) = fe_what (filesystem_error2 Posix code sw what p1' p2 c).
Proof. reflexivity. Qed.

(** ... so it need not appear there. *)
Example C55_first_path_example : exists (sw : unit -> str -> str) what s1 s2,
  (forall c m, contains m (sw c m)) /\
  let e := filesystem_error2 Posix unit sw what (mkpath s1) (mkpath s2) tt in
  native (fe_path1 e) = s1 /\ ~ contains s1 (fe_what e).
Proof.
  exists (fun _ m => m), (lit "in copy_file"), (lit "/X"), (lit "/b").
  split; [|split; [reflexivity|]].
  - intros _ m. exists [], []. rewrite app_nil_r. reflexivity.
  - intros (a & b & H).
    assert (Hin : In "X"%char (fe_what (filesystem_error2 Posix unit (fun _ m => m) (lit "in copy_file") (mkpath (lit "/X")) (mkpath (lit "/b")) tt))).
    { rewrite H. apply in_or_app. right. apply in_or_app. left. right. left. reflexivity. }
    vm_compute in Hin. repeat (destruct Hin as [Hin|Hin]; [discriminate|]). exact Hin.
Qed.

Example C55_example :
  fe_what (filesystem_error1 Posix unit (fun _ m => m ++ lit ": No such file") (lit "in remove") (mkpath (lit "/a/b")) tt)
  = lit "filesystem error: in remove: No such file [/a/b]".
Proof. reflexivity. Qed.

Print Assumptions C41_exact_partial.
Print Assumptions C41_exact_before_epoch_partial.
Print Assumptions C41_before_epoch_refuted.
Print Assumptions C41_overflow_refuted.
Print Assumptions C41_wrong_value_refuted.
Print Assumptions C54_bitwise.
Print Assumptions C54_options_seen.
Print Assumptions C54_perms_seen_partial.
Print Assumptions C54_perms_refuted.
Print Assumptions C55_error_partial.
Print Assumptions C55_first_path_refuted.
Print Assumptions C56_mapping.
Print Assumptions C56_other_trustees.
Print Assumptions C59_readonly_refuted.
Print Assumptions C59_attributes_partial.
Print Assumptions C57_round_trip.
Print Assumptions C57_monotone.
Print Assumptions C57_fraction_lost.
Print Assumptions C57_before_epoch.
