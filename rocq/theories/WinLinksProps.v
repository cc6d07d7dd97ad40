(** C80: links on Windows. C81: rename, current_path, resize_file and last_write_time on Windows.
    Sources: src/windows/stat.cpp:16-45, 110-146; src/fs_ops.cpp:597-620, 753-805, 834-840, 1051-1103, 1214-1216, 1343-1372. *)
From Coq Require Import Ascii String Bool Arith NArith ZArith Lia List.
From Verif Require Import Str PathModel StrProofs WinPermsModel FlagsModel TimeModel ArithProps WinStatModel WinStatProps WinOpsModel WinOpsProps WinCanon WinCanonProps.
Import ListNotations.
Local Open Scope N_scope.

(** * Specification *)

(** The operation [p] makes the call [c], whose answers are [ask], and no other, and tells its outcome: nothing when it succeeded, its code when it
    failed. *)
Definition just {S} (h : wkernel S) (has : bool) (p : wprog unit) (c : wcall) (ask : S -> (N + unit) * S) : Prop :=
  forall s r s', ask s = (r, s') ->
    wcalls h p s = [c] /\
    (forall u, r = inr u -> wrun h p s = (WE (WRet tt 0), s')) /\
    (forall e, r = inl e -> e <> 0 -> wrun h p s = (told has tt e, s')).

(** The data of a junction as DeviceIoControl gives it: the print name at its offset, no flags before (MountPointReparseBuffer). *)
Definition junction_data (d : reparse_data) (t : str) : Prop :=
  exists before after, rp_words d = before ++ map N_of_ascii t ++ after /\
    rp_print_offset d = 2 * N.of_nat (length before) /\ rp_print_length d = 2 * N.of_nat (length t).

(** * C80 Links *)

(** The text of a symbolic link is read. *)
Theorem C80_read : forall dbg has p S (h : wkernel S) s d t s', h (w_Reparse (native p)) s = (inr d, s') -> link_data d t ->
  wcalls h (wread_symlink dbg has p) s = [w_Reparse (native p)] /\ wrun h (wread_symlink dbg has p) s = (WE (WRet (wpath t) 0), s').
Proof.
  intros dbg has p S h s d t s' Hd Hl. unfold wread_symlink. cbn [wcalls wrun]. rewrite Hd, (link_data_name d t Hl). split; reflexivity.
Qed.

(** A failure is told with its code. *)
Theorem C80_read_failure : forall dbg has p S (h : wkernel S) s e s', h (w_Reparse (native p)) s = (inl e, s') -> e <> 0 ->
  wrun h (wread_symlink dbg has p) s = (told has path_default e, s').
Proof. intros dbg has p S h s e s' Hd He. unfold wread_symlink. cbn [wrun]. rewrite Hd. apply (wfail_told path S dbg has path_default e h s' He). Qed.

Lemma skip_skip : forall A (l : list A) a b, skipn a (skipn b l) = skipn (a + b) l.
Proof.
  intros A l a b. revert l. induction b as [|b IH]; intros l; [rewrite Nat.add_0_r; reflexivity|]. rewrite Nat.add_succ_r.
  destruct l; [rewrite !skipn_nil; reflexivity|]. apply IH.
Qed.

(** Refuted for junctions, which is_symlink calls symbolic links: the first two characters, the drive, are lost, and as many of what follows are added. *)
Theorem C80_junction_refuted : forall dbg has p S (h : wkernel S) s d t s', h (w_Reparse (native p)) s = (inr d, s') -> junction_data d t -> (2 <= length t)%nat ->
  exists junk, wrun h (wread_symlink dbg has p) s = (WE (WRet (wpath (skipn 2 t ++ junk)) 0), s').
Proof.
  intros dbg has p S h s d t s' Hd (b & c & Hw & Ho & Hl) Ht. unfold wread_symlink. cbn [wrun]. rewrite Hd. unfold print_name, path_buffer. rewrite Hw, Ho, Hl.
  replace (2 * N.of_nat (length b) / 2) with (N.of_nat (length b)) by (rewrite N.mul_comm, N.div_mul by discriminate; reflexivity).
  replace (2 * N.of_nat (length t) / 2) with (N.of_nat (length t)) by (rewrite N.mul_comm, N.div_mul by discriminate; reflexivity).
  rewrite !Nat2N.id. destruct t as [|x [|y t]]; try (cbn in Ht; lia). exists (map char_of (firstn 2 c)).
  assert (Hsk : skipn (length b) (skipn 2 (b ++ map N_of_ascii (x :: y :: t) ++ c)) = map N_of_ascii t ++ c).
  { rewrite skip_skip. replace (length b + 2)%nat with (length (b ++ [N_of_ascii x; N_of_ascii y])) by (rewrite app_length; reflexivity).
    replace (b ++ map N_of_ascii (x :: y :: t) ++ c) with ((b ++ [N_of_ascii x; N_of_ascii y]) ++ (map N_of_ascii t ++ c)) by (rewrite <- app_assoc; reflexivity).
    rewrite skipn_app, skipn_all, Nat.sub_diag. reflexivity. }
  rewrite Hsk. cbn [length]. replace (Datatypes.S (Datatypes.S (length t))) with (length (map N_of_ascii t) + 2)%nat by (rewrite map_length; lia).
  rewrite firstn_app_2, map_app, ascii_words. reflexivity.
Qed.

(** Making links: one call, the new name and the text of the target in their places. *)
Theorem C80_create_symlink : forall dbg has target link S (h : wkernel S),
  just h has (wcreate_symlink dbg has target link) (w_CreateSymbolicLink (native link) (native target) false) (h (w_CreateSymbolicLink (native link) (native target) false)).
Proof.
  intros dbg has target link S h s r s' H. unfold wcreate_symlink, wsimple. cbn [wcalls wrun]. rewrite H. split; [destruct r; [unfold wfail, wcapture|]; reflexivity|].
  split; [intros u ->; reflexivity|]. intros e -> He. apply (wfail_told unit S dbg has tt e h s' He).
Qed.

Theorem C80_create_directory_symlink : forall dbg has target link S (h : wkernel S),
  just h has (wcreate_directory_symlink dbg has target link) (w_CreateSymbolicLink (native link) (native target) true) (h (w_CreateSymbolicLink (native link) (native target) true)).
Proof.
  intros dbg has target link S h s r s' H. unfold wcreate_directory_symlink, wsimple. cbn [wcalls wrun]. rewrite H. split; [destruct r; reflexivity|].
  split; [intros u ->; reflexivity|]. intros e -> He. apply (wfail_told unit S dbg has tt e h s' He).
Qed.

Theorem C80_create_hard_link : forall dbg has target link S (h : wkernel S),
  just h has (wcreate_hard_link dbg has target link) (w_CreateHardLink (native link) (native target)) (h (w_CreateHardLink (native link) (native target))).
Proof.
  intros dbg has target link S h s r s' H. unfold wcreate_hard_link, wsimple. cbn [wcalls wrun]. rewrite H. split; [destruct r; reflexivity|].
  split; [intros u ->; reflexivity|]. intros e -> He. apply (wfail_told unit S dbg has tt e h s' He).
Qed.

(** copy_symlink of a link with the text [t]. Its target, looked for from the current directory, is there: the new link has the text [t], and is
    a link to a directory exactly when that is one. [t] must be kept by the conversion to a path, as all but a few texts are. *)
Theorem C80_copy_symlink_partial : forall dbg has from to t S (h : wkernel S) s d s1 i s2 attr,
  h (w_Reparse (native from)) s = (inr d, s1) -> link_data d t -> native (wpath t) = t ->
  h (w_Info t) s1 = (i, s2) -> w_attrs i = inr attr -> is_reparse attr = false -> readable (w_security i) ->
  forall r s3, h (w_CreateSymbolicLink (native to) t (is_dir attr)) s2 = (r, s3) ->
  made h (wcopy_symlink dbg has from to) s = [w_CreateSymbolicLink (native to) t (is_dir attr)] /\
  (forall u, r = inr u -> wrun h (wcopy_symlink dbg has from to) s = (WE (WRet tt 0), s3)) /\
  (forall e, r = inl e -> e <> 0 -> wrun h (wcopy_symlink dbg has from to) s = (told has tt e, s3)).
Proof.
  intros dbg has from to t S h s d s1 i s2 attr Hd Hl Hn Hi Ha Hr Hs r s3 Hc.
  unfold made, wcopy_symlink, wread_symlink. cbn [wbind wcalls wrun]. rewrite Hd, (link_data_name d t Hl). cbn [wbind wret]. change (negb (0 =? 0)) with false. cbv iota zeta.
  rewrite Hn. unfold wis_directory_ec, wstatus_of. cbn [wbind wcalls wrun]. rewrite Hn, Hi. unfold wstatus_impl. rewrite Ha, reparse_attr, Hr. unfold with_permissions.
  destruct (readable_permissions dbg true _ attr Hs) as [pr ->]. change (0 =? 0) with true. cbv iota. unfold directory_or_regular. rewrite dir_attr.
  destruct (is_dir attr); cbn [wbind wret];
    [change (wis ft_directory (WT ft_directory, pr)) with true|change (wis ft_directory (WT ft_regular, pr)) with false];
    change (negb (0 =? 0)) with false; cbv iota; unfold wcreate_directory_symlink, wcreate_symlink, wsimple;
    cbn [wcalls wrun filter changes]; rewrite Hn, Hc; (split; [destruct r; reflexivity|]); (split; [intros u ->; reflexivity|]);
    intros e -> He; apply (wfail_told unit S dbg has tt e h s3 He).
Qed.

(** Refuted otherwise: a link whose target is not there, seen from the current directory, is not copied. *)
Theorem C80_copy_symlink_refuted : forall dbg has from to t S (h : wkernel S) s d s1 i s2,
  h (w_Reparse (native from)) s = (inr d, s1) -> link_data d t -> native (wpath t) = t ->
  h (w_Info t) s1 = (i, s2) -> w_attrs i = inl 2 ->
  made h (wcopy_symlink dbg has from to) s = [] /\ wrun h (wcopy_symlink dbg has from to) s = (told has tt 2, s2).
Proof.
  intros dbg has from to t S h s d s1 i s2 Hd Hl Hn Hi Ha.
  unfold made, wcopy_symlink, wread_symlink. cbn [wbind wcalls wrun]. rewrite Hd, (link_data_name d t Hl). cbn [wbind wret]. change (negb (0 =? 0)) with false. cbv iota zeta.
  rewrite Hn. unfold wis_directory_ec, wstatus_of. cbn [wbind wcalls wrun]. rewrite Hn, Hi. unfold wstatus_impl. rewrite Ha. rewrite cap by discriminate.
  cbn. destruct has; split; reflexivity.
Qed.

(** * C81 *)

Theorem C81_rename : forall dbg has from to S (h : wkernel S),
  just h has (wrename dbg has from to) (w_Rename (native from) (native to)) (h (w_Rename (native from) (native to))).
Proof.
  intros dbg has from to S h s r s' H. unfold wrename, wsimple. cbn [wcalls wrun]. rewrite H. split; [destruct r; reflexivity|].
  split; [intros u ->; reflexivity|]. intros e -> He. apply (wfail_told unit S dbg has tt e h s' He).
Qed.

Theorem C81_set_current_path : forall dbg has p S (h : wkernel S),
  just h has (wset_current_path dbg has p) (w_SetCurrentDirectory (native p)) (h (w_SetCurrentDirectory (native p))).
Proof.
  intros dbg has p S h s r s' H. unfold wset_current_path, wsimple. cbn [wcalls wrun]. rewrite H. split; [destruct r; reflexivity|].
  split; [intros u ->; reflexivity|]. intros e -> He. apply (wfail_told unit S dbg has tt e h s' He).
Qed.

(** resize_file: the file is opened; a failure is told, and nothing was changed. Then its end is set to the size wanted, if that is below
    2^63. *)
Theorem C81_resize_unopened : forall dbg has p size S (h : wkernel S) s e s1, h (w_OpenExclusive (native p)) s = (inl e, s1) -> e <> 0 ->
  made h (wresize_file dbg has p size) s = [] /\ wrun h (wresize_file dbg has p size) s = (told has tt e, s1).
Proof.
  intros dbg has p size S h s e s1 H He. unfold made, wresize_file. cbn [wcalls wrun]. rewrite H. split; [reflexivity|]. apply (wfail_told unit S dbg has tt e h s1 He).
Qed.

Theorem C81_resize_partial : forall dbg has p size S (h : wkernel S) s s1 r s2, size < 2 ^ 63 -> h (w_OpenExclusive (native p)) s = (inr tt, s1) ->
  h (w_SetEnd (native p) (Z.of_N size)) s1 = (r, s2) ->
  made h (wresize_file dbg has p size) s = [w_SetEnd (native p) (Z.of_N size)] /\
  (forall u, r = inr u -> wrun h (wresize_file dbg has p size) s = (WE (WRet tt 0), s2)) /\
  (forall e, r = inl e -> e <> 0 -> wrun h (wresize_file dbg has p size) s = (told has tt e, s2)).
Proof.
  intros dbg has p size S h s s1 r s2 Hz Ho Hs. unfold made, wresize_file, wsimple. cbn [wcalls wrun]. rewrite Ho. cbn [wcalls wrun].
  replace (wrap64 (Z.of_N size)) with (Z.of_N size) by (unfold wrap64; rewrite Z.mod_small; lia). rewrite Hs. split; [destruct r; reflexivity|].
  split; [intros u ->; reflexivity|]. intros e -> He. apply (wfail_told unit S dbg has tt e h s2 He).
Qed.

(** Refuted beyond: the number handed to Windows is negative. *)
Theorem C81_resize_refuted : forall dbg has p size S (h : wkernel S) s s1, 2 ^ 63 <= size < 2 ^ 64 -> h (w_OpenExclusive (native p)) s = (inr tt, s1) ->
  made h (wresize_file dbg has p size) s = [w_SetEnd (native p) (Z.of_N size - 2 ^ 64)].
Proof.
  intros dbg has p size S h s s1 Hz Ho. unfold made, wresize_file, wsimple. cbn [wcalls wrun]. rewrite Ho. cbn [wcalls wrun].
  replace (wrap64 (Z.of_N size)) with (Z.of_N size - 2 ^ 64)%Z.
  - destruct (h (w_SetEnd (native p) (Z.of_N size - 2 ^ 64)) s1) as [[e|u] s2]; reflexivity.
  - unfold wrap64. assert (Hb : (2 ^ 63 <= Z.of_N size < 2 ^ 64)%Z) by lia.
    replace ((Z.of_N size + 2 ^ 63) mod 2 ^ 64)%Z with (Z.of_N size + 2 ^ 63 - 2 ^ 64)%Z; [lia|].
    apply Z.mod_unique_pos with (q := 1%Z); lia.
Qed.

(** last_write_time: the time Windows gives, in whole seconds since 1970; failures are told. *)
Theorem C81_time_partial : forall dbg m has p tps S (h : wkernel S) s r s', (tps = 10000000 \/ tps = 1000000000)%Z -> h (w_WriteTime (native p)) s = (r, s') ->
  wcalls h (wlast_write_time dbg m tps has p) s = [w_WriteTime (native p)] /\
  (forall q, r = inr q -> expressible tps q -> wrun h (wlast_write_time dbg m tps has p) s = (WE (WRet ((seconds q - 11644473600) * tps)%Z 0), s')) /\
  (forall e, r = inl e -> e <> 0 -> wrun h (wlast_write_time dbg m tps has p) s = (told has i64_min e, s')).
Proof.
  intros dbg m has p tps S h s r s' Ht H. unfold wlast_write_time. cbn [wcalls wrun]. rewrite H. split; [|split].
  - destruct r as [e|q]; [reflexivity|]. unfold wlift. destruct (FileTimeTypeFromWindowsFileTime m tps (Z.of_N q)); reflexivity.
  - intros q -> Hq. rewrite (time_ok m tps q Ht Hq). reflexivity.
  - intros e -> He. apply (wfail_told Z S dbg has i64_min e h s' He).
Qed.

(** Setting the time: one call with the time in units of 100 ns since 1601. *)
Definition units (tps t : Z) : N := Z.to_N (t / (tps / 10000000) + 116444736000000000).

Lemma to_units : forall m tps t, (tps = 10000000 \/ tps = 1000000000)%Z -> (0 <= t)%Z -> (t * (1000000000 / tps) < 2 ^ 63)%Z ->
  FileTimeTypeToWindowsFileTime m tps t = Ok (Some (Z.of_N (units tps t))).
Proof.
  intros m tps t Ht H0 Hm. unfold FileTimeTypeToWindowsFileTime, ns_per_s, units. destruct (Z.ltb_spec t 0); [lia|].
  assert (Hp : (0 <= t * (1000000000 / tps))%Z).
  { destruct Ht; subst tps; [change (1000000000 / 10000000)%Z with 100%Z|change (1000000000 / 1000000000)%Z with 1%Z]; lia. }
  assert (Hq : (Z.quot (t * (1000000000 / tps)) 100 = t / (tps / 10000000))%Z).
  { rewrite Z.quot_div_nonneg by lia. destruct Ht; subst tps.
    - change (1000000000 / 10000000)%Z with 100%Z. change (10000000 / 10000000)%Z with 1%Z. rewrite Z.div_mul, Z.div_1_r by lia. reflexivity.
    - change (1000000000 / 1000000000)%Z with 1%Z. change (1000000000 / 10000000)%Z with 100%Z. rewrite Z.mul_1_r. reflexivity. }
  rewrite sint_ok by (red; lia). cbn [bind]. rewrite Hq.
  assert (Hd : (0 <= t / (tps / 10000000) <= 92233720368547758)%Z).
  { rewrite <- Hq, Z.quot_div_nonneg by lia. split; [apply Z.div_pos; lia|]. apply Z.lt_succ_r. apply Z.div_lt_upper_bound; lia. }
  rewrite sint_ok by (red; lia). cbn [bind]. set (x := (t / (tps / 10000000) + 116444736000000000)%Z) in *.
  rewrite (Z.mod_small x (2 ^ 64)) by lia. pose proof (Z.div_mod x (2 ^ 32) ltac:(lia)). pose proof (Z.mod_pos_bound x (2 ^ 32) ltac:(lia)).
  rewrite (Z.mod_small (x / 2 ^ 32) (2 ^ 32)).
  - rewrite Z2N.id by lia. do 2 f_equal. lia.
  - split; [apply Z.div_pos; lia|]. apply Z.div_lt_upper_bound; lia.
Qed.

Theorem C81_set_time_partial : forall dbg m has p tps t S (h : wkernel S), (tps = 10000000 \/ tps = 1000000000)%Z -> (0 <= t)%Z -> (t * (1000000000 / tps) < 2 ^ 63)%Z ->
  just h has (wset_last_write_time dbg m tps has p t) (w_SetWriteTime (native p) (units tps t)) (h (w_SetWriteTime (native p) (units tps t))).
Proof.
  intros dbg m has p tps t S h Ht H0 Hm s r s' H. unfold wset_last_write_time. rewrite (to_units m tps t Ht H0 Hm). cbn [wlift]. rewrite N2Z.id. unfold wsimple. cbn [wcalls wrun]. rewrite H.
  split; [destruct r; reflexivity|]. split; [intros u ->; reflexivity|]. intros e -> He. apply (wfail_told unit S dbg has tt e h s' He).
Qed.

(** Refuted for times before 1970: refused with the code 22 and no call. *)
Theorem C81_old_time_refuted : forall dbg m has p tps t S (h : wkernel S) s, (t < 0)%Z ->
  wcalls h (wset_last_write_time dbg m tps has p t) s = [] /\ wrun h (wset_last_write_time dbg m tps has p t) s = (told has tt 22, s).
Proof.
  intros dbg m has p tps t S h s Ht. unfold wset_last_write_time. rewrite C57_before_epoch by exact Ht. cbn [wlift]. unfold wbad, wreport, told. destruct has; split; reflexivity.
Qed.

(** On a system that remembers the time set, reading it gives the time set without its fraction of a second. *)
Theorem C81_time_round_trip_partial : forall dbg m has p tps t S (h : wkernel S) s s1 s2, (tps = 10000000 \/ tps = 1000000000)%Z -> (0 <= t)%Z -> (t * (1000000000 / tps) < 2 ^ 63)%Z ->
  h (w_SetWriteTime (native p) (units tps t)) s = (inr tt, s1) -> h (w_WriteTime (native p)) s1 = (inr (units tps t), s2) ->
  wrun h (wset_last_write_time dbg m tps has p t) s = (WE (WRet tt 0), s1) /\
  wrun h (wlast_write_time dbg m tps has p) s1 = (WE (WRet (t - t mod tps)%Z 0), s2).
Proof.
  intros dbg m has p tps t S h s s1 s2 Ht H0 Hm Hs Hg. split.
  - destruct (C81_set_time_partial dbg m has p tps t S h Ht H0 Hm s _ _ Hs) as (_ & K & _). apply (K tt eq_refl).
  - destruct (C81_time_partial dbg m has p tps S h s1 _ _ Ht Hg) as (_ & K & _).
    assert (Hsec : (seconds (units tps t) - 11644473600 = t / tps)%Z).
    { unfold seconds, units. assert (Hp : (0 <= t / (tps / 10000000))%Z) by (apply Z.div_pos; [lia|destruct Ht; subst tps; reflexivity]).
      rewrite Z2N.id by lia. replace 116444736000000000%Z with (11644473600 * 10000000)%Z by lia. rewrite Z.div_add by lia.
      rewrite Z.div_div by (destruct Ht; subst tps; first [discriminate|reflexivity]). replace (tps / 10000000 * 10000000)%Z with tps by (destruct Ht; subst tps; reflexivity). lia. }
    rewrite (K _ eq_refl).
    + rewrite Hsec. do 3 f_equal. pose proof (Z.div_mod t tps ltac:(destruct Ht; subst tps; lia)). lia.
    + unfold expressible. rewrite Hsec. pose proof (Z.div_mod t tps ltac:(destruct Ht; subst tps; lia)). pose proof (Z.mod_pos_bound t tps ltac:(destruct Ht; subst tps; lia)).
      pose proof (Z.div_pos t tps H0 ltac:(destruct Ht; subst tps; lia)).
      assert (t < 2 ^ 63)%Z by (destruct Ht; subst tps; change (1000000000 / 10000000)%Z with 100%Z in *; change (1000000000 / 1000000000)%Z with 1%Z in *; lia). lia.
Qed.

(** * Instances *)

(** A system whose every file is a link with the data [d] to a directory, that carries out all changes, and whose state is the changes made and the
    last time set. *)
Definition scribe (d : reparse_data) : wkernel (list wcall * N) := fun c =>
  match c return list wcall * N -> wanswer c * (list wcall * N) with
  | w_Info _ => fun s => (WInfo (inr 16) (inr tt) (inr 16) (inr tt) (inl 4390) plain_security, s)
  | w_Reparse _ => fun s => (inr d, s)
  | w_WriteTime _ => fun s => (inr (snd s), s)
  | w_SetWriteTime p t => fun s => (inr tt, (w_SetWriteTime p t :: fst s, t))
  | w_CreateSymbolicLink l t b => fun s => (inr tt, (w_CreateSymbolicLink l t b :: fst s, snd s))
  | w_CreateHardLink l t => fun s => (inr tt, (w_CreateHardLink l t :: fst s, snd s))
  | w_Rename a b => fun s => (inr tt, (w_Rename a b :: fst s, snd s))
  | w_SetCurrentDirectory p => fun s => (inr tt, (w_SetCurrentDirectory p :: fst s, snd s))
  | w_OpenExclusive _ => fun s => (inr tt, s)
  | w_SetEnd p z => fun s => (if (z <? 0)%Z then inl 131 else inr tt, (w_SetEnd p z :: fst s, snd s))
  | w_TempPath => fun s => ((0, 2, []), s)
  | w_Find _ => fun s => ((inl 2, 2), s)
  | w_FileInfo _ | w_AttributesEx _ | w_CurrentDirectory | w_DiskFreeSpace _ | _ => fun s => (inl 2, s)
  end.

Example C80_example :
  let link := Reparse 2684354572 0 0 6 6 (1 :: 0 :: 63 :: 63 :: 63 :: map N_of_ascii (lit "..\") ++ [0]) in
  let junction := Reparse 2684354563 0 0 4 8 (63 :: 63 :: map N_of_ascii (lit "D:\m") ++ [0; 0]) in
  let dangling : wkernel unit := fun c s => (match c return wanswer c with w_Reparse _ => inr link | w_Info _ => WInfo (inl 2) (inl 2) (inl 2) (inl 2) (inl 2) plain_security | c => shown small [] c end, s) in
  let p := wpath (lit "C:\l") in let q := wpath (lit "C:\k") in
  link_data link (lit "..\") /\ junction_data junction (lit "D:\m") /\ native (wpath (lit "..\")) = lit "..\" /\
  wrun (scribe link) (wread_symlink true false p) ([], 0) = (WE (WRet (wpath (lit "..\")) 0), ([], 0)) /\
  wrun (scribe junction) (wread_symlink true false p) ([], 0) = (WE (WRet (wpath (lit "\m" ++ ["000"; "000"]%char)) 0), ([], 0)) /\
  wrun (scribe link) (wcopy_symlink true false p q) ([], 0) = (WE (WRet tt 0), ([w_CreateSymbolicLink (lit "C:\k") (lit "..\") true], 0)) /\
  wrun dangling (wcopy_symlink true false p q) tt = (WE (WThrow 2), tt) /\
  wrun (scribe link) (wcreate_symlink true false p q) ([], 0) = (WE (WRet tt 0), ([w_CreateSymbolicLink (lit "C:\k") (lit "C:\l") false], 0)) /\
  wrun dangling (wcreate_hard_link true true p q) tt = (WE (WRet tt 5), tt).
Proof.
  cbv zeta. split; [exists 1, 0, [63; 63; 63], [0]; repeat split; reflexivity|]. split; [exists [63; 63], [0; 0]; repeat split; reflexivity|].
  repeat split; vm_compute; reflexivity.
Qed.

Example C81_example :
  let k := scribe (Reparse 0 0 0 0 0 []) in let p := wpath (lit "C:\a") in let q := wpath (lit "C:\b") in
  wrun k (wrename true false p q) ([], 0) = (WE (WRet tt 0), ([w_Rename (lit "C:\a") (lit "C:\b")], 0)) /\
  wrun k (wset_current_path true false p) ([], 0) = (WE (WRet tt 0), ([w_SetCurrentDirectory (lit "C:\a")], 0)) /\
  wrun k (wresize_file true false p 4096) ([], 0) = (WE (WRet tt 0), ([w_SetEnd (lit "C:\a") 4096], 0)) /\
  wrun k (wresize_file true true p (2 ^ 63)) ([], 0) = (WE (WRet tt 131), ([w_SetEnd (lit "C:\a") (- 2 ^ 63)], 0)) /\
  wrun k (wset_last_write_time true Strict 10000000 false p 17000000005000000) ([], 0) =
    (WE (WRet tt 0), ([w_SetWriteTime (lit "C:\a") 133444736005000000], 133444736005000000)) /\
  units 10000000 17000000005000000 = 133444736005000000 /\
  wrun k (wlast_write_time true Strict 10000000 false p) ([], 133444736005000000) = (WE (WRet 17000000000000000%Z 0), ([], 133444736005000000)) /\
  wrun k (wset_last_write_time true Strict 10000000 false p (-1)) ([], 0) = (WE (WThrow 22), ([], 0)).
Proof. repeat split; vm_compute; reflexivity. Qed.

Print Assumptions C80_read.
Print Assumptions C80_read_failure.
Print Assumptions C80_junction_refuted.
Print Assumptions C80_create_symlink.
Print Assumptions C80_create_directory_symlink.
Print Assumptions C80_create_hard_link.
Print Assumptions C80_copy_symlink_partial.
Print Assumptions C80_copy_symlink_refuted.
Print Assumptions C81_rename.
Print Assumptions C81_set_current_path.
Print Assumptions C81_resize_unopened.
Print Assumptions C81_resize_partial.
Print Assumptions C81_resize_refuted.
Print Assumptions C81_time_partial.
Print Assumptions C81_set_time_partial.
Print Assumptions C81_old_time_refuted.
Print Assumptions C81_time_round_trip_partial.
