(** C73: functions declared noexcept, on Windows. C74: space and temp_directory_path on Windows. *)
From Coq Require Import Ascii String Bool NArith ZArith Arith List Lia.
From Verif Require Import Str PathModel PathSpec FlagsModel TimeModel WinPermsModel StrProofs PathProofs PathOps WinPathProps ArithProps.
From Verif Require Import WinStatModel WinStatProps WinOpsModel WinOpsProps.
Import ListNotations.
Local Open Scope N_scope.

(** * Specification *)

(** The run ends with an exception. *)
Definition wescapes {A} (e : wend A) : Prop :=
  match e with WE (WThrow _) | WExn => True | _ => False end.

(** No exception leaves the function, with any system in any state. *)
Definition wnever_throws {A} (p : wprog A) : Prop := forall S (h : wkernel S) s, ~ wescapes (fst (wrun h p s)).

(** * Proofs *)

Fixpoint wquiet {A} (p : wprog A) : Prop :=
  match p with
  | WEnd e => ~ wescapes e
  | WSys c k => forall r, wquiet (k r)
  end.

Lemma wquiet_never : forall A (p : wprog A), wquiet p -> wnever_throws p.
Proof.
  intros A p. induction p as [e|c k IH]; intros H S h s.
  - exact H.
  - cbn [wrun]. destruct (h c s) as [r s']. apply IH, H.
Qed.

Lemma wquiet_bind : forall A B (p : wprog A) (f : A -> N -> wprog B), wquiet p -> (forall a e, wquiet (f a e)) -> wquiet (wbind p f).
Proof.
  induction p as [e|c k IH]; intros f Hp Hf.
  - destruct e as [[a e|c| ]| | |]; cbn in *; auto.
  - cbn in *. auto.
Qed.

Definition wcalm {A} (x : out A) : Prop := match x with Throw _ => False | _ => True end.
Lemma wquiet_lift : forall A B (x : out A) (f : A -> wprog B), wcalm x -> (forall a, wquiet (f a)) -> wquiet (wlift x f).
Proof. intros A B [a|e| |] f Hx Hf; cbn in *; auto. Qed.

Lemma wcalm_bind : forall A B (x : out A) (f : A -> out B), wcalm x -> (forall a, wcalm (f a)) -> wcalm (bind x f).
Proof. intros A B [a|e| |] f Hx Hf; cbn in *; auto. Qed.
Lemma wcalm_sint : forall m z, wcalm (sint m z).
Proof. intros [|] z; unfold sint; destruct (in_i64 z); exact Logic.I. Qed.
Lemma wcalm_from : forall m tps q, wcalm (FileTimeTypeFromWindowsFileTime m tps q).
Proof. intros. unfold FileTimeTypeFromWindowsFileTime. apply wcalm_sint. Qed.
Lemma wcalm_to : forall m tps q, wcalm (FileTimeTypeToWindowsFileTime m tps q).
Proof.
  intros. unfold FileTimeTypeToWindowsFileTime. destruct (q <? 0)%Z; [exact Logic.I|].
  apply wcalm_bind; [apply wcalm_sint|]. intros. apply wcalm_bind; [apply wcalm_sint|]. intros. exact Logic.I.
Qed.

Lemma wquiet_fail : forall A dbg (v : A) e, wquiet (wfail dbg true v e).
Proof. intros. unfold wfail, wcapture, wreport. destruct (dbg && (e =? 0)); cbn; auto. Qed.
Lemma wquiet_bad : forall A (v : A) e, wquiet (wbad true v e).
Proof. intros. cbn. auto. Qed.
Lemma wquiet_ret : forall A (v : A) e, wquiet (wret v e).
Proof. intros. cbn. auto. Qed.
Lemma wquiet_simple : forall dbg r, wquiet (wsimple dbg true r).
Proof. intros dbg [e|u]; [apply wquiet_fail|apply wquiet_ret]. Qed.

Lemma permissions_quiet : forall dbg sec attr, match GetPermissions dbg true sec attr with WThrow _ => False | _ => True end.
Proof.
  intros dbg sec attr.
  assert (T : forall t, match GetTrusteePermissions dbg sec t attr with WThrow _ => False | _ => True end).
  { intros t. unfold GetTrusteePermissions. destruct (s_rights sec t) as [[ret last]|mask].
    - destruct (ret =? ERROR_INVALID_ACL); [exact Logic.I|]. unfold wcapture. destruct (dbg && (last =? 0)); exact Logic.I.
    - destruct (trustee_permissions t mask attr); exact Logic.I. }
  assert (F : forall has e, match ProcessPermissionsFailure has e with WThrow _ => False | _ => True end).
  { intros has' e. unfold ProcessPermissionsFailure. destruct (IsNotFoundError e), (e =? ERROR_SHARING_VIOLATION), has'; exact Logic.I. }
  assert (St : forall t prms k, (forall p, match k p with WThrow _ => False | _ => True end) ->
              match permission_step dbg true sec t attr prms k with WThrow _ => False | _ => True end).
  { intros t prms k Hk. unfold permission_step. specialize (T t). destruct (GetTrusteePermissions dbg sec t attr) as [p e|c|]; auto.
    destruct (e =? 0); [apply Hk|apply F]. }
  unfold GetPermissions. destruct (s_named sec) as [last|u].
  - unfold wcapture. destruct (dbg && (last =? 0)); exact Logic.I.
  - apply St. intros p1. cbv zeta. destruct (s_same sec).
    + apply St. intros; exact Logic.I.
    + apply St. intros p2. apply St. intros; exact Logic.I.
Qed.

Lemma failure_quiet : forall has e, match ProcessStatusFailure has e with WThrow _ => False | _ => True end.
Proof.
  intros has e. unfold ProcessStatusFailure. repeat match goal with |- context [if ?b then _ else _] => destruct b end; exact Logic.I.
Qed.

Lemma with_quiet : forall dbg has i attr k, (forall p, match k p with WThrow _ => False | _ => True end) ->
  match with_permissions dbg has i attr k with WThrow _ => False | _ => True end.
Proof.
  intros dbg has i attr k Hk. unfold with_permissions. pose proof (permissions_quiet dbg (w_security i) attr) as G.
  destruct (GetPermissions dbg true (w_security i) attr) as [p e|c|]; auto. destruct (e =? 0); [apply Hk|apply failure_quiet].
Qed.

Lemma status_quiet : forall dbg has i, match wstatus_impl dbg has i with WThrow _ => False | _ => True end.
Proof.
  intros dbg has i. unfold wstatus_impl, wcapture. destruct (w_attrs i) as [e|a].
  - destruct (dbg && (e =? 0)); [exact Logic.I|apply failure_quiet].
  - cbv zeta. destruct (has_attr a FILE_ATTRIBUTE_REPARSE_POINT); [|apply with_quiet; intros; exact Logic.I].
    destruct (w_open i) as [e|u]; [destruct (dbg && (e =? 0)); [exact Logic.I|apply failure_quiet]|].
    destruct (w_handle_attrs i) as [e|a']; [destruct (dbg && (e =? 0)); [exact Logic.I|apply failure_quiet]|].
    apply with_quiet; intros; exact Logic.I.
Qed.

Lemma symlink_status_quiet : forall dbg i, match wsymlink_status_impl dbg true i with WThrow _ => False | _ => True end.
Proof.
  intros dbg i. unfold wsymlink_status_impl, wcapture. destruct (w_attrs i) as [e|a].
  - destruct (dbg && (e =? 0)); [exact Logic.I|apply failure_quiet].
  - apply with_quiet. intros p. destruct (has_attr a FILE_ATTRIBUTE_REPARSE_POINT); [|exact Logic.I].
    unfold IsReparsePointSymlink, wcapture, wreport. destruct (w_open_link i) as [e|u]; [destruct (dbg && (e =? 0)); exact Logic.I|].
    destruct (w_tag i) as [e|tag]; [destruct (dbg && (e =? 0)); exact Logic.I|].
    destruct ((tag =? IO_REPARSE_TAG_SYMLINK) || (tag =? IO_REPARSE_TAG_MOUNT_POINT)); exact Logic.I.
Qed.

Lemma wquiet_status : forall dbg has p, wquiet (wstatus_of dbg has p).
Proof. intros dbg has p. cbn. intros r. pose proof (status_quiet dbg has r). destruct (wstatus_impl dbg has r); cbn; auto. Qed.
Lemma wquiet_symlink_status : forall dbg p, wquiet (wsymlink_status_of dbg true p).
Proof. intros dbg p. cbn. intros r. pose proof (symlink_status_quiet dbg r). destruct (wsymlink_status_impl dbg true r); cbn; auto. Qed.

Ltac quieten :=
  repeat first
    [ apply wquiet_fail | apply wquiet_bad | apply wquiet_ret | apply wquiet_simple | apply wquiet_status | apply wquiet_symlink_status
    | apply wcalm_from | apply wcalm_to
    | match goal with
      | |- wquiet (wbind _ _) => apply wquiet_bind; [|intros ? ?]
      | |- wquiet (wlift _ _) => apply wquiet_lift; [|intros ?]
      | |- wquiet (WSys _ _) => cbn [wquiet]; intros ?
      | |- wquiet (if ?b then _ else _) => destruct b
      | |- wquiet (match ?x with _ => _ end) => destruct x
      end ].

(** The functions with an error_code that are declared noexcept (include/filesystem/fs_ops.h:119-509), except permissions and space. *)
Theorem C73_operations_never_throw : forall (dbg : bool) (m : signed_mode) (tps : Z) (p q : path),
  wnever_throws (wset_current_path dbg true p) /\
  wnever_throws (wcopy_symlink dbg true p q) /\
  wnever_throws (wcreate_directory dbg true p) /\
  wnever_throws (wcreate_directory_like dbg true p q) /\
  wnever_throws (wcreate_directory_symlink dbg true p q) /\
  wnever_throws (wcreate_hard_link dbg true p q) /\
  wnever_throws (wcreate_symlink dbg true p q) /\
  wnever_throws (wexists_ec dbg p) /\
  wnever_throws (wequivalent dbg true p q) /\
  wnever_throws (wfile_size dbg true p) /\
  wnever_throws (whard_link_count dbg true p) /\
  wnever_throws (wis_directory_ec dbg p) /\
  wnever_throws (wis_symlink_ec dbg p) /\
  wnever_throws (wlast_write_time dbg m tps true p) /\
  (forall t, wnever_throws (wset_last_write_time dbg m tps true p t)) /\
  wnever_throws (wremove dbg true p) /\
  wnever_throws (wrename dbg true p q) /\
  (forall size, wnever_throws (wresize_file dbg true p size)) /\
  wnever_throws (wstatus_of dbg true p) /\
  wnever_throws (wsymlink_status_of dbg true p).
Proof.
  intros dbg m tps p q. repeat match goal with |- _ /\ _ => split end; intros; apply wquiet_never;
    unfold wset_current_path, wcopy_symlink, wread_symlink, wcreate_directory, wcreate_directory_like, wcreate_directory_symlink, wcreate_hard_link,
      wcreate_symlink, wexists_ec, wequivalent, wfile_size, whard_link_count, wis_directory_ec, wis_symlink_ec, wlast_write_time, wset_last_write_time,
      wremove, wrename, wresize_file; cbv zeta; quieten.
Qed.

Example C73_example :
  let a := wpath (lit "C:\a") in let b := wpath (lit "C:\b") in
  wrun (refusing 5) (wcopy_symlink true true a b) tt = (WE (WRet tt 5), tt) /\
  wrun (refusing 5) (wresize_file true true a 10) tt = (WE (WRet tt 5), tt) /\
  wescapes (fst (wrun (refusing 5) (wresize_file true false a 10) tt)).
Proof. vm_compute. auto. Qed.

(** Refuted for space: for a path that is not absolute with a root name, a current directory that cannot be read makes the noexcept
    overload end with an exception. *)
Theorem C73_space_refuted : forall dbg E p S (h : wkernel S) s e s1,
  is_absolute Windows E p && has_root_name p = false -> h w_CurrentDirectory s = (inl e, s1) -> e <> 0 ->
  wescapes (fst (wrun h (wspace dbg E true p) s)).
Proof.
  intros dbg E p S h s e s1 Hp Hc He. unfold wspace, wabsolute. rewrite Hp. unfold wcurrent_path, wfail, wcapture. cbn [wbind wrun]. rewrite Hc.
  apply N.eqb_neq in He. rewrite He, andb_false_r. exact Logic.I.
Qed.
Example C73_space_example : fst (wrun (refusing 2) (wspace true (Elision true true true) true (wpath (lit "x"))) tt) = WE (WThrow 2).
Proof. reflexivity. Qed.

(** * C74 space and temp_directory_path *)

(** On an absolute path with a root name the numbers of the system are passed on, for the directory the path is in ... *)
Theorem C74_space_partial : forall dbg E has p dir S (h : wkernel S) s avail total free s1,
  is_absolute Windows E p && has_root_name p = true -> remove_filename Windows p = Ok dir ->
  h (w_DiskFreeSpace (native dir)) s = (inr (avail, total, free), s1) -> avail <> 0 -> total <> 0 -> free <> 0 ->
  wrun h (wspace dbg E has p) s = (WE (WRet (WSpace total free avail) 0), s1).
Proof.
  intros dbg E has p dir S h s avail total free s1 Hp Hd Hf Ha Ht Hfr. unfold wspace, wabsolute. rewrite Hp. cbn [wbind wret]. rewrite Hd. cbn [wlift wrun].
  rewrite Hf. cbn [wrun wret]. unfold nonzero_or_max. apply N.eqb_neq in Ha, Ht, Hfr. rewrite Ha, Ht, Hfr. reflexivity.
Qed.

(** ... except 0: a full disk is reported to have 2^64 - 1 bytes left. *)
Theorem C74_full_disk_refuted : forall dbg E has p dir S (h : wkernel S) s total s1,
  is_absolute Windows E p && has_root_name p = true -> remove_filename Windows p = Ok dir ->
  h (w_DiskFreeSpace (native dir)) s = (inr (0, total, 0), s1) -> total <> 0 ->
  wrun h (wspace dbg E has p) s = (WE (WRet (WSpace total (2 ^ 64 - 1) (2 ^ 64 - 1)) 0), s1).
Proof.
  intros dbg E has p dir S h s total s1 Hp Hd Hf Ht. unfold wspace, wabsolute. rewrite Hp. cbn [wbind wret]. rewrite Hd. cbn [wlift wrun].
  rewrite Hf. cbn [wrun wret]. unfold nonzero_or_max. apply N.eqb_neq in Ht. rewrite Ht. reflexivity.
Qed.

(** temp_directory_path returns the path of the system only if it is an existing directory; else error 20 (not_a_directory) or the
    code of status, with an empty path. *)
Theorem C74_temp_partial : forall dbg has S (h : wkernel S) ans s n last buff st e, steady h ans ->
  ans w_TempPath = (n, last, buff) -> 0 < n -> n <= 260 ->
  wstatus_impl dbg true (ans (w_Info (native (wpath buff)))) = WRet st e ->
  (fst st = WT ft_directory -> wrun h (wtemp_directory_path dbg has) s = (WE (WRet (wpath buff) 0), s)) /\
  (fst st <> WT ft_directory -> fst st <> WT ft_none -> wrun h (wtemp_directory_path dbg has) s = (told has path_default 20, s)) /\
  (fst st = WT ft_none -> wrun h (wtemp_directory_path dbg has) s = (told has path_default e, s)).
Proof.
  intros dbg has S h ans s n last buff st e Hst Ht Hn Hle Hs. unfold wtemp_directory_path. cbn [wrun]. rewrite (Hst w_TempPath s eq_refl), Ht.
  replace (MAX_PATH <? n) with false by (symmetry; apply N.ltb_ge; exact Hle). replace (n =? 0) with false by (symmetry; apply N.eqb_neq; lia). cbn [orb].
  destruct (goes_status h ans Hst s path dbg (wpath buff) (fun (st : wstatus) (e : N) =>
    if negb (wknown st) then wbad has path_default e
    else if negb (wexists (fst st)) || negb (wis ft_directory st) then wbad has path_default errc_not_a_directory
    else wret (wpath buff) 0) st e Hs) as [K _]. rewrite K. unfold wknown, wis. repeat apply conj.
  - intros ->. reflexivity.
  - intros N1 N2. assert (X1 : wtype_is ft_none (fst st) = false) by (destruct (fst st) as [u|]; [destruct u; try reflexivity; congruence|reflexivity]).
    assert (X2 : wtype_is ft_directory (fst st) = false) by (destruct (fst st) as [u|]; [destruct u; try reflexivity; congruence|reflexivity]).
    rewrite X1, X2. cbn [negb]. rewrite orb_true_r. destruct has; reflexivity.
  - intros ->. destruct has; reflexivity.
Qed.

(** Refuted for a longer path: GetTempPathW then returns the size it needs and no error; if the last error was 0, an empty path is returned without an error, or an
    assertion fails in debug builds. *)
Theorem C74_temp_long_refuted : forall dbg S (h : wkernel S) s n buff s1, 260 < n -> h w_TempPath s = ((n, 0, buff), s1) ->
  wrun h (wtemp_directory_path dbg true) s = (WE (if dbg then WAssert else WRet path_default 0), s1).
Proof.
  intros dbg S h s n buff s1 Hn Ht. unfold wtemp_directory_path. cbn [wrun]. rewrite Ht.
  replace (MAX_PATH <? n) with true by (symmetry; apply N.ltb_lt; exact Hn). cbn [orb]. destruct dbg; reflexivity.
Qed.

Definition temp_ans : forall c, wanswer c := fun c =>
  match c return wanswer c with
  | w_Info q =>
      if str_eqb q (lit "C:\T") then WInfo (inr 16) (inl 2) (inl 2) (inl 2) (inl 2) (Security (inr tt) false (fun _ => inr 1179785))
      else WInfo (inl 2) (inl 2) (inl 2) (inl 2) (inl 2) (Security (inl 2) false (fun _ => inr 0))
  | w_TempPath => (4, 0, lit "C:\T")
  | w_DiskFreeSpace q => if str_eqb q (lit "C:\") then inr (0, 1000, 0) else inr (1, 2, 3)
  | w_Find _ => (inl 2, 2)
  | w_FileInfo _ | w_WriteTime _ | w_AttributesEx _ | w_Attributes _ | w_Reparse _ | w_CurrentDirectory => inl 2
  | _ => inr tt
  end.
Definition temp_kernel : wkernel unit := fun c s => (temp_ans c, s).
Example C74_example :
  steady temp_kernel temp_ans /\
  wrun temp_kernel (wtemp_directory_path true false) tt = (WE (WRet (wpath (lit "C:\T")) 0), tt) /\
  wrun temp_kernel (wspace true (Elision true true true) false (wpath (lit "C:\f"))) tt = (WE (WRet (WSpace 1000 (2 ^ 64 - 1) (2 ^ 64 - 1)) 0), tt) /\
  wrun temp_kernel (wspace true (Elision true true true) false (wpath (lit "D:\f"))) tt = (WE (WRet (WSpace 2 3 1) 0), tt).
Proof. split; [intros c s H; reflexivity|]. vm_compute. auto. Qed.

Print Assumptions C73_operations_never_throw.
Print Assumptions C73_space_refuted.
Print Assumptions C74_space_partial.
Print Assumptions C74_full_disk_refuted.
Print Assumptions C74_temp_partial.
Print Assumptions C74_temp_long_refuted.
