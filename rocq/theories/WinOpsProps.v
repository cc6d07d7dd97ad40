(** C67: remove on Windows. C68: create_directory on Windows. C69: copy_file on Windows. C70: equivalent, file_size, hard_link_count and is_empty
    on Windows. Everything is proved for every system that answers the calls. *)
From Coq Require Import Ascii String Bool NArith ZArith Arith List Lia.
From Verif Require Import Str PathModel FlagsModel TimeModel WinPermsModel StrProofs ArithProps WinStatModel WinStatProps WinOpsModel.
Import ListNotations.
Local Open Scope N_scope.

(** * Specification *)

(** The calls that change something. *)
Definition changes (c : wcall) : bool :=
  match c with
  | w_RemoveDirectory _ | w_DeleteFile _ | w_CreateDirectory _ | w_CreateDirectoryEx _ _ | w_CopyFile _ _ _
  | w_CreateSymbolicLink _ _ _ | w_CreateHardLink _ _ | w_SetWriteTime _ _ | w_SetCurrentDirectory _ | w_Rename _ _ | w_SetEnd _ _ => true
  | _ => false
  end.

(** The calls made in a run, in order. *)
Fixpoint wcalls {A S} (h : wkernel S) (p : wprog A) (s : S) : list wcall :=
  match p with
  | WEnd _ => []
  | WSys c k => let '(r, s') := h c s in c :: wcalls h (k r) s'
  end.

(** Those of them that change something. *)
Definition made {A S} (h : wkernel S) (p : wprog A) (s : S) : list wcall := filter changes (wcalls h p s).

(** How a failure with code [e] is told: in *ec when there is one, else as a filesystem_error. *)
Definition told {A} (has : bool) (v : A) (e : N) : wend A := WE (if has then WRet v e else WThrow e).

(** * C67 remove *)

(** The call that deletes an object with these attributes. *)
Definition deletes (attrs : N) (p : path) : wcall :=
  if is_dir attrs then w_RemoveDirectory (native p) else w_DeleteFile (native p).

(** Its answer. *)
Definition delete_answer {S} (h : wkernel S) (attrs : N) (p : path) (s : S) : (N + unit) * S :=
  if is_dir attrs then h (w_RemoveDirectory (native p)) s else h (w_DeleteFile (native p)) s.

(** Nothing but [p] is deleted, and with the call for its kind. *)
Theorem C67_only_p : forall dbg has p S (h : wkernel S) s,
  made h (wremove dbg has p) s =
    match fst (h (w_Attributes (native p)) s) with
    | inr attrs => if is_nil (native p) then [] else [deletes attrs p]
    | inl _ => []
    end.
Proof.
  intros dbg has p S h s. unfold made, wremove, empty, native. destruct (is_nil (pathname p)) eqn:Hp.
  - cbn. destruct (h (w_Attributes (pathname p)) s) as [[e|a] s1]; reflexivity.
  - cbn [wcalls]. destruct (h (w_Attributes (pathname p)) s) as [[e|a] s1]; cbn [fst filter changes].
    + destruct (e =? ERROR_FILE_NOT_FOUND); reflexivity.
    + unfold deletes. rewrite dir_attr. destruct (is_dir a); cbn [wcalls].
      * destruct (h (w_RemoveDirectory (pathname p)) s1) as [[e|u] s2]; [destruct (negb (e =? ERROR_FILE_NOT_FOUND))|]; reflexivity.
      * destruct (h (w_DeleteFile (pathname p)) s1) as [[e|u] s2]; [destruct (negb (e =? ERROR_FILE_NOT_FOUND))|]; reflexivity.
Qed.

Lemma wfail_told : forall A S dbg has (v : A) e (h : wkernel S) s, e <> 0 -> wrun h (wfail dbg has v e) s = (told has v e, s).
Proof.
  intros A S dbg has v e h s He. unfold wfail, wcapture, told, wreport. apply N.eqb_neq in He. rewrite He, andb_false_r. reflexivity.
Qed.

Lemma nonempty_native : forall p, native p <> [] -> empty p = false.
Proof. intros p H. unfold empty, native in *. destruct (pathname p); [congruence|reflexivity]. Qed.

(** An object that is there: true if it was deleted; a failure of the deletion is told with its code. *)
Theorem C67_there : forall dbg has p S (h : wkernel S) s attrs s1 answer s2, native p <> [] ->
  h (w_Attributes (native p)) s = (inr attrs, s1) -> delete_answer h attrs p s1 = (answer, s2) ->
  (forall u, answer = inr u -> wrun h (wremove dbg has p) s = (WE (WRet true 0), s2)) /\
  (forall e, answer = inl e -> e <> 0 -> e <> 2 -> wrun h (wremove dbg has p) s = (told has false e, s2)).
Proof.
  intros dbg has p S h s attrs s1 answer s2 Hp Ha Hd. unfold wremove. rewrite (nonempty_native p Hp).
  cbn [wrun]. rewrite Ha. unfold delete_answer in Hd. rewrite dir_attr.
  destruct (is_dir attrs); cbn [wrun]; rewrite Hd; split.
  all: try (intros u ->; reflexivity).
  all: intros e -> He0 He2; unfold ERROR_FILE_NOT_FOUND; apply N.eqb_neq in He2; rewrite He2; cbn [negb]; apply wfail_told; exact He0.
Qed.

(** Nothing of that name in its directory: false, no error. *)
Theorem C67_missing_partial : forall dbg has p S (h : wkernel S) s s1,
  h (w_Attributes (native p)) s = (inl 2, s1) -> native p <> [] -> wrun h (wremove dbg has p) s = (WE (WRet false 0), s1).
Proof.
  intros dbg has p S h s s1 Ha Hp. unfold wremove. rewrite (nonempty_native p Hp).
  cbn [wrun]. rewrite Ha. reflexivity.
Qed.

(** Refuted: a path in a directory that does not exist (Windows answers 3) makes remove fail, though nothing is there. *)
Theorem C67_missing_refuted : forall dbg p S (h : wkernel S) s s1, native p <> [] ->
  h (w_Attributes (native p)) s = (inl 3, s1) -> wrun h (wremove dbg false p) s = (WE (WThrow 3), s1).
Proof.
  intros dbg p S h s s1 Hp Ha. unfold wremove. rewrite (nonempty_native p Hp).
  cbn [wrun]. rewrite Ha. change (3 =? ERROR_FILE_NOT_FOUND) with false. cbv iota. apply (wfail_told bool S dbg false false 3). lia.
Qed.

(** Refuted: true is returned when somebody else deleted the object after it was looked at. *)
Theorem C67_true_means_deleted_refuted : forall dbg has p S (h : wkernel S) s attrs s1 s2, native p <> [] ->
  h (w_Attributes (native p)) s = (inr attrs, s1) -> delete_answer h attrs p s1 = (inl 2, s2) ->
  wrun h (wremove dbg has p) s = (WE (WRet true 0), s2).
Proof.
  intros dbg has p S h s attrs s1 s2 Hp Ha Hd. unfold wremove. rewrite (nonempty_native p Hp).
  cbn [wrun]. rewrite Ha. unfold delete_answer in Hd. rewrite dir_attr. destruct (is_dir attrs); cbn [wrun]; rewrite Hd; reflexivity.
Qed.

(** A system with one object of the given attributes: deletions of the right kind succeed, of the wrong kind fail with code 5. The state says
    whether the object is there. *)
Definition one_object (name : str) (attrs : N) : wkernel bool := fun c =>
  match c return bool -> wanswer c * bool with
  | w_Attributes q => fun s => (if s && str_eqb q name then inr attrs else inl 2, s)
  | w_RemoveDirectory q => fun s => if s && str_eqb q name then if is_dir attrs then (inr tt, false) else (inl 5, s) else (inl 2, s)
  | w_DeleteFile q => fun s => if s && str_eqb q name then if is_dir attrs then (inl 5, s) else (inr tt, false) else (inl 2, s)
  | w_Info _ => fun s => (WInfo (inl 2) (inl 2) (inl 2) (inl 2) (inl 2) (Security (inl 2) false (fun _ => inr 0)), s)
  | w_TempPath => fun s => ((0, 2, []), s)
  | w_Find _ => fun s => ((inl 2, 2), s)
  | w_FileInfo _ | w_AttributesEx _ | w_Reparse _ | w_WriteTime _ | w_CurrentDirectory | w_DiskFreeSpace _ | _ => fun s => (inl 2, s)
  end.

Example C67_example :
  let p := wpath (lit "C:\a") in
  wrun (one_object (lit "C:\a") 16) (wremove true false p) true = (WE (WRet true 0), false) /\
  made (one_object (lit "C:\a") 16) (wremove true false p) true = [w_RemoveDirectory (lit "C:\a")] /\
  made (one_object (lit "C:\a") 32) (wremove true false p) true = [w_DeleteFile (lit "C:\a")] /\
  wrun (one_object (lit "C:\a") 32) (wremove true true p) false = (WE (WRet false 0), false).
Proof. vm_compute. auto. Qed.

(** * C68 create_directory *)

(** True exactly when the directory was made; false without error when the name is taken; every other failure is told. One attempt is made, at [p]. *)
Theorem C68_create_directory : forall dbg has p S (h : wkernel S) s answer s1,
  h (w_CreateDirectory (native p)) s = (answer, s1) ->
  made h (wcreate_directory dbg has p) s = [w_CreateDirectory (native p)] /\
  (forall u, answer = inr u -> wrun h (wcreate_directory dbg has p) s = (WE (WRet true 0), s1)) /\
  (answer = inl 183 -> wrun h (wcreate_directory dbg has p) s = (WE (WRet false 0), s1)) /\
  (forall e, answer = inl e -> e <> 0 -> e <> 183 -> wrun h (wcreate_directory dbg has p) s = (told has false e, s1)).
Proof.
  intros dbg has p S h s answer s1 H. unfold made, wcreate_directory. cbn [wcalls wrun]. rewrite H. repeat apply conj.
  - cbn [filter changes]. destruct answer as [e|u]; [destruct (negb (e =? ERROR_ALREADY_EXISTS))|]; reflexivity.
  - intros u ->. reflexivity.
  - intros ->. reflexivity.
  - intros e -> H0 H1. apply N.eqb_neq in H1. unfold ERROR_ALREADY_EXISTS. rewrite H1. cbn [negb]. apply wfail_told; exact H0.
Qed.

(** With an existing directory as pattern: the directory is made after it, and failures are told ... *)
Theorem C68_like_partial : forall dbg has p tmpl S (h : wkernel S) s answer s1,
  h (w_CreateDirectoryEx (native tmpl) (native p)) s = (answer, s1) ->
  made h (wcreate_directory_like dbg has p tmpl) s = [w_CreateDirectoryEx (native tmpl) (native p)] /\
  (forall u, answer = inr u -> wrun h (wcreate_directory_like dbg has p tmpl) s = (WE (WRet true 0), s1)) /\
  (forall e, answer = inl e -> e <> 0 -> e <> 183 ->
     exists v, wrun h (wcreate_directory_like dbg has p tmpl) s = (told has v e, s1)).
Proof.
  intros dbg has p tmpl S h s answer s1 H. unfold made, wcreate_directory_like. cbn [wcalls wrun]. rewrite H. repeat apply conj.
  - cbn [filter changes]. destruct answer as [e|u]; [destruct (negb (e =? ERROR_ALREADY_EXISTS))|]; reflexivity.
  - intros u ->. reflexivity.
  - intros e -> H0 H1. exists true. apply N.eqb_neq in H1. unfold ERROR_ALREADY_EXISTS. rewrite H1. cbn [negb]. apply wfail_told; exact H0.
Qed.

(** ... but the value is true when the directory existed, and when an error was put in the error_code. *)
Theorem C68_like_refuted : forall dbg p tmpl S (h : wkernel S) s e s1,
  h (w_CreateDirectoryEx (native tmpl) (native p)) s = (inl e, s1) -> e <> 0 ->
  exists ec, wrun h (wcreate_directory_like dbg true p tmpl) s = (WE (WRet true ec), s1) /\ (ec = 0 <-> e = 183).
Proof.
  intros dbg p tmpl S h s e s1 H H0. unfold wcreate_directory_like. cbn [wrun]. rewrite H. unfold ERROR_ALREADY_EXISTS. destruct (N.eqb_spec e 183) as [->|Hn]; cbn [negb].
  - exists 0. split; [reflexivity|]. tauto.
  - exists e. split; [apply wfail_told; exact H0|]. lia.
Qed.

Definition refusing (e : N) : wkernel unit := fun c =>
  match c return unit -> wanswer c * unit with
  | w_Info _ => fun s => (WInfo (inl e) (inl e) (inl e) (inl e) (inl e) (Security (inl e) false (fun _ => inr 0)), s)
  | w_TempPath => fun s => ((0, e, []), s)
  | w_Find _ => fun s => ((inl e, e), s)
  | w_FileInfo _ | w_AttributesEx _ | w_Attributes _ | w_Reparse _ | w_WriteTime _ | w_CurrentDirectory | w_DiskFreeSpace _ | _ => fun s => (inl e, s)
  end.

Example C68_example :
  let p := wpath (lit "C:\a") in
  wrun (refusing 5) (wcreate_directory true true p) tt = (WE (WRet false 5), tt) /\
  wrun (refusing 183) (wcreate_directory true false p) tt = (WE (WRet false 0), tt) /\
  wrun (refusing 5) (wcreate_directory_like true true p (wpath (lit "C:\b"))) tt = (WE (WRet true 5), tt) /\
  wrun (refusing 183) (wcreate_directory_like true false p (wpath (lit "C:\b"))) tt = (WE (WRet true 0), tt).
Proof. vm_compute. auto. Qed.

(** * C69 copy_file *)

(** A system that changes only by the changing calls, with these answers to all others. *)
Definition steady {S} (h : wkernel S) (ans : forall c, wanswer c) : Prop :=
  forall c s, changes c = false -> h c s = (ans c, s).

(** What status says of a file. *)
Inductive kind := Missing | Regular | Neither.
Definition sees (dbg : bool) (ans : forall c, wanswer c) (p : path) (k : kind) (code : N) : Prop :=
  exists t prms, wstatus_impl dbg true (ans (w_Info (native p))) = WRet (t, prms) code /\
    match k with
    | Missing => t = WT ft_not_found /\ code <> 0
    | Regular => t = WT ft_regular /\ code = 0
    | Neither => t <> WT ft_regular /\ t <> WT ft_not_found /\ t <> WT ft_none /\ code = 0
    end.

(** The same file: the same number on the same volume (and, being the same, of the same size and age). *)
Definition same_object (a b : handle_info) : bool :=
  (hi_volume a =? hi_volume b) && (hi_index a =? hi_index b) && (hi_size a =? hi_size b) && (hi_time a =? hi_time b).

(** What copy_file has to do with a regular source. Options: 1 skip_existing, 2 overwrite_existing, 4 update_existing. Codes: 129
    not_supported, 17 file_exists. *)
Inductive verdict := Copies | Keeps | Refuses (code : N).
Definition copy_rule (target : kind) (same newer : bool) (options : N) : verdict :=
  match target with
  | Missing => Copies
  | Neither => Refuses 129
  | Regular =>
      if same then Refuses 17
      else if N.testbit options 0 then Keeps
      else if N.testbit options 2 then if newer then Copies else Keeps
      else if N.testbit options 1 then Copies
      else Refuses 17
  end.

(** The rule is obeyed: the files are touched as it says and the result is told. *)
Definition obeys {S} (h : wkernel S) (p : wprog bool) (s : S) (has : bool) (from to : path) (v : verdict) : Prop :=
  match v with
  | Copies =>
      made h p s = [w_CopyFile (native from) (native to) false] /\
      let '(answer, s') := h (w_CopyFile (native from) (native to) false) s in
      (forall u, answer = inr u -> wrun h p s = (WE (WRet true 0), s')) /\
      (forall e, answer = inl e -> e <> 0 -> wrun h p s = (told has false e, s'))
  | Keeps => made h p s = [] /\ wrun h p s = (WE (WRet false 0), s)
  | Refuses c => made h p s = [] /\ wrun h p s = (told has false c, s)
  end.

(** A time that the clock of the library can express, FILETIME being in units of 100 ns since 1601; seconds. *)
Definition seconds (q : N) : Z := (Z.of_N q / 10000000)%Z.
Definition expressible (tps : Z) (q : N) : Prop := (- 2 ^ 63 <= (seconds q - 11644473600) * tps < 2 ^ 63)%Z.

Lemma steady_run : forall A S (h : wkernel S) ans c (k : wanswer c -> wprog A) s, steady h ans -> changes c = false ->
  wrun h (WSys c k) s = wrun h (k (ans c)) s /\ made h (WSys c k) s = made h (k (ans c)) s.
Proof. intros A S h ans c k s H Hc. unfold made. cbn [wrun wcalls]. rewrite (H c s Hc). cbn [filter]. rewrite Hc. split; reflexivity. Qed.

Lemma option_bits : forall options,
  wopt co_skip_existing options = N.testbit options 0 /\ wopt co_overwrite_existing options = N.testbit options 1 /\
  wopt co_update_existing options = N.testbit options 2.
Proof.
  assert (K : forall i o, (i < 16)%N -> negb (op_and width_copy_options (2 ^ i) o =? 0) = N.testbit o i).
  { intros i o Hi. rewrite <- has_attr_bit. unfold has_attr, op_and, trunc. do 2 f_equal. rewrite N.land_comm.
    apply N.mod_small.
    destruct (N.eq_dec (N.land o (2 ^ i)) 0) as [->|Hn]; [reflexivity|].
    apply N.log2_lt_pow2; [lia|]. eapply N.le_lt_trans; [apply N.log2_land|]. rewrite N.log2_pow2 by lia. unfold width_copy_options. lia. }
  intros o. unfold wopt. cbn [copt_value]. rewrite <- !(K _ o) by lia. auto.
Qed.

Lemma time_ok : forall m tps q, (tps = 10000000 \/ tps = 1000000000)%Z -> expressible tps q ->
  FileTimeTypeFromWindowsFileTime m tps (Z.of_N q) = Ok ((seconds q - 11644473600) * tps)%Z.
Proof.
  intros m tps q Ht Hq. unfold FileTimeTypeFromWindowsFileTime. unfold expressible in Hq. fold (seconds q).
  assert (R : (- 2 ^ 63 <= seconds q - 11644473600 < 2 ^ 63)%Z) by nia.
  replace (wrap64 ((seconds q - 11644473600) mod 2 ^ 64)) with (seconds q - 11644473600)%Z.
  - unfold sint. replace (in_i64 ((seconds q - 11644473600) * tps)) with true; [reflexivity|].
    unfold in_i64, i64_min, i64_max. symmetry. apply andb_true_intro. split; apply Z.leb_le; lia.
  - unfold wrap64. rewrite Zplus_mod_idemp_l. rewrite Z.mod_small; lia.
Qed.

(** The same effects and result from [s] on. *)
Definition goes {A S} (h : wkernel S) (s : S) (p q : wprog A) : Prop := wrun h p s = wrun h q s /\ made h p s = made h q s.

Section Steady.
Context {S : Type} (h : wkernel S) (ans : forall c, wanswer c) (Hs : steady h ans).
Variable s : S.

Lemma goes_trans : forall A (p q r : wprog A), goes h s p q -> goes h s q r -> goes h s p r.
Proof. intros A p q r [H1 H2] [H3 H4]. split; congruence. Qed.

Lemma goes_status : forall A dbg p (f : wstatus -> N -> wprog A) st e,
  wstatus_impl dbg true (ans (w_Info (native p))) = WRet st e -> goes h s (wbind (wstatus_of dbg true p) f) (f st e).
Proof.
  intros A dbg p f st e H. unfold wstatus_of. cbn [wbind]. unfold goes. pose proof (steady_run A S h ans (w_Info (native p))
    (fun r => wbind (WEnd (WE (wstatus_impl dbg true r))) f) s Hs eq_refl) as K. cbv beta in K. rewrite H in K. exact K.
Qed.

Lemma goes_equivalent : forall A dbg p q (f : bool -> N -> wprog A) a b,
  ans (w_FileInfo (native p)) = inr a -> ans (w_FileInfo (native q)) = inr b ->
  goes h s (wbind (wequivalent dbg true p q) f) (f (same_object a b) 0).
Proof.
  intros A dbg p q f a b Ha Hb. unfold wequivalent. cbn [wbind].
  eapply goes_trans; [apply (steady_run A S h ans (w_FileInfo (native p)) _ s Hs eq_refl)|]. rewrite Ha. cbn [wbind].
  eapply goes_trans; [apply (steady_run A S h ans (w_FileInfo (native q)) _ s Hs eq_refl)|]. rewrite Hb. cbn [wbind]. split; reflexivity.
Qed.

Lemma goes_time : forall A dbg m tps p (f : Z -> N -> wprog A) q, (tps = 10000000 \/ tps = 1000000000)%Z ->
  ans (w_WriteTime (native p)) = inr q -> expressible tps q ->
  goes h s (wbind (wlast_write_time dbg m tps true p) f) (f ((seconds q - 11644473600) * tps)%Z 0).
Proof.
  intros A dbg m tps p f q Ht Hq He. unfold wlast_write_time. cbn [wbind].
  eapply goes_trans; [apply (steady_run A S h ans (w_WriteTime (native p)) _ s Hs eq_refl)|]. rewrite Hq, time_ok by assumption. cbn [wlift wbind].
  split; reflexivity.
Qed.

Lemma goes_obeys : forall has from to v p q, goes h s p q -> obeys h q s has from to v -> obeys h p s has from to v.
Proof. intros has from to v p q [H1 H2] H. unfold obeys in *. rewrite H1, H2. exact H. Qed.

End Steady.

Lemma obeys_copy : forall S (h : wkernel S) s dbg has from to,
  obeys h (WSys (w_CopyFile (native from) (native to) false) (fun r : N + unit =>
             match r with inr _ => wret true 0 | inl e => wfail dbg has false e end)) s has from to Copies.
Proof.
  intros S h s dbg has from to. unfold obeys, made. cbn [wcalls wrun]. destruct (h (w_CopyFile (native from) (native to) false) s) as [r s'].
  split; [|split].
  - destruct r; reflexivity.
  - intros u ->. reflexivity.
  - intros e -> He. apply wfail_told; exact He.
Qed.

(** copy_file on a regular source follows the rule, with the write times compared in whole seconds and equal times counting as newer. *)
Theorem C69_rule_partial : forall dbg m tps has from to options S (h : wkernel S) ans s kt code a b q1 q2,
  steady h ans -> sees dbg ans from Regular 0 -> sees dbg ans to kt code ->
  (kt = Regular -> ans (w_FileInfo (native from)) = inr a /\ ans (w_FileInfo (native to)) = inr b) ->
  (kt = Regular -> N.testbit options 2 = true ->
     ans (w_WriteTime (native from)) = inr q1 /\ ans (w_WriteTime (native to)) = inr q2 /\ expressible tps q1 /\ expressible tps q2) ->
  (tps = 10000000 \/ tps = 1000000000)%Z ->
  obeys h (wcopy_file dbg m tps has from to options) s has from to
    (copy_rule kt (same_object a b) (seconds q2 <=? seconds q1)%Z options).
Proof.
  intros dbg m tps has from to options S h ans s kt code a b q1 q2 Hst (t1 & p1 & E1 & -> & _) (t2 & p2 & E2 & K2) Hsame Htime Htps.
  destruct (option_bits options) as (O1 & O2 & O3). unfold wcopy_file.
  eapply goes_obeys; [eapply goes_status; eassumption|]. change (negb (0 =? 0)) with false. cbv iota.
  change (negb (wis ft_regular (WT ft_regular, p1))) with false. cbv iota.
  eapply goes_obeys; [eapply goes_status; eassumption|]. unfold wknown, wis. cbn [fst].
  destruct kt; cbn [copy_rule].
  - destruct K2 as [-> _]. cbn [wtype_is file_type_eqb negb wexists andb wbind wret orb]. rewrite O1, O2, O3. apply obeys_copy.
  - destruct K2 as [-> ->]. cbn [wtype_is file_type_eqb negb wexists andb orb].
    destruct (Hsame eq_refl) as [Ha Hb]. eapply goes_obeys; [eapply goes_equivalent; eassumption|].
    destruct (same_object a b); [split; [|destruct has]; reflexivity|].
    rewrite O1, O2, O3. destruct (N.testbit options 0); [split; reflexivity|].
    destruct (N.testbit options 2) eqn:E.
    + destruct (Htime eq_refl eq_refl) as (T1 & T2 & X1 & X2).
      eapply goes_obeys; [eapply (goes_time h ans Hst s _ dbg m tps from); eassumption|]. change (negb (0 =? 0)) with false. cbv iota.
      eapply goes_obeys; [eapply (goes_time h ans Hst s _ dbg m tps to); eassumption|]. change (negb (0 =? 0)) with false. cbv iota.
      replace ((seconds q2 - 11644473600) * tps <=? (seconds q1 - 11644473600) * tps)%Z with (seconds q2 <=? seconds q1)%Z.
      * destruct (seconds q2 <=? seconds q1)%Z; [apply obeys_copy|split; reflexivity].
      * destruct (Z.leb_spec (seconds q2) (seconds q1)); destruct (Z.leb_spec ((seconds q2 - 11644473600) * tps) ((seconds q1 - 11644473600) * tps)); auto;
          destruct Htps; subst tps; lia.
    + destruct (N.testbit options 1); [apply obeys_copy|]. split; [|destruct has]; reflexivity.
  - destruct K2 as (N1 & N2 & N3 & ->).
    assert (X1 : wtype_is ft_none t2 = false) by (destruct t2 as [u|]; [destruct u; try reflexivity; congruence|reflexivity]).
    assert (X2 : wexists t2 = true) by (destruct t2 as [u|]; [destruct u; try reflexivity; congruence|reflexivity]).
    assert (X3 : wtype_is ft_regular t2 = false) by (destruct t2 as [u|]; [destruct u; try reflexivity; congruence|reflexivity]).
    rewrite X1, X2, X3. cbn [negb andb]. split; [|destruct has]; reflexivity.
Qed.

(** A source that is missing or not a regular file is refused and nothing is touched. *)
Theorem C69_source : forall dbg m tps has from to options S (h : wkernel S) ans s k code,
  steady h ans -> sees dbg ans from k code -> k <> Regular ->
  obeys h (wcopy_file dbg m tps has from to options) s has from to (Refuses (match k with Missing => code | _ => 129 end)).
Proof.
  intros dbg m tps has from to options S h ans s k code Hst (t1 & p1 & E1 & K) Hk. unfold wcopy_file.
  eapply goes_obeys; [eapply goes_status; eassumption|]. destruct k; [|congruence|].
  - destruct K as [_ Hc]. apply N.eqb_neq in Hc. rewrite Hc. cbn [negb]. split; [|destruct has]; reflexivity.
  - destruct K as (N1 & N2 & N3 & ->). change (negb (0 =? 0)) with false. cbv iota. unfold wis. cbn [fst].
    assert (X3 : wtype_is ft_regular t1 = false) by (destruct t1 as [u|]; [destruct u; try reflexivity; congruence|reflexivity]).
    rewrite X3. cbn [negb]. split; [|destruct has]; reflexivity.
Qed.

(** Refuted: update_existing replaces a file by an older one when both were written within the same second. *)
Theorem C69_update_refuted : forall dbg m tps has from to S (h : wkernel S) ans s a b q1 q2,
  steady h ans -> sees dbg ans from Regular 0 -> sees dbg ans to Regular 0 ->
  ans (w_FileInfo (native from)) = inr a -> ans (w_FileInfo (native to)) = inr b -> same_object a b = false ->
  ans (w_WriteTime (native from)) = inr q1 -> ans (w_WriteTime (native to)) = inr q2 -> expressible tps q1 -> expressible tps q2 ->
  (tps = 10000000 \/ tps = 1000000000)%Z -> q1 < q2 -> seconds q1 = seconds q2 ->
  made h (wcopy_file dbg m tps has from to 4) s = [w_CopyFile (native from) (native to) false].
Proof.
  intros dbg m tps has from to S h ans s a b q1 q2 Hst H1 H2 Ha Hb Hn T1 T2 X1 X2 Ht Hlt Hsec.
  pose proof (C69_rule_partial dbg m tps has from to 4 S h ans s Regular 0 a b q1 q2 Hst H1 H2 (fun _ => conj Ha Hb)
    (fun _ _ => conj T1 (conj T2 (conj X1 X2))) Ht) as K.
  cbn [copy_rule] in K. rewrite Hn, Hsec, Z.leb_refl in K. change (N.testbit 4 0) with false in K. change (N.testbit 4 2) with true in K. exact (proj1 K).
Qed.

(** Two files with write times a tenth of a second apart; copies succeed. *)
Definition two_files_ans : forall c, wanswer c := fun c =>
  match c return wanswer c with
  | w_Info q =>
      if str_eqb q (lit "C:\a") || str_eqb q (lit "C:\b")
      then WInfo (inr 32) (inl 2) (inl 2) (inl 2) (inl 2) (Security (inr tt) false (fun _ => inr 1179785))
      else WInfo (inl 2) (inl 2) (inl 2) (inl 2) (inl 2) (Security (inl 2) false (fun _ => inr 0))
  | w_FileInfo q => if str_eqb q (lit "C:\a") then inr (HInfo 1 7 3 132500000001000000 1) else inr (HInfo 1 8 3 132500000002000000 1)
  | w_WriteTime q => if str_eqb q (lit "C:\a") then inr 132500000001000000 else inr 132500000002000000
  | w_TempPath => (0, 2, [])
  | w_Find _ => (inl 2, 2)
  | w_AttributesEx _ | w_Attributes _ | w_Reparse _ | w_CurrentDirectory | w_DiskFreeSpace _ => inl 2
  | _ => inr tt
  end.
Definition two_files : wkernel unit := fun c s => (two_files_ans c, s).

Example C69_example :
  let a := wpath (lit "C:\a") in let b := wpath (lit "C:\b") in let c := wpath (lit "C:\c") in
  steady two_files two_files_ans /\ sees true two_files_ans a Regular 0 /\ sees true two_files_ans b Regular 0 /\ sees true two_files_ans c Missing 2 /\
  wrun two_files (wcopy_file true Strict 10000000 true a b 0) tt = (WE (WRet false 17), tt) /\
  wrun two_files (wcopy_file true Strict 10000000 true a b 1) tt = (WE (WRet false 0), tt) /\
  made two_files (wcopy_file true Strict 10000000 true a c 0) tt = [w_CopyFile (lit "C:\a") (lit "C:\c") false] /\
  made two_files (wcopy_file true Strict 10000000 true a b 4) tt = [w_CopyFile (lit "C:\a") (lit "C:\b") false] /\
  wrun two_files (wcopy_file true Strict 10000000 false c b 0) tt = (WE (WThrow 2), tt).
Proof.
  cbv zeta. repeat apply conj; try (vm_compute; reflexivity);
    eexists _, _; (split; [vm_compute; reflexivity|]); repeat apply conj; (reflexivity || discriminate).
Qed.

(** * C70 questions about files *)

(** equivalent compares the identities of the files: if the system gives files that differ different numbers on a volume, and one file the
    same data at both questions, the answer is whether the paths lead to the same file. [file] names the file a path leads to. *)
Theorem C70_equivalent_partial : forall dbg has p q S (h : wkernel S) ans s (file : str -> N) (data : N -> handle_info),
  steady h ans -> (forall t, t = native p \/ t = native q -> ans (w_FileInfo t) = inr (data (file t))) ->
  (forall f g, hi_volume (data f) = hi_volume (data g) -> hi_index (data f) = hi_index (data g) -> f = g) ->
  wrun h (wequivalent dbg has p q) s = (WE (WRet (file (native p) =? file (native q)) 0), s) /\ made h (wequivalent dbg has p q) s = [].
Proof.
  intros dbg has p q S h ans s file data Hst Hd Hinj. unfold wequivalent.
  destruct (steady_run bool S h ans (w_FileInfo (native p)) (fun r1 =>
     match r1 with inl e => wfail dbg has false e | inr a => WSys (w_FileInfo (native q)) (fun r2 =>
       match r2 with inl e => wfail dbg has false e | inr b =>
         wret ((hi_volume a =? hi_volume b) && (hi_index a =? hi_index b) && (hi_size a =? hi_size b) && (hi_time a =? hi_time b)) 0 end) end) s Hst eq_refl) as [-> ->].
  rewrite (Hd (native p)) by auto.
  edestruct (steady_run bool S h ans (w_FileInfo (native q))) as [-> ->]; [exact Hst|reflexivity|].
  rewrite (Hd (native q)) by auto. split; [|reflexivity]. cbn [wrun wret]. do 3 f_equal.
  destruct (N.eqb_spec (file (native p)) (file (native q))) as [E|E].
  - rewrite E, !N.eqb_refl. reflexivity.
  - destruct (N.eqb_spec (hi_volume (data (file (native p)))) (hi_volume (data (file (native q))))) as [V|V]; [|reflexivity].
    destruct (N.eqb_spec (hi_index (data (file (native p)))) (hi_index (data (file (native q))))) as [I|I]; [|reflexivity].
    exfalso. apply E, Hinj; assumption.
Qed.

(** Refuted while the file changes: one file, asked for twice, is not equivalent to itself if it was written to in between. *)
Theorem C70_equivalent_refuted : forall dbg has p S (h : wkernel S) s a b s1 s2,
  h (w_FileInfo (native p)) s = (inr a, s1) -> h (w_FileInfo (native p)) s1 = (inr b, s2) -> hi_size a <> hi_size b \/ hi_time a <> hi_time b ->
  wrun h (wequivalent dbg has p p) s = (WE (WRet false 0), s2).
Proof.
  intros dbg has p S h s a b s1 s2 H1 H2 Hn. unfold wequivalent. cbn [wrun]. rewrite H1. cbn [wrun]. rewrite H2. cbn [wrun wret]. do 3 f_equal.
  destruct Hn as [Hn|Hn]; apply N.eqb_neq in Hn; rewrite Hn, ?andb_false_r; reflexivity.
Qed.

(** A missing file is told in both positions. *)
Theorem C70_equivalent_missing : forall dbg has p q S (h : wkernel S) ans s e, steady h ans -> e <> 0 ->
  (ans (w_FileInfo (native p)) = inl e \/ (exists a, ans (w_FileInfo (native p)) = inr a) /\ ans (w_FileInfo (native q)) = inl e) ->
  wrun h (wequivalent dbg has p q) s = (told has false e, s).
Proof.
  intros dbg has p q S h ans s e Hst He H. unfold wequivalent. cbn [wrun]. rewrite (Hst (w_FileInfo (native p)) s eq_refl).
  destruct H as [-> |[[a ->] H]]; [apply wfail_told; exact He|]. cbn [wrun]. rewrite (Hst (w_FileInfo (native q)) s eq_refl), H. apply wfail_told; exact He.
Qed.

(** file_size: the size the system gives; a directory is refused (code 21, is_a_directory); failures are told with the maximum as value. *)
Theorem C70_file_size_partial : forall dbg has p S (h : wkernel S) s answer s1, h (w_AttributesEx (native p)) s = (answer, s1) ->
  made h (wfile_size dbg has p) s = [] /\
  (forall attrs size, answer = inr (attrs, size) -> is_dir attrs = false -> wrun h (wfile_size dbg has p) s = (WE (WRet size 0), s1)) /\
  (forall attrs size, answer = inr (attrs, size) -> is_dir attrs = true -> wrun h (wfile_size dbg has p) s = (told has (2 ^ 64 - 1) 21, s1)) /\
  (forall e, answer = inl e -> e <> 0 -> wrun h (wfile_size dbg has p) s = (told has (2 ^ 64 - 1) e, s1)).
Proof.
  intros dbg has p S h s answer s1 H. unfold made, wfile_size. cbn [wcalls wrun]. rewrite H. repeat apply conj.
  - cbn [filter changes]. destruct answer as [e|[at_ sz]]; [reflexivity|]. destruct (has_attr at_ FILE_ATTRIBUTE_DIRECTORY); reflexivity.
  - intros at_ sz -> Hd. rewrite dir_attr, Hd. reflexivity.
  - intros at_ sz -> Hd. rewrite dir_attr, Hd. unfold wbad, wreport, told, errc_is_a_directory, umax. destruct has; reflexivity.
  - intros e -> He. change (2 ^ 64 - 1) with umax. apply wfail_told; exact He.
Qed.

(** Refuted for links: whatever the target is, the answer is made of the attributes and the size of the link itself, 0; and is_empty says that a
    link to a file is empty. *)
Theorem C70_link_refuted : forall dbg ac has p S (h : wkernel S) s attrs s1, is_reparse attrs = true -> is_dir attrs = false ->
  h (w_AttributesEx (native p)) s = (inr (attrs, 0), s1) ->
  wrun h (wfile_size dbg has p) s = (WE (WRet 0 0), s1) /\ wrun h (wis_empty dbg ac has p) s = (WE (WRet true 0), s1) /\
  wcalls h (wis_empty dbg ac has p) s = [w_AttributesEx (native p)] /\ wcalls h (wfile_size dbg has p) s = [w_AttributesEx (native p)].
Proof.
  intros dbg ac has p S h s attrs s1 Hr Hd H. unfold wfile_size, wis_empty. cbn [wrun wcalls]. rewrite H, dir_attr, Hd. auto.
Qed.

(** is_empty of a file that is no directory: whether the size is 0; of a directory: whether there is anything but "." and ".." in it. *)
Theorem C70_is_empty_partial : forall dbg ac has p S (h : wkernel S) s attrs size s1, h (w_AttributesEx (native p)) s = (inr (attrs, size), s1) ->
  (is_dir attrs = false -> wrun h (wis_empty dbg ac has p) s = (WE (WRet (size =? 0) 0), s1)) /\
  (is_dir attrs = true -> forall d l last s2, h (w_Find (native p)) s1 = ((inr (d, l), last), s2) -> ac last = 18 ->
     exists b, wrun h (wis_empty dbg ac has p) s = (WE (WRet b 0), s2) /\
       (b = true <-> Forall (fun x => fd_name x = lit "." \/ fd_name x = lit "..") (d :: l))).
Proof.
  intros dbg ac has p S h s attrs size s1 H. unfold wis_empty. cbn [wrun]. rewrite H, dir_attr. split; intros ->; [reflexivity|].
  intros d l last s2 Hf Hc. cbn [wrun]. rewrite Hf. cbn [fst snd]. unfold wstream_open.
  assert (K : forall l, match next_data l with Some _ => ~ Forall (fun x => fd_name x = lit "." \/ fd_name x = lit "..") l
                        | None => Forall (fun x => fd_name x = lit "." \/ fd_name x = lit "..") l end).
  { clear. induction l as [|x r IH]; cbn [next_data]; [constructor|]. destruct (is_dots x) eqn:E.
    - unfold is_dots in E. apply orb_prop in E. rewrite !str_eqb_spec in E. destruct (next_data r) as [[]|].
      + intros F. apply IH. inversion F; assumption.
      + constructor; assumption.
    - intros F. inversion F as [|y z Hx]; subst. unfold is_dots in E. apply orb_false_elim in E. destruct E as [E1 E2].
      destruct Hx as [Hx|Hx]; apply str_eqb_spec in Hx; congruence. }
  specialize (K (d :: l)). destruct (next_data (d :: l)) as [[d' r]|].
  - exists false. split; [reflexivity|]. split; [discriminate|contradiction].
  - exists true. rewrite Hc. change (18 =? ERROR_ACCESS_DENIED) with false. cbv iota. change (18 =? ERROR_NO_MORE_FILES) with true. cbv iota.
    split; [reflexivity|]. tauto.
Qed.

(** hard_link_count: the number the system gives; failures are told with the maximum as value. *)
Theorem C70_hard_link_count : forall dbg has p S (h : wkernel S) s answer s1, h (w_FileInfo (native p)) s = (answer, s1) ->
  (forall i, answer = inr i -> wrun h (whard_link_count dbg has p) s = (WE (WRet (hi_links i) 0), s1)) /\
  (forall e, answer = inl e -> e <> 0 -> wrun h (whard_link_count dbg has p) s = (told has (2 ^ 64 - 1) e, s1)).
Proof.
  intros dbg has p S h s answer s1 H. unfold whard_link_count. cbn [wrun]. rewrite H. split.
  - intros i ->. reflexivity.
  - intros e -> He. change (2 ^ 64 - 1) with umax. apply wfail_told; exact He.
Qed.

Example C70_example :
  let a := wpath (lit "C:\a") in let b := wpath (lit "C:\b") in
  wrun two_files (wequivalent true false a b) tt = (WE (WRet false 0), tt) /\ wrun two_files (wequivalent true false a a) tt = (WE (WRet true 0), tt) /\
  wrun two_files (whard_link_count true false a) tt = (WE (WRet 1 0), tt) /\ wrun (refusing 3) (wfile_size true true a) tt = (WE (WRet 18446744073709551615 3), tt).
Proof. vm_compute. auto. Qed.

Print Assumptions C67_only_p.
Print Assumptions C67_there.
Print Assumptions C67_missing_partial.
Print Assumptions C67_missing_refuted.
Print Assumptions C67_true_means_deleted_refuted.
Print Assumptions C68_create_directory.
Print Assumptions C68_like_partial.
Print Assumptions C68_like_refuted.
Print Assumptions C69_rule_partial.
Print Assumptions C69_source.
Print Assumptions C69_update_refuted.
Print Assumptions C70_equivalent_partial.
Print Assumptions C70_equivalent_refuted.
Print Assumptions C70_equivalent_missing.
Print Assumptions C70_file_size_partial.
Print Assumptions C70_link_refuted.
Print Assumptions C70_is_empty_partial.
Print Assumptions C70_hard_link_count.
