(** C108 on Windows: an operation that fails has changed nothing, and an operation changes something at one moment only. *)
From Coq Require Import Ascii String Bool NArith ZArith List Lia.
From Verif Require Import Str PathModel FlagsModel TimeModel WinPermsModel WinAclModel WinStatModel WinOpsModel WinHandleModel WinHandles WinTold.
Import ListNotations.
Local Open Scope N_scope.

(** * Specification *)

(** A call that changed a file, a name, an attribute or the current directory: one of those that can, and it succeeded. Files are opened only if they exist, and a list of
    access rights made in memory changes no file. *)
Definition went {A} (r : N + A) : Prop := match r with inl _ => False | inr _ => True end.
Definition wchanged (c : wcall) : wanswer c -> Prop :=
  match c with
  | w_Info _ | w_Find _ | w_TempPath | w_FileInfo _ | w_AttributesEx _ | w_Attributes _ | w_Reparse _ | w_WriteTime _ | w_CurrentDirectory | w_DiskFreeSpace _
  | w_OpenExclusive _ => fun _ => False
  | w_RemoveDirectory _ | w_DeleteFile _ | w_CreateDirectory _ | w_CreateDirectoryEx _ _ | w_CopyFile _ _ _ | w_CreateSymbolicLink _ _ _
  | w_CreateHardLink _ _ | w_SetWriteTime _ _ | w_SetCurrentDirectory _ | w_Rename _ _ | w_SetEnd _ _ => went
  end.
Definition hchanged (c : hcall) : hanswer c -> Prop :=
  match c with
  | h_SetFileTime _ _ | h_SetEndOfFile _ | h_SetNamedSecurity _ _ => went
  | h_CreateFile _ _ _ _ | h_CloseHandle _ | h_Information _ | h_AttributeTag _ | h_DeviceIoControl _ | h_GetFileTime _ | h_SetFilePointer _ _ | h_GetFileType _
  | h_FindFirst _ | h_FindNext _ | h_FindClose _ | h_NamedSecurity _ | h_EqualSid _ | h_EffectiveRights _ _ | h_LocalAlloc | h_LocalFree _ | h_SetEntries _ _ _ => fun _ => False
  | h_Plain c => wchanged c
  end.
Definition changed_by (d : hevent) : Prop := match d with HEv c r => hchanged c r end.

(** The operations that make one change at most; copy_file is one of them, since CopyFileW is one call. *)
Definition wsingle (o : woperation) : Prop := match o with wo_remove_all _ | wo_copy _ _ _ => False | _ => True end.

(** * Proof *)

Lemma went_dec : forall A (r : N + A), {went r} + {~ went r}.
Proof. intros A [e|a]; cbn; auto. Qed.
Lemma hchanged_dec : forall c r, {hchanged c r} + {~ hchanged c r}.
Proof. intros c r. destruct c; cbn in *; auto using went_dec. destruct c; cbn in *; auto using went_dec. Qed.

(** Only things given back, and success. *)
Fixpoint tidy {A} (p : hprog A) : Prop :=
  match p with
  | HEnd (WE (WRet _ e)) => e = 0
  | HEnd _ => False
  | HSys c k => gives_back c /\ forall r, tidy (k r)
  end.
(** After the first change only that. *)
Fixpoint well {A} (p : hprog A) : Prop :=
  match p with
  | HEnd _ => True
  | HSys c k => forall r, (hchanged c r -> tidy (k r)) /\ (~ hchanged c r -> well (k r))
  end.
(** No change. *)
Fixpoint still {A} (p : hprog A) : Prop :=
  match p with HEnd _ => True | HSys c k => forall r, ~ hchanged c r /\ still (k r) end.

Lemma still_well : forall A (p : hprog A), still p -> well p.
Proof. induction p as [r|c k IH]; cbn; auto. intros H r. destruct (H r) as [H1 H2]. split; [contradiction|auto]. Qed.
Lemma still_bind : forall A B (p : hprog A) (f : A -> N -> hprog B), still p -> (forall a e, still (f a e)) -> still (hbind p f).
Proof. induction p as [[[a e|c|]| | |]|c k IH]; cbn; auto. intros f H Hf r. destruct (H r) as [H1 H2]. split; auto. Qed.
Lemma well_after : forall A B (p : hprog A) (f : A -> N -> hprog B), still p -> (forall a e, well (f a e)) -> well (hbind p f).
Proof. induction p as [[[a e|c|]| | |]|c k IH]; cbn; auto. intros f H Hf r. destruct (H r) as [H1 H2]. split; [contradiction|auto]. Qed.
Lemma tidy_bind : forall A B (p : hprog A) (f : A -> N -> hprog B), tidy p -> (forall a, tidy (f a 0)) -> tidy (hbind p f).
Proof. induction p as [[[a e|c|]| | |]|c k IH]; cbn; try contradiction; auto. - intros f -> H. apply H. - intros f [H1 H2] Hf. split; auto. Qed.
Lemma well_bind : forall A B (p : hprog A) (f : A -> N -> hprog B), well p -> (forall a, tidy (f a 0)) -> (forall a e, well (f a e)) -> well (hbind p f).
Proof.
  induction p as [[[a e|c|]| | |]|c k IH]; cbn; auto. intros f H Ht Hf r. destruct (H r) as [H1 H2]. split; [|auto]. intros Hc. apply tidy_bind; auto.
Qed.
Lemma tidy_scope : forall A c (p : hprog A), gives_back c -> tidy p -> tidy (hscope c p).
Proof.
  intros A c p Hc. induction p as [[[a e|x|]| | |]|x k IH]; cbn; try contradiction; auto.
  intros [H1 H2]. auto.
Qed.
Lemma back_change : forall c r, gives_back c -> ~ hchanged c r.
Proof. intros c r H. destruct c; cbn in *; auto. Qed.
Lemma well_scope : forall A c (p : hprog A), gives_back c -> well p -> well (hscope c p).
Proof.
  intros A c p Hc. induction p as [r|x k IH]; cbn [hscope well].
  - intros _. destruct (leaves r); cbn; auto. intros x. split; auto. intros H. exfalso. exact (back_change c x Hc H).
  - intros H r. destruct (H r) as [H1 H2]. split; auto using tidy_scope.
Qed.
Lemma still_scope : forall A c (p : hprog A), gives_back c -> still p -> still (hscope c p).
Proof.
  intros A c p Hc. induction p as [r|x k IH]; cbn [hscope still].
  - intros _. destruct (leaves r); cbn; auto. intros x. split; auto. exact (back_change c x Hc).
  - intros H r. destruct (H r) as [H1 H2]. split; auto.
Qed.
Lemma still_lift : forall A B (x : out A) (f : A -> hprog B), (forall a, still (f a)) -> still (hlift x f).
Proof. intros A B [a|e| |] f H; cbn; auto. Qed.
Lemma well_lift : forall A B (x : out A) (f : A -> hprog B), (forall a, well (f a)) -> well (hlift x f).
Proof. intros A B [a|e| |] f H; cbn; auto. Qed.
Lemma still_capture : forall dbg A last (k : N -> hprog A), still (k last) -> still (hcapture dbg last k).
Proof. intros. unfold hcapture. destruct (_ && _); cbn; auto. Qed.
Lemma well_capture : forall dbg A last (k : N -> hprog A), well (k last) -> well (hcapture dbg last k).
Proof. intros. unfold hcapture. destruct (_ && _); cbn; auto. Qed.
Lemma still_fail : forall dbg A has (v : A) last, still (hfail dbg has v last).
Proof. intros. apply still_capture. exact I. Qed.
Lemma still_file : forall dbg A p a s f (bad : N -> hprog A) body, (forall e, still (bad e)) -> (forall h, still (body h)) -> still (with_file dbg p a s f bad body).
Proof.
  intros. unfold with_file. intros [last|h]; split; auto; [apply still_capture; destruct (_ =? _); auto|apply still_scope; auto; exact I].
Qed.
Lemma well_file : forall dbg A p a s f (bad : N -> hprog A) body, (forall e, well (bad e)) -> (forall h, well (body h)) -> well (with_file dbg p a s f bad body).
Proof.
  intros. unfold with_file. intros [last|h]; (split; [intros []|intros _]); [apply well_capture; destruct (_ =? _); auto|apply well_scope; auto; exact I].
Qed.
Lemma still_calls : forall A cs (r : wend A), Forall gives_back cs -> still (hcalls cs r).
Proof. intros A cs r H. induction H as [|c cs Hc H IH]; cbn; auto. intros x. split; auto. apply back_change, Hc. Qed.
Lemma still_unwind : forall A cs (p : hprog A), Forall gives_back cs -> still p -> still (hunwind cs p).
Proof.
  intros A cs p Hc. induction p as [r|x k IH]; cbn [hunwind still]; [intros _; destruct (throws r); [apply still_calls; exact Hc|exact I]|]. intros H r. destruct (H r). auto.
Qed.
Lemma plain_bind : forall A B (p : wprog A) (f : A -> N -> wprog B), still (hplain p) -> (forall a e, still (hplain (f a e))) -> still (hplain (wbind p f)).
Proof. induction p as [[[a e|c|]| | |]|c k IH]; cbn; auto. intros f H Hf r. destruct (H r) as [H1 H2]. split; auto. Qed.
Lemma plain_lift : forall A B (x : out A) (f : A -> wprog B), (forall a, still (hplain (f a))) -> still (hplain (wlift x f)).
Proof. intros A B [a|e| |] f H; cbn; auto. Qed.

Ltac quiet := cbv zeta; repeat first
  [ exact I | assumption | apply still_fail
  | lazymatch goal with
    | |- still (hbind _ _) => apply still_bind; [|intros]
    | |- still (HSys _ _) => let r := fresh "r" in intros r; split; [exact (fun x => x)|]
    | |- still (hscope _ _) => apply still_scope; [exact I|]
    | |- still (hcapture _ _ _) => apply still_capture
    | |- still (hlift _ _) => apply still_lift; intros
    | |- still (with_file _ _ _ _ _ _ _) => apply still_file; intros
    | |- still (hplain (wbind _ _)) => apply plain_bind; [|intros]
    | |- still (hplain (wlift _ _)) => apply plain_lift; intros
    | |- still (hplain (match ?x with _ => _ end)) => destruct x
    | |- still (hplain (WSys _ _)) => cbn [hplain]
    | |- still (hplain _) => exact I
    | |- still (match ?x with _ => _ end) => destruct x
    end ].
Lemma well_plain_sys : forall A c (k : wanswer c -> wprog A), well (hplain (WSys c k)) = forall r, (wchanged c r -> tidy (hplain (k r))) /\ (~ wchanged c r -> well (hplain (k r))).
Proof. reflexivity. Qed.
(** A changing call, the answer of which is [inl] or [inr]. *)
Ltac acts := cbn [hplain]; intros [?e|?a]; (split; [intros Hw; try (exfalso; exact Hw)|intros _]).

Section Ops.
Variables (dbg : bool) (E : elision) (m : signed_mode) (tps : Z) (narrow : str -> option str) (n : nat) (has : bool).

Lemma still_step : forall h d t attr prms (k : N -> hprog N), (forall x, still (k x)) -> still (hpermission_step dbg h d t attr prms k).
Proof. intros h d t attr prms k H. unfold hpermission_step. quiet. apply H. Qed.
Lemma still_get : forall h p attr, still (hGetPermissions dbg h p attr).
Proof.
  intros h p attr. unfold hGetPermissions. quiet. apply still_step. intros p1. quiet; [|apply still_step; intros p2]; apply still_step; intros; exact I.
Qed.
Lemma still_status : forall h p, still (hstatus dbg h p).
Proof. intros h p. unfold hstatus, hwith_permissions. quiet. all: apply still_get. Qed.
Lemma still_reparse : forall h p, still (hIsReparsePointSymlink dbg h p).
Proof. intros. unfold hIsReparsePointSymlink. quiet. Qed.
Lemma still_symlink_status : forall h p, still (hsymlink_status dbg h p).
Proof. intros h p. unfold hsymlink_status, hwith_permissions. quiet; first [apply still_get|apply still_reparse]. Qed.
Lemma still_read_symlink : forall h p, still (hread_symlink dbg h p).
Proof. intros. unfold hread_symlink. quiet. Qed.
Lemma still_equivalent : forall h p q, still (hequivalent dbg h p q).
Proof. intros. unfold hequivalent. quiet. Qed.
Lemma still_count : forall h p, still (hhard_link_count dbg h p).
Proof. intros. unfold hhard_link_count. quiet. Qed.
Lemma still_time : forall h p, still (hlast_write_time dbg m tps h p).
Proof. intros. unfold hlast_write_time. quiet. Qed.
Lemma still_skip : forall k h d, still (hskip k h d).
Proof. induction k as [|k IH]; intros h d; cbn [hskip]; quiet. apply IH. Qed.
Lemma still_empty : forall p, still (his_empty dbg E narrow n has p).
Proof.
  intros p. unfold his_empty, hiter_new, hstream_open, hfill, hiter_destroy. quiet; try apply still_skip; try apply still_calls.
  all: try (unfold iter_closing, closing; repeat match goal with |- context [match ?x with _ => _ end] => destruct x end; repeat constructor).
Qed.
Lemma well_simple : forall (r : N + unit), well (hplain (wsimple dbg has r)).
Proof. intros [e|[]]; exact I. Qed.
Lemma well_set_permissions : forall p prms, well (hSetPermissions dbg true p prms).
Proof.
  intros p prms. unfold hSetPermissions. intros [e|d]; (split; [intros []|intros _]); [exact I|]. apply well_scope; [exact I|]. intros same. split; [intros []|intros _]. cbv zeta.
  generalize (explicit_entries 0 (if same then 0 else 1) prms). intros entries. generalize (rev entries), (@nil N). intros todo. induction todo as [|t todo IH]; intros blocks; cbn [hmake_aces].
  - intros [e|acl]; (split; [intros []|intros _]); [exact I|]. apply well_scope; [exact I|]. intros [e|[]]; (split; [intros Hw|intros Hw]); cbn in *; auto; contradiction.
  - intros [e|b]; (split; [intros []|intros _]); [apply still_well, still_fail|]. apply well_scope; [exact I|]. apply IH.
Qed.
Lemma well_permissions : forall p prms opts, well (hpermissions dbg has p prms opts).
Proof.
  intros p prms opts. unfold hpermissions. cbv zeta. destruct (dbg && _); [exact I|]. apply well_after.
  - quiet; first [apply still_symlink_status|apply still_status].
  - intros [e|x] _; [exact I|]. apply well_bind; [apply well_set_permissions|intros; reflexivity|]. intros a e. destruct (negb _); exact I.
Qed.
Lemma well_copy_file : forall p q o, well (hcopy_file dbg m tps has p q o).
Proof.
  intros p q o. unfold hcopy_file. cbv zeta. apply well_after; [apply still_status|]. intros st e. destruct (negb _); [exact I|]. destruct (negb _); [exact I|].
  apply well_after; [apply still_status|]. intros st2 e2. destruct (negb _); [exact I|]. destruct (_ && _); [exact I|].
  assert (C : well (HSys (h_Plain (w_CopyFile (native p) (native q) false)) (fun r : N + unit => match r with inr _ => hret true 0 | inl e => hfail dbg has false e end))).
  { acts; [apply still_well, still_fail|reflexivity|exact I]. }
  apply well_after; [quiet; apply still_equivalent|]. intros same e3. destruct same; [exact I|]. destruct (_ && _); [exact I|]. destruct (_ && _).
  - apply well_after; [apply still_time|]. intros t1 e4. destruct (negb _); [exact I|]. apply well_after; [apply still_time|]. intros t2 e5. destruct (negb _); [exact I|]. destruct (_ <=? _)%Z; [exact C|exact I].
  - destruct (_ || _); [exact C|exact I].
Qed.
Lemma well_perform : forall o, wsingle o -> well (wperform dbg E m tps narrow n has o).
Proof.
  intros o Ho. assert (M : forall A (p : hprog A), well p -> well (hbind p (fun _ e => hret tt e))) by (intros; apply well_bind; auto; intros; exact I || reflexivity).
  assert (F : forall A (v : A) e, well (hplain (wfail dbg has v e))) by (intros; exact I).
  destruct o; try destruct Ho; cbn [wperform]; cbv zeta; apply M.
  - unfold wcreate_directory. acts; [destruct (negb _); exact I|reflexivity|exact I].
  - unfold wcreate_directory_like. acts; [destruct (negb _); exact I|reflexivity|exact I].
  - unfold wcreate_symlink. acts; [exact I|destruct a; reflexivity|exact I].
  - unfold wcreate_directory_symlink. acts; [exact I|destruct a; reflexivity|exact I].
  - unfold wcreate_hard_link. acts; [exact I|destruct a; reflexivity|exact I].
  - unfold wset_current_path. acts; [exact I|destruct a; reflexivity|exact I].
  - unfold wrename. acts; [exact I|destruct a; reflexivity|exact I].
  - apply still_well. unfold wcurrent_path. quiet.
  - apply still_well. unfold wabsolute, wcurrent_path. quiet.
  - apply still_well. unfold wspace, wabsolute, wcurrent_path. quiet.
  - apply still_well. unfold wfile_size. quiet.
  - unfold wremove. destruct (empty p); [exact I|]. acts; [destruct (_ =? _); exact I|]. cbv zeta. destruct (has_attr _ _).
    + acts; [destruct (negb _); exact I|reflexivity|exact I].
    + acts; [destruct (negb _); exact I|reflexivity|exact I].
  - apply still_well, still_empty.
  - apply still_well, still_read_symlink.
  - apply still_well, still_equivalent.
  - apply still_well, still_count.
  - apply still_well, still_time.
  - unfold hset_last_write_time. apply well_file; [intros; exact I|]. intros h. apply well_lift. intros [q|]; [|exact I]. acts; [apply still_well, still_fail|reflexivity|exact I].
  - unfold hresize_file. apply well_file; [intros; exact I|]. intros h. acts; [apply still_well, still_fail|]. acts; [apply still_well, still_fail|reflexivity|exact I].
  - apply well_permissions.
  - unfold hcopy_symlink. apply well_after; [apply still_read_symlink|]. intros real e. destruct (negb _); [exact I|]. cbv zeta. apply well_after; [apply still_status|]. intros st e2. destruct (negb _); [exact I|].
    destruct (wis _ _); [unfold wcreate_directory_symlink|unfold wcreate_symlink]; (acts; [exact I|destruct a; reflexivity|exact I]).
  - apply well_copy_file.
  - apply still_well, still_status.
  - apply still_well, still_symlink_status.
Qed.
End Ops.

Lemma recorded_sys : forall A c (k : hanswer c -> hprog A) S (h : hkernel S) s l, hrun (recorded h) (HSys c k) (s, l) = let (a, s1) := h c s in hrun (recorded h) (k a) (s1, l ++ [HEv c a]).
Proof. intros. cbn [hrun]. unfold recorded at 1. cbn [fst snd]. destruct (h c s). reflexivity. Qed.
Lemma tidy_run : forall A (p : hprog A) S (h : hkernel S) s l, tidy p -> let r := hrun (recorded h) p (s, l) in
  exists x v, snd (snd r) = l ++ x /\ Forall (fun d => gives_back (call_of d)) x /\ fst r = WE (WRet v 0).
Proof.
  intros A p S h. induction p as [[[a e|c|]| | |]|c k IH]; intros s l H r; unfold r; cbn [tidy] in H; try contradiction.
  - subst e. exists [], a. cbn. rewrite app_nil_r. auto.
  - destruct H as [Hc Hk]. rewrite recorded_sys. destruct (h c s) as [a s1]. destruct (IH a s1 (l ++ [HEv c a]) (Hk a)) as (x & v & H1 & H2 & H3).
    exists (HEv c a :: x), v. rewrite H1, <- app_assoc. repeat split; auto.
Qed.
Lemma well_run : forall A (p : hprog A) S (h : hkernel S) s l, well p -> let r := hrun (recorded h) p (s, l) in
  exists x, snd (snd r) = l ++ x /\ forall a d b, x = a ++ d :: b -> changed_by d -> Forall (fun d => gives_back (call_of d)) b /\ exists v, fst r = WE (WRet v 0).
Proof.
  intros A p S h. induction p as [e|c k IH]; intros s l H r; unfold r.
  - exists []. cbn. rewrite app_nil_r. split; auto. intros [|q a] d b Hx; discriminate.
  - rewrite recorded_sys. destruct (h c s) as [x s1]. destruct (H x) as [H1 H2]. destruct (hchanged_dec c x) as [Hc|Hc].
    + destruct (tidy_run A (k x) S h s1 (l ++ [HEv c x]) (H1 Hc)) as (y & v & E1 & E2 & E3). exists (HEv c x :: y). rewrite E1, <- app_assoc. split; auto.
      intros [|q a] d b Hx Hd; cbn [app] in Hx; injection Hx as Hq Hy.
      * subst. split; eauto.
      * subst y. split; [|eauto]. apply Forall_app in E2 as [_ E2]. inversion E2; auto.
    + destruct (IH x s1 (l ++ [HEv c x]) (H2 Hc)) as (y & E1 & E2). exists (HEv c x :: y). rewrite E1, <- app_assoc. split; auto.
      intros [|q a] d b Hx Hd; cbn [app] in Hx; injection Hx as Hq Hy; [subst d; contradiction|]. eapply E2; eauto.
Qed.

(** * C108 on Windows *)

(** On any system, and however the operation ends: after a call that changed something handles are closed and memory is freed, and the operation succeeds. *)
Theorem C108_windows : forall S (h : hkernel S) dbg E m tps narrow n has o s, wsingle o ->
  let r := hrun (recorded h) (wperform dbg E m tps narrow n has o) (s, []) in
  forall a d b, snd (snd r) = a ++ d :: b -> changed_by d -> Forall (fun x => gives_back (call_of x)) b /\ fst r = WE (WRet tt 0).
Proof.
  intros S h dbg E m tps narrow n has o s Ho r a d b Hd Hc. destruct (well_run _ _ S h s [] (well_perform dbg E m tps narrow n has o Ho)) as (x & Hx & Hl).
  destruct (Hl a d b (eq_trans (eq_sym Hx) Hd) Hc) as [Hb [[] Hv]]. split; auto.
Qed.

(** copy and remove_all make several changes. On a system where the directory C:\d and what is in it can be removed, but not C:\d itself, remove_all fails with things removed. *)
Definition kept_top : hkernel demo_state := fun c =>
  match c with h_Plain (w_RemoveDirectory t) => fun s => (if str_eqb t (lit "C:\d") then inl 5 else inr tt, s) | c => demo_handles c end.
Theorem C108_windows_refuted : let r := hrun (recorded kept_top) (wperform false no_elision Strict 10000000 (fun t => Some t) 20 true (wo_remove_all (wpath (lit "C:\d")))) ((1, []), []) in
  fst r = WE (WRet tt 5) /\ In (HEv (h_Plain (w_DeleteFile (lit "C:\d\e\f"))) (inr tt)) (snd (snd r)) /\ changed_by (HEv (h_Plain (w_DeleteFile (lit "C:\d\e\f"))) (inr tt)).
Proof. cbv zeta. split; [vm_compute; reflexivity|]. split; [|exact I]. vm_compute. tauto. Qed.

(** The directory C:\d\e is removed by the last call. resize_file fails with ERROR_DISK_FULL and has changed nothing. *)
Definition demo_perform (o : woperation) := hrun (recorded demo_handles) (wperform false no_elision Strict 10000000 (fun t => Some t) 20 true o) ((1, []), []).
Example C108_windows_example :
  let gone := demo_perform (wo_remove (wpath (lit "C:\d\e"))) in
  let size := demo_perform (wo_resize_file (wpath (lit "C:\d\e\f")) 7) in
  fst gone = WE (WRet tt 0) /\ map (fun d => match d with HEv (h_Plain (w_RemoveDirectory _)) (inr _) => true | _ => false end) (snd (snd gone)) = [false; true] /\
  fst size = WE (WRet tt 112) /\ length (snd (snd size)) = 4%nat /\ Forall (fun d => ~ changed_by d) (snd (snd size)).
Proof. cbv zeta. repeat split; try (vm_compute; reflexivity). vm_compute. repeat constructor; auto. Qed.

Print Assumptions C108_windows.
Print Assumptions C108_windows_refuted.
