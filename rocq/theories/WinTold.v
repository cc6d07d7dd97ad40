(** C106: what went wrong is told on Windows. *)
From Coq Require Import Ascii String Bool NArith ZArith List Lia.
From Verif Require Import Str PathModel FlagsModel TimeModel WinPermsModel WinAclModel WinStatModel WinOpsModel WinHandleModel WinHandles.
Import ListNotations.
Local Open Scope N_scope.

(** * Specification *)

(** The operations whose failures are followed. *)
Inductive woperation :=
| wo_create_directory (p : path) | wo_create_directory_like (p tmpl : path) | wo_create_symlink (target link : path)
| wo_create_directory_symlink (target link : path) | wo_create_hard_link (target link : path) | wo_set_current_path (p : path)
| wo_rename (from to : path) | wo_current_path | wo_absolute (p : path) | wo_space (p : path) | wo_file_size (p : path)
| wo_remove (p : path) | wo_remove_all (p : path) | wo_is_empty (p : path) | wo_read_symlink (p : path) | wo_equivalent (p q : path)
| wo_hard_link_count (p : path) | wo_last_write_time (p : path) | wo_set_last_write_time (p : path) (t : Z) | wo_resize_file (p : path) (size : N)
| wo_permissions (p : path) (prms opts : N) | wo_copy_symlink (from to : path) | wo_copy_file (from to : path) (options : N)
| wo_copy (from to : path) (options : N) | wo_status (p : path) | wo_symlink_status (p : path).

(** The call of the library, of which only the code is kept; [has] for the overload with an error_code. The throwing forms of status and symlink_status
    are not followed (they tell nothing, [C106_status]). *)
Definition wperform (dbg : bool) (E : elision) (m : signed_mode) (tps : Z) (narrow : str -> option str) (n : nat) (has : bool) (o : woperation) : hprog unit :=
  let code {A} (p : hprog A) := hbind p (fun _ e => hret tt e) in
  match o with
  | wo_create_directory p => code (hplain (wcreate_directory dbg has p))
  | wo_create_directory_like p t => code (hplain (wcreate_directory_like dbg has p t))
  | wo_create_symlink t l => code (hplain (wcreate_symlink dbg has t l))
  | wo_create_directory_symlink t l => code (hplain (wcreate_directory_symlink dbg has t l))
  | wo_create_hard_link t l => code (hplain (wcreate_hard_link dbg has t l))
  | wo_set_current_path p => code (hplain (wset_current_path dbg has p))
  | wo_rename a b => code (hplain (wrename dbg has a b))
  | wo_current_path => code (hplain (wcurrent_path dbg has))
  | wo_absolute p => code (hplain (wabsolute dbg E has p))
  | wo_space p => code (hplain (wspace dbg E has p))
  | wo_file_size p => code (hplain (wfile_size dbg has p))
  | wo_remove p => code (hplain (wremove dbg has p))
  | wo_remove_all p => code (hremove_all dbg E narrow n has p)
  | wo_is_empty p => code (his_empty dbg E narrow n has p)
  | wo_read_symlink p => code (hread_symlink dbg has p)
  | wo_equivalent p q => code (hequivalent dbg has p q)
  | wo_hard_link_count p => code (hhard_link_count dbg has p)
  | wo_last_write_time p => code (hlast_write_time dbg m tps has p)
  | wo_set_last_write_time p t => code (hset_last_write_time dbg m tps has p t)
  | wo_resize_file p size => code (hresize_file dbg has p size)
  | wo_permissions p prms opts => code (hpermissions dbg has p prms opts)
  | wo_copy_symlink a b => code (hcopy_symlink dbg has a b)
  | wo_copy_file a b opts => code (hcopy_file dbg m tps has a b opts)
  | wo_copy a b opts => code (hcopy dbg E m tps narrow n has a b opts)
  | wo_status p => code (hstatus dbg true p)
  | wo_symlink_status p => code (hsymlink_status dbg true p)
  end.

(** The reason a call gave for failing, unless it gave none: GetLastError, or the code returned by the functions that return one. Of
    GetEffectiveRightsFromAcl the library looks at GetLastError except for ERROR_INVALID_ACL. FindClose is listed since the library asks GetLastError after it. *)
Definition reason (e : N) : option N := if e =? 0 then None else Some e.
Definition failed {A} (r : N + A) : option N := match r with inl e => reason e | inr _ => None end.
Definition wfailed (c : wcall) : wanswer c -> option N :=
  match c with
  | w_Info _ | w_Find _ | w_TempPath => fun _ => None
  | w_FileInfo _ | w_AttributesEx _ | w_Attributes _ | w_Reparse _ | w_WriteTime _ | w_CurrentDirectory | w_DiskFreeSpace _
  | w_RemoveDirectory _ | w_DeleteFile _ | w_CreateDirectory _ | w_CreateDirectoryEx _ _ | w_CopyFile _ _ _ | w_CreateSymbolicLink _ _ _
  | w_CreateHardLink _ _ | w_SetWriteTime _ _ | w_SetCurrentDirectory _ | w_Rename _ _ | w_OpenExclusive _ | w_SetEnd _ _ => failed
  end.
Definition hfailed (c : hcall) : hanswer c -> option N :=
  match c with
  | h_CloseHandle _ | h_LocalFree _ | h_EqualSid _ | h_GetFileType _ => fun _ => None
  | h_CreateFile _ _ _ _ | h_Information _ | h_AttributeTag _ | h_DeviceIoControl _ | h_GetFileTime _ | h_SetFileTime _ _ | h_SetFilePointer _ _
  | h_SetEndOfFile _ | h_FindFirst _ | h_FindNext _ | h_NamedSecurity _ | h_LocalAlloc | h_SetEntries _ _ _ | h_SetNamedSecurity _ _ => failed
  | h_FindClose _ => reason
  | h_EffectiveRights _ _ => fun r : (N * N) + N =>
      match r with inl (ret, last) => if ret =? ERROR_INVALID_ACL then Some errc_permission_denied else reason last | inr _ => None end
  | h_Plain c => wfailed c
  end.
Definition refused (d : hevent) : option N := match d with HEv c r => hfailed c r end.
Definition call_of (d : hevent) : hcall := match d with HEv c _ => c end.

(** The calls that give back what was acquired. *)
Definition gives_back (c : hcall) : Prop := match c with h_CloseHandle _ | h_FindClose _ | h_LocalFree _ => True | _ => False end.

(** There is no such file, or someone else has it open (src/windows/stat.cpp:68-77, 157). *)
Definition not_there (e : N) : Prop := In e [2; 3; 15; 21; 53; 87; 123; 161].
Definition not_there_or_shared (e : N) : Prop := not_there e \/ e = 32.

(** The failures an operation may overlook. *)
Definition overlooks (o : woperation) (c : hcall) (e : N) : Prop :=
  match o, c with
  | (wo_create_directory _ | wo_create_directory_like _ _), (h_Plain (w_CreateDirectory _) | h_Plain (w_CreateDirectoryEx _ _)) => e = 183
  | wo_remove _, _ => e = 2
  | (wo_status _ | wo_symlink_status _ | wo_permissions _ _ _ | wo_copy_symlink _ _), h_EffectiveRights _ _ => not_there_or_shared e
  | wo_is_empty _, h_FindFirst _ => e = 18
  | wo_is_empty _, (h_FindNext _ | h_FindClose _) => True
  | wo_remove_all _, (h_FindNext _ | h_FindClose _) => True
  | wo_remove_all _, h_FindFirst _ => e = 18 \/ e = 2
  | wo_remove_all _, h_EffectiveRights _ _ => not_there_or_shared e
  | wo_remove_all _, _ => e = 2
  | wo_copy_file _ b _, (h_Plain (w_Attributes t) | h_NamedSecurity t) => t = native b /\ not_there_or_shared e
  | wo_copy_file _ _ _, (h_AttributeTag _ | h_EffectiveRights _ _) => not_there_or_shared e
  | wo_copy_file _ _ _, h_CreateFile _ access _ _ => access = 0
  | wo_copy_file _ _ _, h_Information _ => True
  | wo_copy _ _ _, (h_Plain (w_Attributes _) | h_NamedSecurity _ | h_AttributeTag _ | h_EffectiveRights _ _) => not_there_or_shared e
  | wo_copy _ _ _, h_CreateFile _ access _ _ => access = 0 \/ access = FILE_READ_EA
  | wo_copy _ _ _, (h_Information _ | h_DeviceIoControl _ | h_FindNext _ | h_FindClose _) => True
  | wo_copy _ _ _, h_FindFirst _ => e = 18
  | wo_copy _ _ _, h_Plain (w_CreateDirectoryEx _ _) => e = 183
  | _, _ => False
  end.

(** The code given for a reason. *)
Definition told_as (e code : N) : Prop := code = e \/ (e = ERROR_ACCESS_DENIED /\ code = errc_permission_denied).

(** The codes the library gives without having them from Windows. *)
Definition own_wcode (o : woperation) (e : N) : Prop :=
  match o with
  | wo_file_size _ => e = errc_is_a_directory
  | wo_equivalent _ _ => e = errc_not_supported
  | wo_set_last_write_time _ _ => e = errc_invalid_argument
  | wo_copy_file _ _ _ => In e [errc_not_supported; errc_invalid_argument; errc_file_exists]
  | wo_copy _ _ _ => In e [errc_not_supported; errc_invalid_argument; errc_file_exists; errc_function_not_supported; errc_is_a_directory]
  | _ => False
  end.

(** All failures in [l] may be overlooked. *)
Definition overlooked (P : hcall -> N -> Prop) (l : list hevent) : Prop :=
  Forall (fun d => forall e, refused d = Some e -> P (call_of d) e) l.
(** [code] is the reason of the first failure that is not overlooked, after which things are only given back. *)
Definition first_failure (P : hcall -> N -> Prop) (D : hcall -> N -> N -> Prop) (l : list hevent) (code : N) : Prop :=
  exists a d b e, l = a ++ d :: b /\ overlooked P a /\ refused d = Some e /\ D (call_of d) e code /\ Forall (fun x => gives_back (call_of x)) b /\ overlooked P b.
Definition accounts (P : hcall -> N -> Prop) (D : hcall -> N -> N -> Prop) (own : N -> Prop) (l : list hevent) (code : N) : Prop :=
  (code = 0 /\ overlooked P l) \/ (code <> 0 /\ (first_failure P D l code \/ (own code /\ overlooked P l))).

(** * Proof *)

(** What holds when [p] returns, and when it throws a filesystem_error. *)
Fixpoint htraced {A} (l : list hevent) (p : hprog A) (Q : A -> N -> list hevent -> Prop) (R : N -> list hevent -> Prop) : Prop :=
  match p with
  | HEnd (WE (WRet a e)) => Q a e l
  | HEnd (WE (WThrow c)) => R c l
  | HEnd _ => True
  | HSys c k => forall r, htraced (l ++ [HEv c r]) (k r) Q R
  end.

Lemma htraced_run : forall A (p : hprog A) l Q R S (h : hkernel S) s, htraced l p Q R ->
  let '(r, (_, l')) := hrun (recorded h) p (s, l) in
  match r with WE (WRet a e) => Q a e l' | WE (WThrow c) => R c l' | _ => True end.
Proof.
  intros A p. induction p as [r|c k IH]; intros l Q R S h s H; cbn [hrun].
  - destruct r as [[a e|c|]| | |]; exact H.
  - unfold recorded at 1. cbn [fst snd]. destruct (h c s) as [r s1]. apply IH. apply H.
Qed.
Lemma htraced_mono : forall A (p : hprog A) l (Q Q' : A -> N -> list hevent -> Prop) (R R' : N -> list hevent -> Prop),
  htraced l p Q R -> (forall a e l, Q a e l -> Q' a e l) -> (forall c l, R c l -> R' c l) -> htraced l p Q' R'.
Proof.
  intros A p. induction p as [r|c k IH]; intros l Q Q' R R' H H1 H2; cbn in *; [destruct r as [[a e|c|]| | |]; auto|]. intros r. eapply IH; eauto.
Qed.
Lemma htraced_bind : forall A B (p : hprog A) (f : A -> N -> hprog B) l Q1 Q R,
  htraced l p Q1 R -> (forall a e l', Q1 a e l' -> htraced l' (f a e) Q R) -> htraced l (hbind p f) Q R.
Proof.
  intros A B p f. induction p as [r|c k IH]; intros l Q1 Q R H H1; cbn in *; [destruct r as [[a e|c|]| | |]; cbn; auto|]. intros r. eapply IH; eauto.
Qed.
Lemma htraced_scope : forall A c (p : hprog A) l (Q : A -> N -> list hevent -> Prop) (R : N -> list hevent -> Prop),
  htraced l p (fun a e l' => forall r, Q a e (l' ++ [HEv c r])) (fun x l' => forall r, R x (l' ++ [HEv c r])) -> htraced l (hscope c p) Q R.
Proof.
  intros A c p. induction p as [r|c2 k IH]; intros l Q R H; cbn in *; [destruct r as [[a e|c2|]| | |]; cbn in *; auto|]. intros r. apply IH. apply H.
Qed.
Lemma htraced_calls : forall A cs (r : wend A) l (Q : A -> N -> list hevent -> Prop) (R : N -> list hevent -> Prop),
  (forall a e l c x, In c cs -> Q a e l -> Q a e (l ++ [HEv c x])) -> (forall y l c x, In c cs -> R y l -> R y (l ++ [HEv c x])) ->
  htraced l (HEnd r) Q R -> htraced l (hcalls cs r) Q R.
Proof.
  induction cs as [|c cs IH]; intros r l Q R H1 H2 H; [exact H|]. cbn [hcalls htraced]. intros x. apply IH.
  - intros. apply H1; [right|]; assumption.
  - intros. apply H2; [right|]; assumption.
  - destruct r as [[a e|c2|]| | |]; cbn in *; auto.
Qed.
Lemma htraced_unwind : forall A cs (p : hprog A) l (Q : A -> N -> list hevent -> Prop) (R : N -> list hevent -> Prop),
  (forall y l c x, In c cs -> R y l -> R y (l ++ [HEv c x])) -> htraced l p Q R -> htraced l (hunwind cs p) Q R.
Proof.
  intros A cs p. induction p as [r|c2 k IH]; intros l Q R H H1; cbn -[throws] in *; [|intros r; apply IH; auto].
  destruct (throws r) eqn:Et; [|exact H1]. destruct r as [[a e|c2|]| | |]; cbn in Et; try discriminate.
  - induction cs as [|c cs IH] in l, H, H1 |- *; [exact H1|]. cbn [hcalls htraced]. intros x. apply IH; [intros; apply H; [right|]; assumption|]. apply H; [left; reflexivity|exact H1].
  - clear H H1. revert l. induction cs as [|c cs IH]; intros l; [exact Logic.I|]. cbn [hcalls htraced]. intros x. apply IH.
Qed.
Lemma htraced_lift : forall A B (x : out A) (f : A -> hprog B) l Q R, (forall a, x = Ok a -> htraced l (f a) Q R) -> htraced l (hlift x f) Q R.
Proof. intros A B x f l Q R H. destruct x; cbn; auto. Qed.

Lemma overlooked_snoc : forall P l d, overlooked P l -> (forall e, refused d = Some e -> P (call_of d) e) -> overlooked P (l ++ [d]).
Proof. intros P l d H H1. apply Forall_app. split; [exact H|]. constructor; [exact H1|constructor]. Qed.
Lemma overlooked_more : forall (P P' : hcall -> N -> Prop) l, (forall c e, P c e -> P' c e) -> overlooked P l -> overlooked P' l.
Proof. intros P P' l H. apply Forall_impl. intros d H1 e He. auto. Qed.

(** A call that gives something back, and what it answers may be overlooked. *)
Definition harmless (P : hcall -> N -> Prop) (c : hcall) : Prop := gives_back c /\ forall r e, refused (HEv c r) = Some e -> P c e.
Lemma harmless_close : forall P h, harmless P (h_CloseHandle h).
Proof. split; [exact Logic.I|]. discriminate. Qed.
Lemma harmless_free : forall P h, harmless P (h_LocalFree h).
Proof. split; [exact Logic.I|]. discriminate. Qed.

Section Account.
Variables (P : hcall -> N -> Prop) (D : hcall -> N -> N -> Prop) (own : N -> Prop).
Notation acc := (accounts P D own).

Lemma accounts_more : forall l code c r, acc l code -> harmless P c -> acc (l ++ [HEv c r]) code.
Proof.
  intros l code c r H [Hg Hp]. assert (Hs : forall l, overlooked P l -> overlooked P (l ++ [HEv c r])) by (intros; apply overlooked_snoc; auto; apply Hp).
  destruct H as [[H1 H2]|[H1 [(a & d & b & e & -> & H3 & H4 & H5 & H6 & H7)|[H2 H3]]]]; [left; auto|right|right; auto].
  split; [exact H1|]. left. exists a, d, (b ++ [HEv c r]), e. split; [rewrite <- app_assoc; reflexivity|]. split; [exact H3|]. split; [exact H4|]. split; [exact H5|].
  split; [|apply Hs; exact H7]. apply Forall_app. split; [exact H6|]. constructor; [exact Hg|constructor].
Qed.
Lemma accounts_zero : forall l, overlooked P l <-> acc l 0.
Proof. intros l. split; [left; auto|]. intros [[_ H]|[H _]]; [exact H|contradiction H; reflexivity]. Qed.
Lemma accounts_failed : forall l c r e code, overlooked P l -> refused (HEv c r) = reason e -> (e <> 0 -> code <> 0 /\ D c e code) -> (e = 0 -> code = 0) -> acc (l ++ [HEv c r]) code.
Proof.
  intros l c r e code Hl Hr Hd Hz. unfold reason in Hr. destruct (e =? 0) eqn:E0.
  - apply N.eqb_eq in E0. rewrite (Hz E0). left. split; [reflexivity|]. apply overlooked_snoc; [exact Hl|]. intros x. rewrite Hr. discriminate.
  - apply N.eqb_neq in E0. destruct (Hd E0) as [H1 H2]. right. split; [exact H1|]. left. exists l, (HEv c r), [], e. repeat split; auto; constructor.
Qed.
Lemma accounts_own : forall l e, overlooked P l -> own e -> acc l e.
Proof. intros l e Hl He. destruct (N.eq_dec e 0) as [->|]; [left|right]; auto. Qed.

(** How an operation ends; [has] as its argument. *)
Definition good {A} (has : bool) (Q : A -> N -> Prop) (a : A) (e : N) (l : list hevent) : Prop := acc l e /\ (has = false -> e = 0) /\ Q a e.
Definition bad (has : bool) (e : N) (l : list hevent) : Prop := has = false /\ acc l e.
Definition sound {A} (has : bool) (Q : A -> N -> Prop) (p : hprog A) : Prop := forall l, overlooked P l -> htraced l p (good has Q) (bad has).

Lemma good_more : forall A has Q (a : A) e l c r, harmless P c -> good has Q a e l -> good has Q a e (l ++ [HEv c r]).
Proof. intros A has Q a e l c r Hc (H1 & H2 & H3). split; [apply accounts_more; auto|auto]. Qed.
Lemma bad_more : forall has e l c r, harmless P c -> bad has e l -> bad has e (l ++ [HEv c r]).
Proof. intros has e l c r Hc (H1 & H2). split; [auto|apply accounts_more; auto]. Qed.

Lemma told_bad : forall A has (Q : A -> N -> Prop) v e l, acc l e -> Q v e -> htraced l (hbad has v e) (good has Q) (bad has).
Proof. intros A has Q v e l H HQ. unfold hbad, wreport. destruct has; cbn; split; auto. split; [discriminate|exact HQ]. Qed.
Lemma told_ret : forall A has (Q : A -> N -> Prop) v l, overlooked P l -> Q v 0 -> htraced l (hret v 0) (good has Q) (bad has).
Proof. intros A has Q v l H HQ. cbn. split; [apply accounts_zero; exact H|auto]. Qed.
Lemma told_capture : forall A dbg last (k : N -> hprog A) l Q R, htraced l (k last) Q R -> htraced l (hcapture dbg last k) Q R.
Proof. intros. unfold hcapture. destruct (dbg && (last =? 0)); [exact Logic.I|assumption]. Qed.
Lemma told_fail : forall A dbg has (Q : A -> N -> Prop) v c r last l, overlooked P l -> refused (HEv c r) = reason last -> (last <> 0 -> D c last last) -> Q v last ->
  htraced (l ++ [HEv c r]) (hfail dbg has v last) (good has Q) (bad has).
Proof. intros. unfold hfail. apply told_capture. apply told_bad; [|assumption]. eapply accounts_failed; eauto. Qed.

Lemma quiet_snoc : forall l c r, overlooked P l -> refused (HEv c r) = None -> overlooked P (l ++ [HEv c r]).
Proof. intros l c r H H1. apply overlooked_snoc; [exact H|]. intros e. rewrite H1. discriminate. Qed.

Lemma told_file : forall A dbg p access share flags (onfail : N -> hprog A) body l (Q : A -> N -> list hevent -> Prop) (R : N -> list hevent -> Prop),
  overlooked P l -> (forall e, e <> 0 -> D (h_CreateFile (native p) access share flags) e e) ->
  (forall e l, e <> 0 -> acc l e -> htraced l (onfail e) Q R) -> (forall h l, overlooked P l -> htraced l (body h) Q R) ->
  (forall a e l c r, harmless P c -> Q a e l -> Q a e (l ++ [HEv c r])) -> (forall e l c r, harmless P c -> R e l -> R e (l ++ [HEv c r])) ->
  htraced l (with_file dbg p access share flags onfail body) Q R.
Proof.
  intros A dbg p access share flags onfail body l Q R Hl HD Hf Hb HQ HR. unfold with_file. cbn [htraced]. intros [last|h].
  - apply told_capture. destruct (last =? 0) eqn:E0.
    + apply Hb. apply N.eqb_eq in E0. subst. apply quiet_snoc; [exact Hl|reflexivity].
    + apply N.eqb_neq in E0. apply Hf; [exact E0|]. eapply accounts_failed; [exact Hl|reflexivity| |]; auto.
  - apply htraced_scope. eapply htraced_mono; [apply Hb; apply quiet_snoc; [exact Hl|reflexivity]| |]; cbn beta; intros; [apply HQ|apply HR]; auto; apply harmless_close.
Qed.
Lemma sound_file : forall A dbg has (Q : A -> N -> Prop) p access share flags v body,
  (forall e, e <> 0 -> D (h_CreateFile (native p) access share flags) e e) -> (forall e, e <> 0 -> Q v e) -> (forall h, sound has Q (body h)) ->
  sound has Q (with_file dbg p access share flags (hbad has v) body).
Proof.
  intros A dbg has Q p access share flags v body HD HQ Hb l Hl. apply told_file; auto.
  - intros. apply told_bad; auto.
  - intros. apply good_more; auto.
  - intros. apply bad_more; auto.
Qed.
Lemma sound_scope : forall A has (Q : A -> N -> Prop) c p, harmless P c -> sound has Q p -> sound has Q (hscope c p).
Proof.
  intros A has Q c p Hc H l Hl. apply htraced_scope. eapply htraced_mono; [apply H; exact Hl| |]; cbn beta; intros; [apply good_more|apply bad_more]; auto.
Qed.
Lemma sound_bind : forall A B h1 has (Q1 : A -> N -> Prop) (Q : B -> N -> Prop) p f, (h1 = false -> has = false) -> sound h1 Q1 p ->
  (forall a, Q1 a 0 -> sound has Q (f a 0)) -> (forall a e l, e <> 0 -> (h1 = false -> e = 0) -> Q1 a e -> acc l e -> htraced l (f a e) (good has Q) (bad has)) -> sound has Q (hbind p f).
Proof.
  intros A B h1 has Q1 Q p f Hh Hp H1 H2 l Hl. eapply htraced_bind.
  - eapply htraced_mono; [apply Hp; exact Hl|intros a e l' H; exact H|]. intros c l' [H3 H4]. split; auto.
  - intros a e l' (H3 & H4 & H5). destruct (N.eq_dec e 0) as [->|Hn]; [|apply H2; auto]. apply H1; [exact H5|]. apply accounts_zero. exact H3.
Qed.
Lemma sound_lift : forall A B has (Q : B -> N -> Prop) (x : out A) f, (forall a, x = Ok a -> sound has Q (f a)) -> sound has Q (hlift x f).
Proof. intros A B has Q x f H l Hl. apply htraced_lift. intros a Ha. apply H; auto. Qed.
Lemma sound_ret : forall A has (Q : A -> N -> Prop) v, Q v 0 -> sound has Q (hret v 0).
Proof. intros A has Q v H l Hl. apply told_ret; auto. Qed.
Lemma sound_own : forall A has (Q : A -> N -> Prop) v e, own e -> Q v e -> sound has Q (hbad has v e).
Proof. intros A has Q v e H HQ l Hl. apply told_bad; auto. apply accounts_own; auto. Qed.
Lemma sound_sys : forall A has (Q : A -> N -> Prop) c k,
  (forall r, refused (HEv c r) = None -> sound has Q (k r)) ->
  (forall r e l, overlooked P l -> refused (HEv c r) = Some e -> htraced (l ++ [HEv c r]) (k r) (good has Q) (bad has)) -> sound has Q (HSys c k).
Proof.
  intros A has Q c k H1 H2 l Hl. cbn [htraced]. intros r. destruct (refused (HEv c r)) as [e|] eqn:Er; [eapply H2; eauto|]. apply H1; [exact Er|]. apply quiet_snoc; auto.
Qed.
Lemma sound_if : forall A has (Q : A -> N -> Prop) (b : bool) x y, sound has Q x -> sound has Q y -> sound has Q (if b then x else y).
Proof. intros. destruct b; auto. Qed.
Lemma sound_weaken : forall A has (Q Q' : A -> N -> Prop) p, sound has Q p -> (forall a e, Q a e -> Q' a e) -> sound has Q' p.
Proof. intros A has Q Q' p H HQ l Hl. eapply htraced_mono; [apply H; exact Hl| |auto]. intros a e l' (H1 & H2 & H3). split; auto. Qed.
End Account.

Lemma first_more : forall (P P' : hcall -> N -> Prop) (D D' : hcall -> N -> N -> Prop) l e, (forall c x, P c x -> P' c x) -> (forall c x y, D c x y -> D' c x y) -> first_failure P D l e -> first_failure P' D' l e.
Proof.
  intros P P' D D' l e HP HD (a & d & b & x & H1 & H2 & H3 & H4 & H5 & H6). exists a, d, b, x. split; [exact H1|]. split; [eapply overlooked_more; eauto|]. repeat (split; [auto|]). eapply overlooked_more; eauto.
Qed.
Lemma accounts_weaken : forall (P P' : hcall -> N -> Prop) (D D' : hcall -> N -> N -> Prop) (own own' : N -> Prop) l e,
  (forall c x, P c x -> P' c x) -> (forall c x y, D c x y -> D' c x y) -> (forall x, own x -> own' x) -> accounts P D own l e -> accounts P' D' own' l e.
Proof.
  intros P P' D D' own own' l e HP HD Ho [[H1 H2]|[H1 [H2|[H2 H3]]]]; [left|right|right]; split; auto; [eapply overlooked_more; eauto|left; eapply first_more; eauto|right; split; auto; eapply overlooked_more; eauto].
Qed.
Lemma accounts_ignored : forall (P : hcall -> N -> Prop) (D : hcall -> N -> N -> Prop) (own : N -> Prop) l e, accounts P D own l e -> (e <> 0 -> forall c x, D c x e -> P c x) -> overlooked P l.
Proof.
  intros P D own l e [[H1 H2]|[H1 [(a & d & b & x & -> & H3 & H4 & H5 & H6 & H7)|[H2 H3]]]] H; auto. apply Forall_app. split; [exact H3|]. constructor; [|exact H7].
  intros y Hy. rewrite H4 in Hy. injection Hy as <-. apply H; auto.
Qed.
Lemma not_found_spec : forall e, IsNotFoundError e = true <-> not_there e.
Proof.
  intros e. unfold IsNotFoundError, not_there, ERROR_FILE_NOT_FOUND, ERROR_PATH_NOT_FOUND, ERROR_INVALID_NAME, ERROR_INVALID_DRIVE, ERROR_NOT_READY, ERROR_INVALID_PARAMETER, ERROR_BAD_PATHNAME, ERROR_BAD_NETPATH.
  rewrite !orb_true_iff, !N.eqb_eq. cbn. intuition congruence.
Qed.

(** * The operations *)

Definition any {A} : A -> N -> Prop := fun _ _ => True.

Section Operations.
Variables (dbg : bool) (E : elision) (m : signed_mode) (tps : Z) (narrow : str -> option str).
Variables (P : hcall -> N -> Prop) (D : hcall -> N -> N -> Prop) (own : N -> Prop).
Notation sound := (sound P D own).

Lemma told_wfail : forall A has (Q : A -> N -> Prop) v c r last l, overlooked P l -> refused (HEv c r) = reason last -> (last <> 0 -> D c last last) -> Q v last ->
  htraced (l ++ [HEv c r]) (HEnd (WE (wcapture dbg last (wreport has v)))) (good P D own has Q) (bad P D own has).
Proof.
  intros A has Q v c r last l Hl Hr HD HQ. unfold wcapture. destruct (dbg && (last =? 0)); [exact Logic.I|]. apply told_bad; [|exact HQ]. eapply accounts_failed; eauto.
Qed.

(** An answer that is a failure or a value. *)
Lemma sound_call : forall A B has (Q : A -> N -> Prop) c (to : hanswer c -> N + B) k, (forall r, refused (HEv c r) = failed (to r)) ->
  (forall r b, to r = inr b -> sound has Q (k r)) ->
  (forall r last l, overlooked P l -> to r = inl last -> refused (HEv c r) = reason last -> htraced (l ++ [HEv c r]) (k r) (good P D own has Q) (bad P D own has)) -> sound has Q (HSys c k).
Proof.
  intros A B has Q c to k Hr H1 H2 l Hl. cbn [htraced]. intros r. destruct (to r) as [last|b] eqn:Et.
  - eapply H2; eauto. rewrite Hr, Et. reflexivity.
  - eapply H1; [exact Et|]. apply quiet_snoc; [exact Hl|]. rewrite Hr, Et. reflexivity.
Qed.

Section Told.
Hypothesis HD : forall c e, D c e e.

Ltac fail_step := first [apply told_fail|apply told_wfail]; [assumption|assumption|intros; apply HD|exact Logic.I].
Ltac call_with t1 t2 := match goal with |- WinTold.sound _ _ _ _ _ (HSys ?c _) => let T := eval cbn in (hanswer c) in match T with sum N ?B =>
    eapply (sound_call _ B _ _ c (fun r => r)); [intros ?; reflexivity|let r := fresh "r" in let b := fresh "b" in let Hr := fresh "Hr" in intros r b Hr; cbn beta in Hr; subst r; t1|intros r last l Hl Hr Hf; cbn beta in Hr; subst r; t2] end end.
Ltac call_step := call_with idtac ltac:(try fail_step).

Lemma sound_read_symlink : forall has p, sound has any (hread_symlink dbg has p).
Proof.
  intros has p. unfold hread_symlink. apply sound_file; [intros; apply HD|intros; exact Logic.I|]. intros h. call_step. apply sound_ret; exact Logic.I.
Qed.
Lemma sound_hard_link_count : forall has p, sound has any (hhard_link_count dbg has p).
Proof.
  intros has p. unfold hhard_link_count. apply sound_file; [intros; apply HD|intros; exact Logic.I|]. intros h. call_step. destruct b. apply sound_ret; exact Logic.I.
Qed.
Lemma sound_last_write_time : forall has p, sound has any (hlast_write_time dbg m tps has p).
Proof.
  intros has p. unfold hlast_write_time. apply sound_file; [intros; apply HD|intros; exact Logic.I|]. intros h. call_step. apply sound_lift. intros. apply sound_ret; exact Logic.I.
Qed.
Lemma sound_set_last_write_time : forall has p t, own errc_invalid_argument -> sound has any (hset_last_write_time dbg m tps has p t).
Proof.
  intros has p t Ho. unfold hset_last_write_time. apply sound_file; [intros; apply HD|intros; exact Logic.I|]. intros h. apply sound_lift. intros [q|] _; [|apply sound_own; [exact Ho|exact Logic.I]].
  call_step. apply sound_ret; exact Logic.I.
Qed.
Lemma sound_resize_file : forall has p size, sound has any (hresize_file dbg has p size).
Proof.
  intros has p size. unfold hresize_file. apply sound_file; [intros; apply HD|intros; exact Logic.I|]. intros h. call_step. call_step. apply sound_ret; exact Logic.I.
Qed.

Ltac plain_step := cbn [hplain]; call_step; cbn [hplain].
Lemma sound_simple : forall has c (k : hanswer (h_Plain c) -> hprog unit), (forall r, exists x : N + unit, hfailed (h_Plain c) r = failed x /\ k r = hplain (wsimple dbg has x)) -> sound has any (HSys (h_Plain c) k).
Proof.
  intros has c k H l Hl. cbn [htraced]. intros r. destruct (H r) as ([last|u] & H1 & H2); rewrite H2; cbn [hplain wsimple wfail wret].
  - apply told_wfail; [exact Hl|exact H1|intros; apply HD|exact Logic.I].
  - apply told_ret; [|exact Logic.I]. apply quiet_snoc; [exact Hl|exact H1].
Qed.
Lemma sound_create_symlink : forall has a b, sound has any (hplain (wcreate_symlink dbg has a b)).
Proof. intros. apply sound_simple. intros r. exists r. split; reflexivity. Qed.
Lemma sound_create_directory_symlink : forall has a b, sound has any (hplain (wcreate_directory_symlink dbg has a b)).
Proof. intros. apply sound_simple. intros r. exists r. split; reflexivity. Qed.
Lemma sound_create_hard_link : forall has a b, sound has any (hplain (wcreate_hard_link dbg has a b)).
Proof. intros. apply sound_simple. intros r. exists r. split; reflexivity. Qed.
Lemma sound_set_current_path : forall has a, sound has any (hplain (wset_current_path dbg has a)).
Proof. intros. apply sound_simple. intros r. exists r. split; reflexivity. Qed.
Lemma sound_rename : forall has a b, sound has any (hplain (wrename dbg has a b)).
Proof. intros. apply sound_simple. intros r. exists r. split; reflexivity. Qed.
Lemma sound_current_path : forall has, sound has any (hplain (wcurrent_path dbg has)).
Proof. intros has. unfold wcurrent_path. plain_step. apply sound_ret; exact Logic.I. Qed.
Lemma sound_file_size : forall has p, own errc_is_a_directory -> sound has any (hplain (wfile_size dbg has p)).
Proof.
  intros has p Ho. unfold wfile_size. plain_step. destruct b as [attrs size]. destruct (has_attr attrs FILE_ATTRIBUTE_DIRECTORY); [apply sound_own; [exact Ho|exact Logic.I]|apply sound_ret; exact Logic.I].
Qed.
Lemma hplain_bind : forall A B (p : wprog A) (f : A -> N -> wprog B) l Q R, htraced l (hbind (hplain p) (fun a e => hplain (f a e))) Q R -> htraced l (hplain (wbind p f)) Q R.
Proof.
  intros A B p f. induction p as [r|c k IH]; intros l Q R H; cbn in *; [destruct r as [[a e|c|]| | |]; exact H|]. intros r. apply IH. apply H.
Qed.
Lemma hplain_lift : forall A B (x : out A) (f : A -> wprog B), hplain (wlift x f) = hlift x (fun a => hplain (f a)).
Proof. intros. destruct x; reflexivity. Qed.
Lemma sound_absolute : forall has p, sound has any (hplain (wabsolute dbg E has p)).
Proof.
  intros has p. unfold wabsolute. destruct (is_absolute Windows E p && has_root_name p); [apply sound_ret; exact Logic.I|]. intros l Hl. apply hplain_bind. revert l Hl.
  eapply (sound_bind _ _ _ _ _ has); [auto|apply sound_current_path| |].
  - intros c _. cbn [N.eqb]. rewrite hplain_lift. apply sound_lift. intros. apply sound_ret; exact Logic.I.
  - intros c e l He Hh _ H. apply N.eqb_neq in He as He2. rewrite He2. cbn. split; [exact H|]. split; [exact Hh|exact Logic.I].
Qed.
Lemma sound_space : forall has p l, overlooked P l ->
  htraced l (hplain (wspace dbg E has p)) (good P D own has any) (fun e l' => accounts P D own l' e /\ (has = false \/ match last l' (HEv (h_CloseHandle 0) tt) with HEv (h_Plain w_CurrentDirectory) _ => True | _ => False end)).
Proof.
  intros has p l Hl. unfold wspace. apply hplain_bind. 
  eapply (htraced_bind _ _ _ _ _ (fun _ _ l' => overlooked P l')).
  - unfold wabsolute. destruct (is_absolute Windows E p && has_root_name p); [exact Hl|]. apply hplain_bind. unfold wcurrent_path. cbn [hplain hbind htraced]. intros [last|t].
    + cbn [hplain wfail wcapture]. unfold wcapture. destruct (dbg && (last =? 0)); [exact Logic.I|]. cbn. split.
      * eapply accounts_failed; [exact Hl|reflexivity|intros; split; [assumption|apply HD]|auto].
      * right. rewrite last_last. exact Logic.I.
    + cbn. rewrite hplain_lift. apply htraced_lift. intros q _. cbn. apply quiet_snoc; [exact Hl|reflexivity].
  - intros q e l' H. rewrite hplain_lift. apply htraced_lift. intros dir _. cbn [hplain htraced]. intros r. eapply htraced_mono.
    + instantiate (1 := bad P D own has). instantiate (1 := good P D own has any). destruct r as [last|[[a b] c]]; [apply told_wfail; [exact H|reflexivity|intros; apply HD|exact Logic.I]|apply told_ret; [apply quiet_snoc; [exact H|reflexivity]|exact Logic.I]].
    + auto.
    + intros c l2 [H1 H2]. auto.
Qed.
Lemma told_plain_fail : forall A has (Q : A -> N -> Prop) v c r last l, overlooked P l -> refused (HEv c r) = reason last -> Q v last ->
  htraced (l ++ [HEv c r]) (hplain (wfail dbg has v last)) (good P D own has Q) (bad P D own has).
Proof. intros. cbn [hplain wfail]. apply told_wfail; auto. Qed.
Lemma sound_create_directory : forall has p, (forall t, P (h_Plain (w_CreateDirectory t)) ERROR_ALREADY_EXISTS) -> sound has any (hplain (wcreate_directory dbg has p)).
Proof.
  intros has p HP l Hl. unfold wcreate_directory. cbn [hplain htraced]. intros [last|u]; [|apply told_ret; [apply quiet_snoc; [exact Hl|reflexivity]|exact Logic.I]].
  destruct (last =? ERROR_ALREADY_EXISTS) eqn:Ee; cbn [negb]; [|apply told_plain_fail; [exact Hl|reflexivity|exact Logic.I]]. apply N.eqb_eq in Ee. subst last.
  apply told_ret; [|exact Logic.I]. apply overlooked_snoc; [exact Hl|]. intros e He. injection He as <-. apply HP.
Qed.
Lemma sound_create_directory_like : forall has p t, (forall t u, P (h_Plain (w_CreateDirectoryEx t u)) ERROR_ALREADY_EXISTS) -> sound has any (hplain (wcreate_directory_like dbg has p t)).
Proof.
  intros has p t HP l Hl. unfold wcreate_directory_like. cbn [hplain htraced]. intros [last|u]; [|apply told_ret; [apply quiet_snoc; [exact Hl|reflexivity]|exact Logic.I]].
  destruct (last =? ERROR_ALREADY_EXISTS) eqn:Ee; cbn [negb]; [|apply told_plain_fail; [exact Hl|reflexivity|exact Logic.I]]. apply N.eqb_eq in Ee. subst last.
  apply told_ret; [|exact Logic.I]. apply overlooked_snoc; [exact Hl|]. intros e He. injection He as <-. apply HP.
Qed.
Lemma sound_remove : forall has p, (forall t, P (h_Plain (w_Attributes t)) 2 /\ P (h_Plain (w_RemoveDirectory t)) 2 /\ P (h_Plain (w_DeleteFile t)) 2) -> sound has any (hplain (wremove dbg has p)).
Proof.
  intros has p HP l Hl. unfold wremove. destruct (empty p); [apply told_ret; [exact Hl|exact Logic.I]|]. cbn [hplain htraced]. intros [last|attrs].
  - destruct (last =? ERROR_FILE_NOT_FOUND) eqn:Ee; [|apply told_plain_fail; [exact Hl|reflexivity|exact Logic.I]]. apply N.eqb_eq in Ee. subst last.
    apply told_ret; [|exact Logic.I]. apply overlooked_snoc; [exact Hl|]. intros e He. injection He as <-. apply HP.
  - match goal with |- htraced ?l2 _ _ _ => assert (Hl2 : overlooked P l2) by (apply quiet_snoc; [exact Hl|reflexivity]) end.
    destruct (has_attr attrs FILE_ATTRIBUTE_DIRECTORY); cbn [hplain htraced]; intros [last|u]; try (apply told_ret; [apply quiet_snoc; [exact Hl2|reflexivity]|exact Logic.I]);
    (destruct (last =? ERROR_FILE_NOT_FOUND) eqn:Ee; cbn [negb]; [|apply told_plain_fail; [exact Hl2|reflexivity|exact Logic.I]]; apply N.eqb_eq in Ee; subst last;
     apply told_ret; [|exact Logic.I]; apply overlooked_snoc; [exact Hl2|]; intros e He; injection He as <-; apply HP).
Qed.

(** SetPermissions *)
Lemma told_code : forall A has (Q : A -> N -> Prop) v c r code l, overlooked P l -> refused (HEv c r) = reason code -> Q v code -> htraced (l ++ [HEv c r]) (hbad has v code) (good P D own has Q) (bad P D own has).
Proof. intros. apply told_bad; [|assumption]. eapply accounts_failed; eauto. Qed.
Lemma sound_make_aces : forall has todo blocks k, (forall b, sound has any (k b)) -> sound has any (hmake_aces dbg has todo blocks k).
Proof.
  intros has todo. induction todo as [|x todo IH]; intros blocks k Hk; [apply Hk|]. cbn [hmake_aces]. call_step. apply sound_scope; [apply harmless_free|]. apply IH. exact Hk.
Qed.
Lemma sound_SetPermissions : forall has p prms, sound has any (hSetPermissions dbg has p prms).
Proof.
  intros has p prms. unfold hSetPermissions. call_with idtac ltac:(apply told_code; [assumption|assumption|exact Logic.I]). apply sound_scope; [apply harmless_free|].
  apply sound_sys; [|discriminate]. intros same _. apply sound_make_aces. intros blocks. call_with idtac ltac:(apply told_code; [assumption|assumption|exact Logic.I]). apply sound_scope; [apply harmless_free|].
  call_with idtac ltac:(apply told_code; [assumption|assumption|exact Logic.I]). apply sound_ret; exact Logic.I.
Qed.
End Told.

Lemma sound_equivalent : forall (D : hcall -> N -> N -> Prop) (own : N -> Prop) has p q, (forall t s f e, D (h_CreateFile t 0 s f) e e) -> (forall h e, D (h_Information h) e e) -> own errc_not_supported ->
  WinTold.sound P D own has any (hequivalent dbg has p q).
Proof.
  clear D own. intros D own has p q HC HI Ho. unfold hequivalent. apply sound_file; [intros; apply HC|intros; exact Logic.I|]. intros h1. apply sound_file; [intros; apply HC|intros; exact Logic.I|]. intros h2.
  destruct h1, h2; try (apply sound_own; [exact Ho|exact Logic.I]); try (apply sound_ret; exact Logic.I).
  intros l Hl. cbn [htraced]. intros [last|[a a2]]; [apply told_fail; [exact Hl|reflexivity|intros; apply HI|exact Logic.I]|]. match goal with |- htraced ?l2 _ _ _ => assert (Hl2 : overlooked P l2) by (apply quiet_snoc; [exact Hl|reflexivity]) end.
  cbn [htraced]. intros [last|[b b2]]; [apply told_fail; [exact Hl2|reflexivity|intros; apply HI|exact Logic.I]|]. apply told_ret; [apply quiet_snoc; [exact Hl2|reflexivity]|exact Logic.I].
Qed.

(** The calls of status about the file [t], and those that look at a link. *)
Definition status_call (t : str) (c : hcall) : Prop :=
  match c with
  | h_Plain (w_Attributes u) | h_NamedSecurity u => u = t
  | h_CreateFile u access _ _ => u = t /\ access = 0
  | h_AttributeTag _ | h_EffectiveRights _ _ => True
  | _ => False
  end.
Definition link_call (t : str) (c : hcall) : Prop :=
  match c with h_CreateFile u access _ _ => u = t /\ access = FILE_READ_EA | h_DeviceIoControl _ => True | _ => False end.
Definition none (e : N) : Prop := False.
Definition status_told (t : str) (c : hcall) (x code : N) : Prop := status_call t c /\ told_as x code.

Section Status.
Hypothesis Hrights : forall d t e, not_there_or_shared e -> P (h_EffectiveRights d t) e.
Variable p : path.
Notation accs := (accounts P (status_told (native p)) none).
Notation sounds := (WinTold.sound P (status_told (native p)) none).

Lemma sound_step : forall d t attr prms k, (forall x, sounds true any (k x)) -> sounds true any (hpermission_step dbg true d t attr prms k).
Proof.
  intros d t attr prms k H l Hl. unfold hpermission_step. cbn [htraced]. intros r. unfold GetTrusteePermissions. cbn [s_rights].
  assert (Hbad : forall e, e <> 0 -> refused (HEv (h_EffectiveRights d t) r) = Some e ->
    htraced (l ++ [HEv (h_EffectiveRights d t) r]) (HEnd (WE (ProcessPermissionsFailure true e))) (good P (status_told (native p)) none true any) (bad P (status_told (native p)) none true)).
  { intros e He Hr. unfold ProcessPermissionsFailure. destruct (IsNotFoundError e) eqn:En; [|destruct (e =? ERROR_SHARING_VIOLATION) eqn:Es].
    - apply told_ret; [|exact Logic.I]. apply overlooked_snoc; [exact Hl|]. intros x Hx. rewrite Hr in Hx. injection Hx as <-. apply Hrights. left. apply not_found_spec. exact En.
    - apply told_ret; [|exact Logic.I]. apply overlooked_snoc; [exact Hl|]. intros x Hx. rewrite Hr in Hx. injection Hx as <-. apply Hrights. right. apply N.eqb_eq. exact Es.
    - cbn. split; [|split; [discriminate|exact Logic.I]]. right. split; [exact He|]. left. exists l, (HEv (h_EffectiveRights d t) r), [], e.
      split; [reflexivity|]. split; [exact Hl|]. split; [exact Hr|]. split; [split; [exact Logic.I|left; reflexivity]|]. split; constructor. }
  destruct r as [[ret last]|mask].
  - destruct (ret =? ERROR_INVALID_ACL) eqn:Ea.
    + cbn [N.eqb errc_permission_denied Pos.eqb]. apply Hbad; [discriminate|]. cbn. rewrite Ea. reflexivity.
    + unfold wcapture. destruct (dbg && (last =? 0)); [exact Logic.I|]. destruct (last =? 0) eqn:E0.
      * apply H. apply quiet_snoc; [exact Hl|]. cbn. rewrite Ea. unfold reason. rewrite E0. reflexivity.
      * apply N.eqb_neq in E0 as E1. apply Hbad; [exact E1|]. cbn. rewrite Ea. unfold reason. rewrite E0. reflexivity.
  - destruct (trustee_permissions t mask attr); try exact Logic.I. apply H. apply quiet_snoc; [exact Hl|reflexivity].
Qed.
Lemma sound_get_permissions : forall attr, sounds true any (hGetPermissions dbg true p attr).
Proof.
  intros attr l Hl. unfold hGetPermissions. cbn [htraced]. intros [last|d].
  - apply told_fail; [exact Hl|reflexivity|intros; split; [reflexivity|left; reflexivity]|exact Logic.I].
  - apply sound_scope; [apply harmless_free| |apply quiet_snoc; [exact Hl|reflexivity]]. apply sound_step. intros p1. intros l2 Hl2. cbn [htraced]. intros same.
    assert (Hl3 : overlooked P (l2 ++ [HEv (h_EqualSid d) same])) by (apply quiet_snoc; [exact Hl2|reflexivity]).
    assert (Ho : forall p2, sounds true any (hpermission_step dbg true d t_others attr p2 (fun p3 => hret p3 0))) by (intros; apply sound_step; intros; apply sound_ret; exact Logic.I).
    destruct same; [apply Ho; exact Hl3|apply sound_step; [exact Ho|exact Hl3]].
Qed.

(** What is known when status returns. *)
Definition lenient : Prop := forall c e, status_call (native p) c -> not_there_or_shared e -> P c e.
Definition status_post (st : wstatus) (e : N) (l : list hevent) : Prop := accs l e /\ (wknown st = true -> lenient -> overlooked P l).
Lemma status_failure : forall e l, accs l e -> htraced l (HEnd (WE (ProcessStatusFailure true e))) status_post (fun _ _ => False).
Proof.
  intros e l H. unfold ProcessStatusFailure.
  assert (Hig : not_there_or_shared e -> lenient -> overlooked P l).
  { intros Hn Hle. eapply accounts_ignored; [exact H|]. intros _ c x [H1 [<-|[_ ->]]]; [apply Hle; assumption|]. exfalso. destruct Hn as [Hn|Hn]; [|discriminate Hn]. cbn in Hn. intuition discriminate. }
  destruct (e =? 0) eqn:E0; [apply N.eqb_eq in E0; subst; split; [exact H|discriminate]|].
  destruct (IsNotFoundError e) eqn:En; [cbn; split; [exact H|]; intros _; apply Hig; left; apply not_found_spec; exact En|].
  destruct (e =? ERROR_SHARING_VIOLATION) eqn:Es; [cbn; split; [exact H|]; intros _; apply Hig; right; apply N.eqb_eq; exact Es|].
  cbn. split; [|discriminate]. destruct (e =? ERROR_ACCESS_DENIED) eqn:Ed; [|exact H]. apply N.eqb_eq in Ed. subst e.
  destruct H as [[H1 _]|[_ [(a & d & b & x & H1 & H2 & H3 & [H4 H5] & H6)|[H2 _]]]]; [discriminate H1| |contradiction].
  right. split; [discriminate|]. left. exists a, d, b, x. repeat (split; [assumption|]). split; [|exact H6]. split; [exact H4|]. destruct H5 as [H5|[H5 H7]]; [|discriminate H7]. right. subst x. auto.
Qed.
Lemma told_with_permissions : forall attr (k : N -> hprog wstatus) l (Q : wstatus -> N -> list hevent -> Prop), overlooked P l -> (forall st e l, status_post st e l -> Q st e l) -> (forall prms l, overlooked P l -> htraced l (k prms) Q (fun _ _ => False)) ->
  htraced l (hwith_permissions dbg true p attr k) Q (fun _ _ => False).
Proof.
  intros attr k l Q Hl HQ Hk. unfold hwith_permissions. eapply htraced_bind.
  - eapply htraced_mono; [apply sound_get_permissions; exact Hl|intros a e l' H; exact H|]. intros c l' [H _]. discriminate H.
  - intros prms e l' (H1 & _ & _). destruct (e =? 0) eqn:E0.
    + apply N.eqb_eq in E0. subst e. apply Hk. eapply accounts_zero. exact H1.
    + eapply htraced_mono; [apply status_failure; exact H1| |]; auto.
Qed.
Lemma told_status : forall l, overlooked P l -> htraced l (hstatus dbg true p) status_post (fun _ _ => False).
Proof.
  intros l Hl. unfold hstatus. cbn [htraced]. intros [last|attrs].
  - apply told_capture. apply status_failure. eapply accounts_failed; [exact Hl|reflexivity| |auto]. intros He. split; [exact He|split; [reflexivity|left; reflexivity]].
  - assert (Hl2 : overlooked P (l ++ [HEv (h_Plain (w_Attributes (native p))) (inr attrs : hanswer (h_Plain (w_Attributes (native p))))])) by (apply quiet_snoc; [exact Hl|reflexivity]).
    eapply (htraced_bind _ _ _ _ _ (fun (r : N + N) _ l' => match r with inl e => accs l' e | inr _ => overlooked P l' end)).
    + destruct (has_attr attrs FILE_ATTRIBUTE_REPARSE_POINT); [|exact Hl2]. apply (told_file P (status_told (native p)) none); [exact Hl2| | | | |].
      * intros e He. split; [split; reflexivity|left; reflexivity].
      * intros e l' He H. exact H.
      * intros h l' Hl'. cbn [htraced]. intros [last|attr].
        -- apply told_capture. cbn. eapply accounts_failed; [exact Hl'|reflexivity| |auto]. intros He. split; [exact He|split; [exact Logic.I|left; reflexivity]].
        -- cbn. apply quiet_snoc; [exact Hl'|reflexivity].
      * intros [e|attr] _ l' c r Hc H; [apply accounts_more; assumption|]. apply accounts_zero with (D := status_told (native p)) (own := none). apply accounts_more; [apply accounts_zero; exact H|exact Hc].
      * intros e l' c r Hc [].
    + intros [e|attr] _ l' H; [apply status_failure; exact H|]. apply told_with_permissions; [exact H|auto|]. intros prms l3 H3. cbn. split; [apply accounts_zero; exact H3|]. auto.
Qed.

(** symlink_status: the failure to look at a link leaves the type known. *)
Definition link_told (c : hcall) (x code : N) : Prop := status_told (native p) c x code \/ (link_call (native p) c /\ code = x).
Definition slenient : Prop := lenient /\ forall c e, link_call (native p) c -> P c e.
Definition symlink_status_post (st : wstatus) (e : N) (l : list hevent) : Prop := accounts P link_told none l e /\ (wknown st = true -> slenient -> overlooked P l).
Lemma sound_is_symlink : WinTold.sound P (fun c x code => link_call (native p) c /\ code = x) none true any (hIsReparsePointSymlink dbg true p).
Proof.
  unfold hIsReparsePointSymlink. apply sound_file; [intros; split; [split; reflexivity|reflexivity]|intros; exact Logic.I|]. intros h l Hl. cbn [htraced]. intros [last|d].
  - apply told_fail; [exact Hl|reflexivity|intros; split; [exact Logic.I|reflexivity]|exact Logic.I].
  - apply told_ret; [apply quiet_snoc; [exact Hl|reflexivity]|exact Logic.I].
Qed.
Lemma told_symlink_status : forall l, overlooked P l -> htraced l (hsymlink_status dbg true p) symlink_status_post (fun _ _ => False).
Proof.
  assert (Hw : forall st e l, status_post st e l -> symlink_status_post st e l).
  { intros st e l [H1 H2]. split; [eapply accounts_weaken; [| | |exact H1]; auto; intros c x y Hc; left; exact Hc|]. intros Hk [Hle _]. auto. }
  intros l Hl. unfold hsymlink_status. cbn [htraced]. intros [last|attr].
  - apply told_capture. eapply htraced_mono; [apply status_failure|exact Hw|auto]. eapply accounts_failed; [exact Hl|reflexivity| |auto]. intros He. split; [exact He|split; [reflexivity|left; reflexivity]].
  - apply told_with_permissions; [apply quiet_snoc; [exact Hl|reflexivity]|exact Hw|]. intros prms l3 H3. destruct (has_attr attr FILE_ATTRIBUTE_REPARSE_POINT).
    + eapply htraced_bind.
      * eapply htraced_mono; [apply sound_is_symlink; exact H3|intros a e l' H; exact H|]. intros c l' [H _]. discriminate H.
      * intros b e l' (H1 & _ & _). cbn. split; [eapply accounts_weaken; [| | |exact H1]; auto; intros c x y Hc; right; exact Hc|]. intros _ [_ Hle]. eapply accounts_ignored; [exact H1|]. intros _ c x [H4 _]. auto.
    + cbn. split; [apply accounts_zero; exact H3|]. auto.
Qed.
End Status.

(** * Operations made of others *)

Section Made.
Hypothesis HD : forall c e code, told_as e code -> D c e code.
Hypothesis Hrights : forall d t e, not_there_or_shared e -> P (h_EffectiveRights d t) e.
Notation acc := (accounts P D own).
Lemma HDD : forall c e, D c e e.
Proof. intros. apply HD. left. reflexivity. Qed.

Lemma told_hret : forall A (Q : A -> N -> Prop) has v e l, acc l e -> (has = false -> e = 0) -> Q v e -> htraced l (hret v e) (good P D own has Q) (bad P D own has).
Proof. intros. cbn. split; auto. Qed.
Lemma wide_status : forall t l e, accounts P (status_told t) none l e -> acc l e.
Proof. intros t l e. apply accounts_weaken; auto. intros c x y [_ H]. auto. intros x []. Qed.
Lemma wide_link : forall p l e, accounts P (link_told p) none l e -> acc l e.
Proof. intros p l e. apply accounts_weaken; auto; [|intros x []]. intros c x y [[_ H]|[_ ->]]; [auto|apply HDD]. Qed.

Lemma sound_status : forall p, sound true any (hstatus dbg true p).
Proof.
  intros p l Hl. eapply htraced_mono; [apply told_status; auto| |contradiction]. intros st e l' [H _]. split; [eapply wide_status; exact H|]. split; [discriminate|exact Logic.I].
Qed.
Lemma sound_symlink_status : forall p, sound true any (hsymlink_status dbg true p).
Proof.
  intros p l Hl. eapply htraced_mono; [apply told_symlink_status; auto| |contradiction]. intros st e l' [H _]. split; [eapply wide_link; exact H|]. split; [discriminate|exact Logic.I].
Qed.

Lemma sound_permissions : forall has p prms opts, sound has any (hpermissions dbg has p prms opts).
Proof.
  intros has p prms opts. unfold hpermissions. assert (Hs : forall b : bool, sound true any (if b then hsymlink_status dbg true p else hstatus dbg true p)) by (intros []; [apply sound_symlink_status|apply sound_status]).
  destruct (dbg && _) eqn:Ed; [intros l Hl; exact Logic.I|]. clear Ed. intros l Hl.
  eapply (htraced_bind _ _ _ _ _ (fun (r : N + N) _ l' => match r with inl e => acc l' e | inr _ => overlooked P l' end)).
  - destruct (_ || _); [|exact Hl]. eapply htraced_bind.
    + eapply htraced_mono; [apply (Hs _ l Hl)|intros a e l' H; exact H|]. intros c l' [H _]. discriminate H.
    + cbn beta. intros st e l' (H1 & _ & _). destruct (e =? 0) eqn:E0; cbn [negb]; [|exact H1]. apply N.eqb_eq in E0. subst e. eapply accounts_zero in H1.
      destruct (dbg && _); [exact Logic.I|]. repeat (destruct (negb _); [exact H1|]). exact H1.
  - intros [e|prms2] _ l' H; [apply told_bad; [exact H|exact Logic.I]|]. revert l' H.
    eapply (sound_bind _ _ _ _ _ true); [discriminate|apply sound_SetPermissions; apply HDD| |].
    + intros _ _. apply sound_ret; exact Logic.I.
    + intros a e l' He _ _ H. apply N.eqb_neq in He. rewrite He. apply told_bad; [exact H|exact Logic.I].
Qed.
Lemma sound_copy_symlink : forall has a b, sound has any (hcopy_symlink dbg has a b).
Proof.
  intros has a b. unfold hcopy_symlink. eapply (sound_bind _ _ _ _ _ true); [discriminate|apply sound_read_symlink; apply HDD| |].
  - intros real _. cbn [N.eqb negb]. eapply (sound_bind _ _ _ _ _ true); [discriminate|apply sound_status| |].
    + intros st _. cbn [N.eqb negb]. destruct (wis ft_directory st); [apply sound_create_directory_symlink|apply sound_create_symlink]; apply HDD.
    + intros st e l He _ _ H. apply N.eqb_neq in He. rewrite He. apply told_bad; [exact H|exact Logic.I].
  - intros st e l He _ _ H. apply N.eqb_neq in He. rewrite He. apply told_bad; [exact H|exact Logic.I].
Qed.

(** ** Streams *)
Section Streams.
Hypothesis Hnext : forall h e, P (h_FindNext h) e.
Hypothesis Hclose : forall h e, P (h_FindClose h) e.
Hypothesis Hfirst : forall t, P (h_FindFirst t) 18.

Lemma harmless_find : forall h, harmless P (h_FindClose h).
Proof. intros h. split; [exact Logic.I|]. intros. apply Hclose. Qed.
Lemma next_snoc : forall l h r, overlooked P l -> overlooked P (l ++ [HEv (h_FindNext h) r]).
Proof. intros. apply overlooked_snoc; [assumption|]. intros. apply Hnext. Qed.
Lemma open_code_acc : forall l c r last, overlooked P l -> refused (HEv c r) = reason last -> P c 18 -> acc (l ++ [HEv c r]) (open_code false last).
Proof.
  intros l c r last Hl Hr HP. unfold open_code. destruct (last =? ERROR_ACCESS_DENIED) eqn:Ea.
  - apply N.eqb_eq in Ea. subst last. cbn [N.eqb Pos.eqb errc_permission_denied ERROR_NO_MORE_FILES]. eapply accounts_failed; [exact Hl|exact Hr| |discriminate]. intros _. split; [discriminate|]. apply HD. right. split; reflexivity.
  - destruct (last =? ERROR_NO_MORE_FILES) eqn:Em; [|eapply accounts_failed; [exact Hl|exact Hr|intros; split; [assumption|apply HDD]|auto]].
    apply N.eqb_eq in Em. subst last. apply accounts_zero. apply overlooked_snoc; [exact Hl|]. intros e He. rewrite Hr in He. injection He as <-. exact HP.
Qed.
Lemma told_fill : forall s d l, overlooked P l -> htraced l (hfill E narrow s d) (fun s2 e l' => overlooked P l' /\ e = 0 /\ hs_handle s2 = hs_handle s) (fun _ _ => False).
Proof. intros s d l Hl. unfold hfill. destruct (narrow (fd_name d)); [|exact Logic.I]. apply htraced_lift. intros q _. cbn. auto. Qed.
Lemma told_skip : forall n h d l, overlooked P l -> htraced l (hskip n h d) (fun _ _ l' => overlooked P l') (fun _ _ => False).
Proof.
  induction n as [|n IH]; intros h d l Hl; [exact Logic.I|]. cbn [hskip]. destruct (is_dots d); [|exact Hl]. cbn [htraced]. intros [last|d2]; [cbn|apply IH]; apply next_snoc; exact Hl.
Qed.
Lemma told_open : forall n root l, overlooked P l -> htraced l (hstream_open E narrow n false root) (fun s e l' => acc l' e /\ (hs_handle s <> None -> e = 0)) (fun _ _ => False).
Proof.
  intros n root l Hl. unfold hstream_open. cbn [htraced]. intros [last|[h d]].
  - cbn. split; [apply open_code_acc; [exact Hl|reflexivity|apply Hfirst]|]. intros H. contradiction H. reflexivity.
  - eapply htraced_bind; [apply told_skip; apply quiet_snoc; [exact Hl|reflexivity]|]. cbn beta. intros [last|d2] _ l' H.
    + cbn [htraced]. intros last2. cbn. split; [apply open_code_acc; [exact H|reflexivity|apply Hclose]|]. intros Hn. contradiction Hn. reflexivity.
    + eapply htraced_mono; [apply told_fill; exact H| |auto]. cbn beta. intros s e l2 (H1 & -> & _). split; [apply accounts_zero; exact H1|auto].
Qed.
Definition iter_post (it : hiter) (e : N) : Prop := it <> None -> e = 0.
Lemma sound_iter_new : forall n has p, sound has iter_post (hiter_new E narrow n has p false).
Proof.
  intros n has p l Hl. unfold hiter_new. eapply htraced_bind; [eapply htraced_mono; [apply told_open; exact Hl|intros s e l' H; exact H|contradiction]|]. cbn beta. intros s e l' [H1 H2].
  destruct (hs_handle s) eqn:Eh.
  - rewrite H2 in * by discriminate. destruct has; apply told_ret; try (eapply accounts_zero; exact H1); intros _; reflexivity.
  - destruct (e =? 0) eqn:E0; [apply N.eqb_eq in E0; subst e; apply told_ret; [eapply accounts_zero; exact H1|intros _; reflexivity]|]. apply told_bad; [exact H1|]. intros H. contradiction H. reflexivity.
Qed.
Lemma good_close : forall A has (Q : A -> N -> Prop) cs (v : A) e l, Forall (harmless P) cs -> acc l e -> (has = false -> e = 0) -> Q v e -> htraced l (hcalls cs (WE (WRet v e))) (good P D own has Q) (bad P D own has).
Proof.
  intros A has Q cs v e l Hc H1 H2 H3. rewrite Forall_forall in Hc. apply htraced_calls.
  - intros. apply good_more; auto.
  - intros. apply bad_more; auto.
  - cbn. split; auto.
Qed.
Lemma closing_harmless : forall s, Forall (harmless P) (closing s).
Proof. intros s. unfold closing. destruct (hs_handle s); [constructor; [apply harmless_find|constructor]|constructor]. Qed.
Lemma iter_closing_harmless : forall it, Forall (harmless P) (iter_closing it).
Proof. intros [s|]; [apply closing_harmless|constructor]. Qed.
(** The destructor between a code and what follows. *)
Lemma told_destroy : forall A cs e (k : hprog A) l (Q : A -> N -> list hevent -> Prop) (R : N -> list hevent -> Prop), Forall (harmless P) cs -> acc l e -> (forall l, acc l e -> htraced l k Q R) ->
  htraced l (hbind (hcalls cs (WE (WRet tt 0))) (fun _ _ => k)) Q R.
Proof.
  intros A cs e k l Q R Hc. revert l. induction Hc as [|c cs Hc _ IH]; intros l H Hk; [apply Hk; exact H|]. cbn [hcalls hbind htraced]. intros r. apply IH; [apply accounts_more; assumption|exact Hk].
Qed.
Lemma sound_is_empty : forall n has p, sound has any (his_empty dbg E narrow n has p).
Proof.
  intros n has p l Hl. unfold his_empty. cbn [htraced]. intros [last|[attrs size]]; [apply told_fail; [exact Hl|reflexivity|intros; apply HDD|exact Logic.I]|].
  match goal with |- htraced ?l2 _ _ _ => assert (Hl2 : overlooked P l2) by (apply quiet_snoc; [exact Hl|reflexivity]) end.
  destruct (has_attr attrs FILE_ATTRIBUTE_DIRECTORY); [|apply told_ret; [exact Hl2|exact Logic.I]].
  eapply htraced_bind; [apply sound_iter_new; exact Hl2|]. intros it ec l' (H1 & H2 & _). unfold hiter_destroy. eapply told_destroy; [apply iter_closing_harmless|exact H1|]. intros l3 H3.
  destruct (ec =? 0) eqn:E0; cbn [negb]; [|apply told_hret; [exact H3|exact H2|exact Logic.I]]. apply N.eqb_eq in E0. subst ec. apply told_ret; [eapply accounts_zero; exact H3|exact Logic.I].
Qed.
End Streams.

Section Advance.
Hypothesis Hnext : forall h e, P (h_FindNext h) e.
Hypothesis Hclose : forall h e, P (h_FindClose h) e.
Variables (D2 : hcall -> N -> N -> Prop) (own2 : N -> Prop).
Hypothesis HD2 : forall h e, D2 (h_FindNext h) e e.
Lemma told_advance : forall n s l, overlooked P l -> htraced l (hadvance E narrow n s) (fun r e l' => accounts P D2 own2 l' e /\ (fst r = true -> e = 0)) (fun _ _ => False).
Proof.
  induction n as [|n IH]; intros s l Hl; [exact Logic.I|]. cbn [hadvance htraced]. intros [last|d].
  - cbn. intros r. split; [|discriminate]. apply accounts_more; [|apply harmless_find; exact Hclose]. destruct (last =? ERROR_NO_MORE_FILES).
    + apply accounts_zero. apply next_snoc; assumption.
    + eapply accounts_failed; [exact Hl|reflexivity|intros; split; [assumption|apply HD2]|auto].
  - assert (Hl2 : overlooked P (l ++ [HEv (h_FindNext (hs_handle s)) (inr d : hanswer (h_FindNext (hs_handle s)))])) by (apply next_snoc; assumption).
    destruct (is_dots d); [apply IH; exact Hl2|]. eapply htraced_bind; [apply told_fill; exact Hl2|]. cbn beta. intros s2 e l' (H1 & -> & _). cbn. split; [apply accounts_zero; exact H1|auto].
Qed.
Lemma sound_increment : forall n s, WinTold.sound P D2 own2 true iter_post (hiter_increment E narrow n true (Some s)).
Proof.
  intros n s l Hl. unfold hiter_increment. eapply htraced_bind; [eapply htraced_mono; [apply told_advance; exact Hl|intros r e l' H; exact H|contradiction]|]. cbn beta. intros [found s2] e l' [H1 H2]. cbn [fst] in H2.
  destruct found; [rewrite H2 in H1 by reflexivity; apply told_ret; [eapply accounts_zero; exact H1|intros _; reflexivity]|].
  unfold hdestroy. assert (Hc : Forall (harmless P) (closing s2)) by (apply closing_harmless; exact Hclose). revert l' H1. clear H2. generalize (closing s2), Hc. clear Hc. intros cs Hc. induction Hc as [|c cs Hc _ IH]; intros l' H1.
  - cbn [hcalls hbind]. destruct (e =? 0) eqn:E0; [apply N.eqb_eq in E0; subst e; apply told_ret; [eapply accounts_zero; exact H1|intros _; reflexivity]|]. apply told_bad; [exact H1|]. intros H. contradiction H. reflexivity.
  - cbn [hcalls hbind htraced]. intros r. apply IH. apply accounts_more; assumption.
Qed.
End Advance.

(** ** remove_all *)
Section RemoveAll.
Hypothesis Hnext : forall h e, P (h_FindNext h) e.
Hypothesis Hclose : forall h e, P (h_FindClose h) e.
Hypothesis Hfirst : forall t, P (h_FindFirst t) 18.
Hypothesis Hremove : forall c, P c 2.

Lemma sound_remove_entries : forall f, (forall q, sound true any (f q)) -> forall k n it ec count l, acc l ec -> iter_post it ec ->
  htraced l (hremove_entries E narrow f k n it ec count) (good P D own true any) (bad P D own true).
Proof.
  intros f Hf k n. induction k as [|k IH]; intros it ec count l Hl Hi; [exact Logic.I|]. cbn [hremove_entries]. destruct it as [s|]; [|apply told_hret; [exact Hl|discriminate|exact Logic.I]].
  rewrite (Hi ltac:(discriminate)) in *. cbn [N.eqb negb]. eapply accounts_zero in Hl.
  eapply htraced_bind; [apply htraced_unwind; [|apply Hf; exact Hl]|].
  { intros y l' c x _ [H _]. discriminate H. }
  intros c e l' (H1 & _ & _). destruct (e =? 0) eqn:E0; cbn [negb].
  - apply N.eqb_eq in E0. subst e. eapply accounts_zero in H1. eapply htraced_bind; [apply htraced_unwind; [|apply (sound_increment Hnext Hclose D own (fun h e => HDD _ e) n s); exact H1]|].
    { intros y l2 c2 x _ [H _]. discriminate H. }
    intros it2 e2 l2 (H2 & _ & H3). apply IH; assumption.
  - unfold hdestroy. eapply told_destroy; [apply closing_harmless; exact Hclose|exact H1|]. intros l2 H2. apply told_hret; [exact H2|discriminate|exact Logic.I].
Qed.
Lemma sound_do_remove_all : forall n p, sound true any (hdo_remove_all dbg E narrow n p).
Proof.
  induction n as [|n IH]; intros p; [intros l Hl; exact Logic.I|]. cbn [hdo_remove_all].
  assert (Hfin : forall count, sound true any (hbind (hplain (wremove dbg true p)) (fun b e2 => if b then hret count e2 else hret umax e2))).
  { intros count l Hl. eapply htraced_bind; [apply sound_remove; [apply HDD| |exact Hl]; intros; auto|]. intros b e l' (H1 & H2 & _). destruct b; (apply told_hret; [exact H1|exact H2|exact Logic.I]). }
  intros l Hl. eapply htraced_bind; [apply sound_symlink_status; exact Hl|]. intros st e l' (H1 & H2 & _). destruct (e =? 0) eqn:E0; cbn [negb]; [|apply told_hret; [exact H1|exact H2|exact Logic.I]].
  apply N.eqb_eq in E0. subst e. eapply accounts_zero in H1. destruct (wis ft_directory st); [|apply Hfin; exact H1].
  eapply htraced_bind; [apply sound_iter_new; [assumption|assumption|assumption|exact H1]|]. intros it ec l2 (H3 & _ & H4).
  eapply htraced_bind; [apply sound_remove_entries; [exact IH|exact H3|exact H4]|]. intros r e1 l3 (H5 & H6 & _).
  destruct r as [count|]; [|apply told_hret; [exact H5|exact H6|exact Logic.I]]. destruct (e1 =? 0) eqn:E1; cbn [negb]; [|apply told_hret; [exact H5|exact H6|exact Logic.I]].
  apply N.eqb_eq in E1. subst e1. apply Hfin. eapply accounts_zero. exact H5.
Qed.
Hypothesis HD2 : forall c x, D c x 2 -> x = 2.
Lemma sound_remove_all : forall n has p, sound has any (hremove_all dbg E narrow n has p).
Proof.
  intros n has p. unfold hremove_all. destruct (empty p); [apply sound_ret; exact Logic.I|]. eapply (sound_bind _ _ _ _ _ true); [discriminate|apply sound_do_remove_all| |].
  - intros count _. apply sound_ret; exact Logic.I.
  - intros a e l He _ _ H. apply N.eqb_neq in He. rewrite He. cbn [negb]. destruct (e =? errc_no_such_file_or_directory) eqn:E2; [|apply told_bad; [exact H|exact Logic.I]].
    apply N.eqb_eq in E2. subst e. apply told_ret; [|exact Logic.I]. eapply accounts_ignored; [exact H|]. intros _ c x Hc. rewrite (HD2 c x Hc). apply Hremove.
Qed.
End RemoveAll.

(** ** Copying *)
Section Copying.
Hypothesis Hopen : forall t s f e, P (h_CreateFile t 0 s f) e.
Hypothesis Hinfo : forall h e, P (h_Information h) e.
Hypothesis Hown : forall e, In e [errc_not_supported; errc_invalid_argument; errc_file_exists] -> own e.

Lemma told_next : forall B (Q : B -> N -> Prop) has (v : B) e l (k : hprog B), acc l e -> (overlooked P l -> htraced l k (good P D own has Q) (bad P D own has)) -> Q v e ->
  htraced l (if negb (e =? 0) then hbad has v e else k) (good P D own has Q) (bad P D own has).
Proof.
  intros B Q has v e l k H Hk HQ. destruct (e =? 0) eqn:E0; cbn [negb]; [|apply told_bad; assumption]. apply N.eqb_eq in E0. subst e. apply Hk. eapply accounts_zero. exact H.
Qed.
Lemma told_sub : forall A B (Q : B -> N -> Prop) has (p : hprog A) (f : A -> N -> hprog B) l, sound true any p -> overlooked P l ->
  (forall a e l', acc l' e -> htraced l' (f a e) (good P D own has Q) (bad P D own has)) -> htraced l (hbind p f) (good P D own has Q) (bad P D own has).
Proof.
  intros A B Q has p f l Hp Hl Hf. eapply htraced_bind; [eapply htraced_mono; [apply Hp; exact Hl|intros a e l' H; exact H|]|].
  - intros c l' [H _]. discriminate H.
  - intros a e l' (H & _ & _). apply Hf. exact H.
Qed.
Lemma told_equivalent_ignored : forall p q l, overlooked P l -> htraced l (hequivalent dbg true p q) (fun _ _ l' => overlooked P l') (fun _ _ => False).
Proof.
  intros p q l Hl. set (D3 := fun (c : hcall) (x code : N) => match c with h_CreateFile _ access _ _ => access = 0 | h_Information _ => True | _ => False end).
  eapply htraced_mono; [apply (sound_equivalent D3 (fun _ => True) true p q); try exact Hl; try exact Logic.I; intros; cbn; auto| |].
  - intros a e l' (H & _ & _). eapply accounts_ignored; [exact H|]. intros _ c x Hc. destruct c; cbn in Hc; try contradiction; subst; auto.
  - intros c l' [H _]. discriminate H.
Qed.
Lemma sound_copy_file : forall has from to options, lenient to -> sound has any (hcopy_file dbg m tps has from to options).
Proof.
  intros has from to options Hto l Hl. unfold hcopy_file. apply told_sub; [apply sound_status|exact Hl|]. intros from_st e1 l1 H1. apply told_next; [exact H1|clear l Hl; intros Hl|exact Logic.I].
  destruct (negb (wis ft_regular from_st)); [apply sound_own; [apply Hown; cbn; auto|exact Logic.I|exact Hl]|].
  eapply htraced_bind; [eapply htraced_mono; [apply told_status; [exact Hrights|exact Hl]|intros a e l' H; exact H|contradiction]|]. cbn beta. intros to_st e2 l2 [H2 H3].
  destruct (wknown to_st) eqn:Ek; cbn [negb]; [|apply told_bad; [eapply wide_status; exact H2|exact Logic.I]]. specialize (H3 eq_refl Hto). clear H2 H1 Hl l1.
  destruct (_ && _); [apply sound_own; [apply Hown; cbn; auto|exact Logic.I|exact H3]|].
  eapply (htraced_bind _ _ _ _ _ (fun _ _ l' => overlooked P l')).
  - destruct (wexists (fst to_st)); [|exact H3]. eapply htraced_mono; [apply told_equivalent_ignored; exact H3|auto|contradiction].
  - clear l2 H3. intros same e3 l3 H3.
    assert (Hcopy : forall l, overlooked P l -> htraced l (HSys (h_Plain (w_CopyFile (native from) (native to) false)) (fun r : N + unit => match r with inr _ => hret true 0 | inl e => hfail dbg has false e end)) (good P D own has any) (bad P D own has)).
    { intros l Hl. cbn [htraced]. intros [last|u]; [apply told_fail; [exact Hl|reflexivity|intros; apply HDD|exact Logic.I]|apply told_ret; [apply quiet_snoc; [exact Hl|reflexivity]|exact Logic.I]]. }
    destruct same; [destruct (negb (e3 =? 0)); (apply sound_own; [apply Hown; cbn; auto|exact Logic.I|exact H3])|].
    destruct (wexists (fst to_st) && wopt co_skip_existing options); [apply told_ret; [exact H3|exact Logic.I]|].
    destruct (wexists (fst to_st) && wopt co_update_existing options).
    + apply told_sub; [apply sound_last_write_time; apply HDD|exact H3|]. intros t1 e4 l4 H4. apply told_next; [exact H4|clear l3 H3; intros H3|exact Logic.I].
      apply told_sub; [apply sound_last_write_time; apply HDD|exact H3|]. intros t2 e5 l5 H5. apply told_next; [exact H5|clear l4 H4 H3; intros H3|exact Logic.I].
      destruct (t2 <=? t1)%Z; [apply Hcopy; exact H3|apply told_ret; [exact H3|exact Logic.I]].
    + destruct (_ || _); [apply Hcopy; exact H3|]. apply sound_own; [apply Hown; cbn; auto|exact Logic.I|exact H3].
Qed.

Section Tree.
Hypothesis Hnext : forall h e, P (h_FindNext h) e.
Hypothesis Hclose : forall h e, P (h_FindClose h) e.
Hypothesis Hfirst : forall t, P (h_FindFirst t) 18.
Hypothesis Hlink : forall q, slenient q.
Hypothesis Hexists : forall t u, P (h_Plain (w_CreateDirectoryEx t u)) ERROR_ALREADY_EXISTS.
Hypothesis Hown2 : forall e, In e [errc_file_exists; errc_function_not_supported; errc_is_a_directory] -> own e.

Lemma told_either : forall (b : bool) q l, overlooked P l -> htraced l (if b then hsymlink_status dbg true q else hstatus dbg true q) (fun st e l' => acc l' e /\ (wknown st = true -> overlooked P l')) (fun _ _ => False).
Proof.
  intros [] q l Hl; [eapply htraced_mono; [apply told_symlink_status; [exact Hrights|exact Hl]| |contradiction]|eapply htraced_mono; [apply told_status; [exact Hrights|exact Hl]| |contradiction]]; intros st e l' [H1 H2].
  - split; [eapply wide_link; exact H1|]. intros H. apply H2; [exact H|]. apply Hlink.
  - split; [eapply wide_status; exact H1|]. intros H. apply H2; [exact H|]. apply Hlink.
Qed.
Lemma sound_copy_entries : forall has f, (forall a b, sound has any (f a b)) -> forall k n to it l, overlooked P l ->
  htraced l (hcopy_entries E narrow f k n has to it 0) (good P D own has any) (bad P D own has).
Proof.
  intros has f Hf k n to. induction k as [|k IH]; intros it l Hl; [exact Logic.I|]. cbn [hcopy_entries]. destruct it as [s|]; [|apply told_ret; [exact Hl|exact Logic.I]]. cbn [N.eqb negb].
  assert (Hcl : forall c, In c (closing s) -> harmless P c) by (apply Forall_forall; apply closing_harmless; exact Hclose).
  eapply htraced_bind; [apply htraced_unwind; [intros y l' c x Hc H; apply bad_more; [apply Hcl; exact Hc|exact H]|]|].
  - apply htraced_lift. intros fn _. apply htraced_lift. intros b _. apply Hf. exact Hl.
  - intros u ec l' (H1 & H2 & _). destruct (ec =? 0) eqn:E0; cbn [negb].
    + apply N.eqb_eq in E0. subst ec. eapply accounts_zero in H1.
      eapply (htraced_bind _ _ _ _ _ (fun it2 e2 l2 => overlooked P l2 /\ iter_post it2 e2)).
      * apply htraced_unwind; [intros y l2 c x Hc H; apply bad_more; [apply Hcl; exact Hc|exact H]|].
        eapply htraced_mono; [apply (sound_increment Hnext Hclose (fun c _ _ => match c with h_FindNext _ => True | _ => False end) (fun _ => False)); [intros; exact Logic.I|exact H1]| |].
        -- intros it2 e2 l2 (H3 & _ & H4). split; [|exact H4]. eapply accounts_ignored; [exact H3|]. intros _ c x Hc. destruct c; try contradiction. apply Hnext.
        -- intros c l2 [H _]. discriminate H.
      * intros it2 e2 l2 [H3 H4]. destruct it2 as [s2|].
        -- rewrite (H4 ltac:(discriminate)). apply IH. exact H3.
        -- destruct k; [exact Logic.I|]. cbn [hcopy_entries]. apply told_ret; [exact H3|exact Logic.I].
    + unfold hdestroy. eapply told_destroy; [apply closing_harmless; exact Hclose|exact H1|]. intros l2 H3. apply told_hret; [exact H3|exact H2|exact Logic.I].
Qed.
Lemma sound_code : forall A has (p : hprog A), sound has any p -> sound has any (hbind p (fun _ e => hret tt e)).
Proof. intros A has p Hp l Hl. eapply htraced_bind; [apply Hp; exact Hl|]. intros a e l' (H1 & H2 & _). apply told_hret; [exact H1|exact H2|exact Logic.I]. Qed.
Lemma sound_copy : forall n has from to options, sound has any (hcopy dbg E m tps narrow n has from to options).
Proof.
  induction n as [|n IH]; intros has from to options l Hl; [exact Logic.I|]. cbn [hcopy].
  assert (Hs : forall b : bool, sound true any (if b then hsymlink_status dbg true from else hstatus dbg true from)) by (intros []; [apply sound_symlink_status|apply sound_status]).
  apply told_sub; [apply Hs|exact Hl|]. intros fs e1 l1 H1. apply told_next; [exact H1|clear l Hl Hs; intros Hl|exact Logic.I].
  eapply htraced_bind; [eapply htraced_mono; [apply told_either; exact Hl|intros a e l' H; exact H|contradiction]|]. cbn beta. intros ts e2 l2 [H2 H3].
  destruct (wknown ts) eqn:Ek; cbn [negb]; [|apply told_bad; [exact H2|exact Logic.I]]. specialize (H3 eq_refl). clear H1 H2 Hl l1.
  assert (Hbad : forall e l, In e [errc_file_exists; errc_function_not_supported; errc_is_a_directory] -> overlooked P l -> htraced l (hbad has tt e) (good P D own has any) (bad P D own has)).
  { intros e l He Hl. apply sound_own; [apply Hown2; exact He|exact Logic.I|exact Hl]. }
  match goal with |- htraced _ (if ?b then _ else _) _ _ => destruct b end; [apply Hbad; [cbn; auto|exact H3]|].
  apply told_sub; [|exact H3|].
  { match goal with |- context [if ?b then _ else _] => destruct b end; [|apply sound_ret; exact Logic.I]. apply sound_equivalent; [intros; apply HDD|intros; apply HDD|apply Hown; cbn; auto]. }
  intros same e3 l3 H4. apply told_next; [exact H4|clear l2 H3 H4; intros Hl|exact Logic.I].
  destruct same; [apply Hbad; [cbn; auto|exact Hl]|].
  destruct (wis ft_symlink fs).
  { destruct (wset co_skip_symlinks options); [apply told_ret; [exact Hl|exact Logic.I]|]. destruct (negb (wexists (fst ts))); [apply sound_copy_symlink; exact Hl|apply Hbad; [cbn; auto|exact Hl]]. }
  destruct (wis ft_regular fs).
  { destruct (wset co_directories_only options); [apply told_ret; [exact Hl|exact Logic.I]|]. destruct (wset co_create_symlinks options); [apply sound_create_symlink; [apply HDD|exact Hl]|].
    destruct (wset co_create_hard_links options); [apply sound_create_hard_link; [apply HDD|exact Hl]|].
    destruct (wis ft_directory ts); [apply htraced_lift; intros fn _; apply htraced_lift; intros to2 _|]; (apply sound_code; [apply sound_copy_file; apply Hlink|exact Hl]). }
  match goal with |- htraced _ (if ?b then _ else _) _ _ => destruct b end; [apply Hbad; [cbn; auto|exact Hl]|].
  match goal with |- htraced _ (if ?b then _ else _) _ _ => destruct b end; [|apply told_ret; [exact Hl|exact Logic.I]].
  eapply htraced_bind.
  { instantiate (1 := good P D own has any). match goal with |- context [if ?b then _ else _] => destruct b end; [apply sound_create_directory_like; [apply HDD|exact Hexists|exact Hl]|apply told_ret; [exact Hl|exact Logic.I]]. }
  intros u e4 l4 (H4 & H5 & _). destruct (e4 =? 0) eqn:E4; cbn [negb]; [|apply told_hret; [exact H4|exact H5|exact Logic.I]]. apply N.eqb_eq in E4. subst e4. eapply accounts_zero in H4.
  eapply htraced_bind; [apply sound_iter_new; [assumption|assumption|assumption|exact H4]|]. intros it ec l5 (H6 & H7 & H8). destruct (ec =? 0) eqn:E5; cbn [negb].
  - apply N.eqb_eq in E5. subst ec. apply sound_copy_entries; [intros; apply IH|]. eapply accounts_zero. exact H6.
  - unfold hiter_destroy. eapply told_destroy; [apply iter_closing_harmless; exact Hclose|exact H6|]. intros l6 H9. apply told_hret; [exact H9|exact H7|exact Logic.I].
Qed.
End Tree.
End Copying.
End Made.
End Operations.

(** * Theorems *)

Definition tells (o : woperation) (l : list hevent) (code : N) : Prop := accounts (overlooks o) (fun _ => told_as) (own_wcode o) l code.
(** space(p, ec) asks for the current directory with the throwing absolute(p). *)
Definition lost_cwd (o : woperation) (l : list hevent) : Prop :=
  match o with wo_space _ => match last l (HEv (h_CloseHandle 0) tt) with HEv (h_Plain w_CurrentDirectory) _ => True | _ => False end | _ => False end.
(** Followed with an error_code only. *)
Definition only_with_code (o : woperation) : Prop := match o with wo_status _ | wo_symlink_status _ => True | _ => False end.

Lemma performed : forall dbg E m tps narrow n has o l, overlooked (overlooks o) l ->
  htraced l (wperform dbg E m tps narrow n has o) (fun _ e l' => tells o l' e /\ (has = false -> ~ only_with_code o -> e = 0)) (fun e l' => tells o l' e /\ (has = false \/ lost_cwd o l')).
Proof.
  intros dbg E m tps narrow n has o l Hl.
  assert (HD : forall (c : hcall) e code, told_as e code -> (fun _ => told_as) c e code) by (intros; assumption).
  assert (HDD : forall (c : hcall) e, (fun _ => told_as) c e e) by (intros; left; reflexivity).
  assert (Hgo : forall A has' (p : hprog A), (has' = has \/ only_with_code o) -> (has' = false -> has = false) -> sound (overlooks o) (fun _ => told_as) (own_wcode o) has' any p ->
    htraced l (hbind p (fun _ e => hret tt e)) (fun _ e l' => tells o l' e /\ (has = false -> ~ only_with_code o -> e = 0)) (fun e l' => tells o l' e /\ (has = false \/ lost_cwd o l'))).
  { intros A has' p H1 H2 Hp. eapply htraced_bind; [eapply htraced_mono; [apply Hp; exact Hl|intros a e l' H; exact H|]|].
    - intros c l' [H3 H4]. split; [exact H4|left; auto].
    - intros a e l' (H3 & H4 & _). cbn. split; [exact H3|]. intros Hh Hn. apply H4. destruct H1 as [->|H1]; [exact Hh|contradiction]. }
  destruct o; cbn [wperform]; lazymatch goal with
    | |- htraced _ (hbind (hplain (wspace _ _ _ _)) _) _ _ => idtac
    | _ => first [apply (Hgo _ true); [right; exact Logic.I|discriminate|]|apply (Hgo _ has); [left; reflexivity|auto|]] end.
  - apply sound_create_directory; [exact HDD|]. reflexivity.
  - apply sound_create_directory_like; [exact HDD|]. reflexivity.
  - apply sound_create_symlink. exact HDD.
  - apply sound_create_directory_symlink. exact HDD.
  - apply sound_create_hard_link. exact HDD.
  - apply sound_set_current_path. exact HDD.
  - apply sound_rename. exact HDD.
  - apply sound_current_path. exact HDD.
  - apply sound_absolute. exact HDD.
  - eapply htraced_bind; [eapply htraced_mono; [apply sound_space; [exact HDD|exact Hl]|intros a e l' H; exact H|intros c l' H; exact H]|]. intros a e l' (H1 & H2 & _). cbn. split; auto.
  - apply sound_file_size; [exact HDD|]. reflexivity.
  - apply sound_remove; [exact HDD|]. repeat split.
  - apply sound_remove_all; try assumption; intros; cbn; auto.
    + destruct c; cbn; auto; try exact Logic.I. left. left. reflexivity.
    + destruct H as [H|[_ H]]; [auto|discriminate H].
  - apply sound_is_empty; try assumption; intros; cbn; auto.
  - apply sound_read_symlink. exact HDD.
  - apply sound_equivalent; [intros; left; reflexivity|intros; left; reflexivity|reflexivity].
  - apply sound_hard_link_count. exact HDD.
  - apply sound_last_write_time. exact HDD.
  - apply sound_set_last_write_time; [exact HDD|reflexivity].
  - apply sound_resize_file. exact HDD.
  - apply sound_permissions; auto.
  - apply sound_copy_symlink; auto.
  - apply sound_copy_file; auto; try (intros; cbn; auto; fail). intros c e Hc He. destruct c; cbn in Hc |- *; try contradiction; auto; try (destruct Hc; assumption).
    destruct c; cbn in Hc |- *; try contradiction. auto.
  - apply sound_copy; auto; try (intros; cbn; auto; fail).
    + intros e He. cbn in He |- *. intuition.
    + intros q. split.
      * intros c e Hc He. destruct c; cbn in Hc |- *; try contradiction; auto; try (left; destruct Hc; assumption). destruct c; cbn in Hc |- *; try contradiction; auto.
      * intros c e Hc. destruct c; cbn in Hc |- *; try contradiction; auto. right. apply Hc.
  - apply sound_status; auto.
  - apply sound_symlink_status; auto.
Qed.

Section Theorems.
Variables (dbg : bool) (E : elision) (m : signed_mode) (tps : Z) (narrow : str -> option str) (n : nat) (has : bool) (o : woperation).
Variables (S : Type) (h : hkernel S) (s : S).
Let run := hrun (recorded h) (wperform dbg E m tps narrow n has o) (s, []).

(** If it succeeds, nothing failed but what it may overlook. *)
Theorem C106_told : fst run = WE (WRet tt 0) -> overlooked (overlooks o) (snd (snd run)).
Proof.
  intros H. pose proof (htraced_run _ _ [] _ _ S h s (performed dbg E m tps narrow n has o [] ltac:(constructor))) as G. fold run in G. destruct run as [r [s2 l]]. cbn in H. subst r. destruct G as [G _]. eapply accounts_zero. exact G.
Qed.

(** A code it gives or throws is the reason of the first failure it does not overlook, after which it only gives back what it had; or it is one of its own. *)
Theorem C106_code : forall code, code <> 0 -> fst run = WE (WRet tt code) \/ fst run = WE (WThrow code) ->
  first_failure (overlooks o) (fun _ => told_as) (snd (snd run)) code \/ (own_wcode o code /\ overlooked (overlooks o) (snd (snd run))).
Proof.
  intros code Hc H. pose proof (htraced_run _ _ [] _ _ S h s (performed dbg E m tps narrow n has o [] ltac:(constructor))) as G. fold run in G. destruct run as [r [s2 l]]. cbn in H.
  destruct H; subst r; destruct G as [[[G _]|[_ G]] _]; try contradiction; exact G.
Qed.

(** With an error_code nothing is thrown, but for the current directory space asks for; without one no code is lost by returning. *)
Theorem C106_how : (forall code, fst run = WE (WThrow code) -> has = false \/ lost_cwd o (snd (snd run))) /\
  (forall code, fst run = WE (WRet tt code) -> has = false -> ~ only_with_code o -> code = 0).
Proof.
  pose proof (htraced_run _ _ [] _ _ S h s (performed dbg E m tps narrow n has o [] ltac:(constructor))) as G. fold run in G. destruct run as [r [s2 l]].
  split; intros code H; cbn in H; subst r; apply G.
Qed.
End Theorems.

(** The throwing forms of status and symlink_status tell nothing: a file that cannot be looked at has type none, and nothing is thrown. *)
Theorem C106_status : forall S (h : hkernel S) dbg p s e, fst (h (h_Plain (w_Attributes (native p))) s) = inl e -> e <> 0 -> ~ not_there_or_shared e ->
  fst (hrun h (hstatus dbg false p) s) = WE (WRet (WT ft_none, perms_unknown) 0) /\ fst (hrun h (hsymlink_status dbg false p) s) = WE (WRet (WT ft_none, perms_unknown) 0).
Proof.
  intros S h dbg p s e H He Hn. unfold hstatus, hsymlink_status. cbn [hrun]. destruct (h (h_Plain (w_Attributes (native p))) s) as [r s2]. cbn in H. subst r. cbn. unfold hcapture, ProcessStatusFailure.
  apply N.eqb_neq in He. rewrite He, andb_false_r. destruct (IsNotFoundError e) eqn:En; [exfalso; apply Hn; left; apply not_found_spec; exact En|].
  destruct (e =? ERROR_SHARING_VIOLATION) eqn:Es; [exfalso; apply Hn; right; apply N.eqb_eq; exact Es|]. split; reflexivity.
Qed.
(** is_empty takes a directory of which only "." or ".." could be read for an empty one, if FindClose leaves no error. *)
Theorem C106_listing : forall S (h : hkernel S) dbg E narrow n has p s attrs size s1 f d s2 e s3 s4,
  h (h_Plain (w_AttributesEx (native p))) s = (inr (attrs, size), s1) -> has_attr attrs FILE_ATTRIBUTE_DIRECTORY = true -> h (h_FindFirst (find_pattern (native p))) s1 = (inr (f, d), s2) -> is_dots d = true ->
  h (h_FindNext (Some f)) s2 = (inl e, s3) -> h (h_FindClose (Some f)) s3 = (0, s4) -> hrun h (his_empty dbg E narrow (Datatypes.S n) has p) s = (WE (WRet true 0), s4).
Proof.
  intros S h dbg E narrow n has p s attrs size s1 f d s2 e s3 s4 H1 H2 H3 H4 H5 H6. unfold his_empty, hiter_new, hstream_open. cbn [hrun hanswer wanswer]. rewrite H1. cbn beta iota. rewrite H2. cbn [hbind hrun]. rewrite H3. cbn beta iota. cbn [hskip]. rewrite H4. cbn [hbind hrun].
  rewrite H5. cbn [hbind hrun hret]. rewrite H6. reflexivity.
Qed.

(** * Examples *)

(** A system that knows one file "a", keeps it from being opened, and knows no other. *)
Definition locked : hkernel unit := fun c _ =>
  (match c return hanswer c with
   | h_CreateFile _ _ _ _ => inl 5 | h_CloseHandle _ => tt | h_Information _ => inl 6 | h_AttributeTag _ => inl 6 | h_DeviceIoControl _ => inl 6 | h_GetFileTime _ => inl 6
   | h_SetFileTime _ _ => inl 6 | h_SetFilePointer _ _ => inl 6 | h_SetEndOfFile _ => inl 6 | h_GetFileType _ => (H_OTHER, 0) | h_FindFirst _ => inl 3 | h_FindNext _ => inl 6 | h_FindClose _ => 0
   | h_NamedSecurity _ => inr 7 | h_EqualSid _ => true | h_EffectiveRights _ _ => inr 0 | h_LocalAlloc => inl 14 | h_LocalFree _ => tt | h_SetEntries _ _ _ => inl 87 | h_SetNamedSecurity _ _ => inl 5
   | h_Plain c =>
       match c return wanswer c with
       | w_Attributes t => if str_eqb t (lit "a") then inr 128 else inl 2
       | w_CopyFile _ _ _ => inr tt
       | w_Info _ => WInfo (inl 2) (inl 2) (inl 2) (inl 2) (inl 2) (Security (inl 2) false (fun _ => inr 0))
       | w_Find _ => (inl 3, 0) | w_TempPath => (0, 0, []) | w_FileInfo _ | w_AttributesEx _ | w_Reparse _ | w_WriteTime _ | w_CurrentDirectory | w_DiskFreeSpace _ => inl 2
       | _ => inl 5
       end
   end, tt).
Definition demo_wrun (has : bool) (o : woperation) := hrun (recorded locked) (wperform false (Elision true true true) Strict 10000000 (fun t => Some t) 5 has o) (tt, []).
Definition pa : path := wpath (lit "a").
Definition pb : path := wpath (lit "b").

(** remove of a file that is not there succeeds: its one failure may be overlooked. copy_file to a file that is not there succeeds too, having overlooked that. *)
Example C106_told_example : fst (demo_wrun true (wo_remove pb)) = WE (WRet tt 0) /\ map refused (snd (snd (demo_wrun true (wo_remove pb)))) = [Some 2] /\
  fst (demo_wrun true (wo_copy_file pa pb 0)) = WE (WRet tt 0) /\ In (Some 2) (map refused (snd (snd (demo_wrun true (wo_copy_file pa pb 0))))).
Proof. vm_compute. repeat split; auto 12. Qed.
(** hard_link_count of a file that cannot be opened gives the reason, or throws it; remove of a file that cannot be deleted as well; is_directory's status gives the code for a
    file that is not there. copy_file of what is not there gives that code. *)
Example C106_code_example : fst (demo_wrun true (wo_hard_link_count pa)) = WE (WRet tt 5) /\ fst (demo_wrun false (wo_hard_link_count pa)) = WE (WThrow 5) /\
  fst (demo_wrun true (wo_remove pa)) = WE (WRet tt 5) /\ map refused (snd (snd (demo_wrun true (wo_remove pa)))) = [None; Some 5] /\
  fst (demo_wrun true (wo_status pb)) = WE (WRet tt 2) /\ fst (demo_wrun false (wo_copy_file pb pa 0)) = WE (WThrow 2).
Proof. vm_compute. repeat split. Qed.
(** space throws the reason why there is no current directory, whether there is an error_code or not. *)
Example C106_how_example : fst (demo_wrun true (wo_space pa)) = WE (WThrow 2) /\ fst (demo_wrun false (wo_space pa)) = WE (WThrow 2) /\ fst (demo_wrun false (wo_rename pa pb)) = WE (WThrow 5) /\ fst (demo_wrun true (wo_rename pa pb)) = WE (WRet tt 5).
Proof. vm_compute. repeat split. Qed.
(** A system that refuses to tell the attributes. *)
Definition guarded : hkernel unit := fun c s => match c return hanswer c * unit with h_Plain (w_Attributes _) => (inl 5, s) | c => locked c s end.
Example C106_status_example : fst (hrun guarded (hstatus false false pa) tt) = WE (WRet (WT ft_none, perms_unknown) 0) /\ fst (hrun guarded (hstatus false true pa) tt) = WE (WRet (WT ft_none, perms_unknown) 13).
Proof. split; [apply (C106_status unit guarded false pa tt 5); [reflexivity|discriminate|]|reflexivity]. intros [H|H]; [cbn in H; intuition discriminate|discriminate H]. Qed.
(** A directory that cannot be read beyond ".". *)
Definition broken : hkernel unit := fun c s =>
  match c return hanswer c * unit with
  | h_Plain (w_AttributesEx _) => (inr (16, 0), s)
  | h_FindFirst _ => (inr (9, FindData (lit ".") 16 0), s)
  | h_FindNext _ => (inl 1117, s)
  | c => locked c s
  end.
Example C106_listing_example : fst (hrun broken (his_empty false (Elision true true true) (fun t => Some t) 3 true pa) tt) = WE (WRet true 0).
Proof. rewrite (C106_listing unit broken false _ _ 2 true pa tt 16 0 tt 9 (FindData (lit ".") 16 0) tt 1117 tt tt); reflexivity. Qed.

Print Assumptions C106_told.
Print Assumptions C106_code.
Print Assumptions C106_how.
Print Assumptions C106_status.
Print Assumptions C106_listing.
