(** C107: on Windows the overloads with an error_code and the throwing ones agree. *)
From Coq Require Import Ascii String Bool NArith ZArith List Lia.
From Verif Require Import Str PathModel FlagsModel TimeModel WinPermsModel WinAclModel WinStatModel WinOpsModel WinHandleModel WinHandles.
Import ListNotations.
Local Open Scope N_scope.

(** * Specification *)

(** A call that fails gives a reason. Of GetTempPathW only what is relevant: 0, or more than the 260 characters the library offers. *)
Definition given {A} (r : N + A) : Prop := match r with inl e => e <> 0 | inr _ => True end.
Definition info_given (i : winfo) : Prop :=
  given (w_attrs i) /\ given (w_open i) /\ given (w_handle_attrs i) /\ given (w_open_link i) /\ given (w_tag i) /\ given (s_named (w_security i)).
Definition wreasoned (c : wcall) : wanswer c -> Prop :=
  match c with
  | w_Info _ => info_given
  | w_Find _ => fun _ => True
  | w_TempPath => fun r : N * N * str => let '(len, last, _) := r in len = 0 \/ 260 < len -> last <> 0
  | w_FileInfo _ | w_AttributesEx _ | w_Attributes _ | w_Reparse _ | w_WriteTime _ | w_CurrentDirectory | w_DiskFreeSpace _
  | w_RemoveDirectory _ | w_DeleteFile _ | w_CreateDirectory _ | w_CreateDirectoryEx _ _ | w_CopyFile _ _ _ | w_CreateSymbolicLink _ _ _
  | w_CreateHardLink _ _ | w_SetWriteTime _ _ | w_SetCurrentDirectory _ | w_Rename _ _ | w_OpenExclusive _ | w_SetEnd _ _ => given
  end.
Definition reasoned (c : hcall) : hanswer c -> Prop :=
  match c with
  | h_CloseHandle _ | h_LocalFree _ | h_EqualSid _ | h_GetFileType _ | h_EffectiveRights _ _ | h_FindClose _ => fun _ => True
  | h_CreateFile _ _ _ _ | h_Information _ | h_AttributeTag _ | h_DeviceIoControl _ | h_GetFileTime _ | h_SetFileTime _ _ | h_SetFilePointer _ _
  | h_SetEndOfFile _ | h_FindFirst _ | h_FindNext _ | h_NamedSecurity _ | h_LocalAlloc | h_SetEntries _ _ _ | h_SetNamedSecurity _ _ => given
  | h_Plain c => wreasoned c
  end.
Definition gives_reasons {S} (h : hkernel S) : Prop := forall c s, reasoned c (fst (h c s)).

(** The ends of the two overloads: the same value and a clear code; the code thrown and a value that marks failure; or the same exception of another
    kind, failed assertion or undefined behaviour. *)
Definition same_end {A} (failure : A -> Prop) (with_code throwing : wend A) : Prop :=
  match throwing with
  | WE (WRet v e) => e = 0 /\ with_code = WE (WRet v 0)
  | WE (WThrow c) => c <> 0 /\ exists v, failure v /\ with_code = WE (WRet v c)
  | other => with_code = other
  end.
(** The current directory can be read. *)
Definition knows_directory {S} (h : hkernel S) : Prop := forall s, exists t, fst (h (h_Plain w_CurrentDirectory) s) = inr t.
(** The two agree on every system, or on every one where the current directory can be read, and leave it in the same state (which may be the list of the
    calls made). *)
Definition woverloads_agree {A} (cwd : bool) (failure : A -> Prop) (with_code throwing : hprog A) : Prop :=
  forall S (h : hkernel S) s, gives_reasons h -> (cwd = true -> knows_directory h) ->
  same_end failure (fst (hrun h with_code s)) (fst (hrun h throwing s)) /\ snd (hrun h with_code s) = snd (hrun h throwing s).

(** The weaker agreement of canonical and what is built on it: the code is not clear where the other overload throws, but it need not be the one thrown, and more
    calls may be made. *)
Definition near_end {A} (with_code throwing : wend A) : Prop :=
  match throwing with
  | WE (WRet v e) => e = 0 /\ with_code = WE (WRet v 0)
  | WE (WThrow _) => match with_code with WE (WRet _ e) => e <> 0 | WE (WThrow _) => False | _ => True end
  | other => with_code = other
  end.
Definition woverloads_nearly_agree {A} (cwd : bool) (with_code throwing : hprog A) : Prop :=
  forall S (h : hkernel S) s, gives_reasons h -> (cwd = true -> knows_directory h) -> near_end (fst (hrun h with_code s)) (fst (hrun h throwing s)).
(** Any value; an iterator that is at its end. *)
Definition whatever {A} (_ : A) : Prop := True.
Definition rec_at_end (it : hrec) : Prop := hr_stack it = [].

(** * Proof *)

Section Tools.
Variable cwd : bool.
Definition proper_answer (c : hcall) (r : hanswer c) : Prop :=
  reasoned c r /\ (cwd = true -> match c return hanswer c -> Prop with h_Plain w_CurrentDirectory => fun r => exists t, r = inr t | _ => fun _ => True end r).

Definition other_end {A} (r : wend A) : Prop := match r with WE (WRet _ _) | WE (WThrow _) => False | _ => True end.
Inductive hagree {A} (F : A -> Prop) : hprog A -> hprog A -> Prop :=
| ha_ret v : hagree F (HEnd (WE (WRet v 0))) (HEnd (WE (WRet v 0)))
| ha_bad v c : F v -> c <> 0 -> hagree F (HEnd (WE (WRet v c))) (HEnd (WE (WThrow c)))
| ha_end r : other_end r -> hagree F (HEnd r) (HEnd r)
| ha_sys c k k' : (forall r, proper_answer c r -> hagree F (k r) (k' r)) -> hagree F (HSys c k) (HSys c k').

Lemma hagree_run : forall A (F : A -> Prop) p q, hagree F p q -> woverloads_agree cwd F p q.
Proof.
  intros A F p q H S h s Hh Hd. revert s. induction H as [v|v c HF Hc|r Hr|c k k' H IH]; intros s; cbn.
  - auto.
  - split; [|reflexivity]. split; [exact Hc|]. eauto.
  - destruct r as [[a e|c|]| | |]; try contradiction; split; reflexivity.
  - assert (Hr : proper_answer c (fst (h c s))).
    { split; [apply Hh|]. intros Ec. destruct c; auto. destruct c; auto. apply Hd. exact Ec. }
    destruct (h c s) as [r s1]. apply IH. exact Hr.
Qed.

(** A program that throws no filesystem_error, and what it returns. *)
Fixpoint hcalm {A} (P : A -> N -> Prop) (p : hprog A) : Prop :=
  match p with
  | HEnd (WE (WRet a e)) => P a e
  | HEnd (WE (WThrow _)) => False
  | HEnd _ => True
  | HSys c k => forall r, proper_answer c r -> hcalm P (k r)
  end.
Lemma hcalm_mono : forall A (P Q : A -> N -> Prop) p, hcalm P p -> (forall a e, P a e -> Q a e) -> hcalm Q p.
Proof. intros A P Q p H HQ. induction p as [r|c k IH]; cbn in *; [destruct r as [[a e|c|]| | |]; auto|]. intros r Hr. auto. Qed.
Lemma hcalm_bind : forall A B (P : A -> N -> Prop) (Q : B -> N -> Prop) p (f : A -> N -> hprog B),
  hcalm P p -> (forall a e, P a e -> hcalm Q (f a e)) -> hcalm Q (hbind p f).
Proof. intros A B P Q p f H Hf. induction p as [r|c k IH]; cbn in *; [destruct r as [[a e|c|]| | |]; cbn; auto|]. intros r Hr. auto. Qed.
Lemma hcalm_lift : forall A B (P : B -> N -> Prop) (x : out A) (f : A -> hprog B), (forall a, hcalm P (f a)) -> hcalm P (hlift x f).
Proof. intros A B P [] f H; cbn; auto. Qed.
Lemma hcalm_scope : forall A (P : A -> N -> Prop) c p, hcalm P p -> hcalm P (hscope c p).
Proof. intros A P c p H. induction p as [r|c' k IH]; cbn in *; [destruct r as [[a e|c'|]| | |]; cbn; auto|]. intros r Hr. auto. Qed.
Lemma hcalm_calls : forall A (P : A -> N -> Prop) cs r, hcalm P (HEnd r) -> hcalm P (hcalls cs r).
Proof. intros A P cs r H. induction cs as [|c cs IH]; [exact H|]. intros x Hx. exact IH. Qed.
Lemma hcalm_unwind : forall A (P : A -> N -> Prop) cs p, hcalm P p -> hcalm P (hunwind cs p).
Proof.
  intros A P cs p H. induction p as [r|c' k IH]; cbn in *; [|intros r Hr; auto]. destruct r as [[a e|c'|]| | |]; cbn; auto; try contradiction.
  apply hcalm_calls. exact I.
Qed.
Lemma hcalm_capture : forall dbg A (P : A -> N -> Prop) last k, hcalm P (k last) -> hcalm P (hcapture dbg last k).
Proof. intros dbg A P last k H. unfold hcapture. destruct (dbg && _); [exact I|exact H]. Qed.
Lemma hcalm_file : forall dbg A (P : A -> N -> Prop) p a s f bad body, (forall e, e <> 0 -> hcalm P (bad e)) -> (forall h, hcalm P (body h)) ->
  hcalm P (with_file dbg p a s f bad body).
Proof.
  intros dbg A P p a s f bad body Hb Hy. unfold with_file. cbn [hcalm reasoned hanswer]. intros [last|h] [Hr _].
  - apply hcalm_capture. cbn in Hr. rewrite (proj2 (N.eqb_neq _ _) Hr). apply Hb. exact Hr.
  - apply hcalm_scope, Hy.
Qed.

Lemma hagree_calm : forall A (F : A -> Prop) p q, hagree F p q -> hcalm (fun a e => e = 0 \/ F a /\ e <> 0) p.
Proof. intros A F p q H. induction H as [v|v c HF Hc|r Hr|c k k' H IH]; cbn; auto. destruct r as [[a e|c|]| | |]; auto; contradiction. Qed.
Lemma hagree_same : forall A (F : A -> Prop) p, hcalm (fun _ e => e = 0) p -> hagree F p p.
Proof.
  intros A F p H. induction p as [r|c k IH]; cbn in *.
  - destruct r as [[a e|c|]| | |]; try contradiction; [subst e; constructor|..]; constructor; exact I.
  - constructor. auto.
Qed.
Lemma hagree_mono : forall A (F G : A -> Prop) p q, hagree F p q -> (forall v, F v -> G v) -> hagree G p q.
Proof. intros A F G p q H HG. induction H; constructor; auto. Qed.
(** The first part is the same in both. *)
Lemma hagree_after : forall A B (P : A -> N -> Prop) (F : B -> Prop) p (f g : A -> N -> hprog B),
  hcalm P p -> (forall a e, P a e -> hagree F (f a e) (g a e)) -> hagree F (hbind p f) (hbind p g).
Proof.
  intros A B P F p f g H Hf. induction p as [r|c k IH]; cbn in *; [|constructor; auto].
  destruct r as [[a e|c|]| | |]; cbn; auto; try contradiction; constructor; exact I.
Qed.
Lemma hagree_bind : forall A B (F : A -> Prop) (G : B -> Prop) p q (f g : A -> N -> hprog B),
  hagree F p q -> (forall a, hagree G (f a 0) (g a 0)) -> (forall v c, F v -> c <> 0 -> exists w, G w /\ f v c = hret w c) ->
  hagree G (hbind p f) (hbind q g).
Proof.
  intros A B F G p q f g H H0 H1. induction H as [v|v c HF Hc|r Hr|c k k' H IH]; cbn; auto.
  - destruct (H1 v c HF Hc) as (w & Hw & ->). constructor; auto.
  - destruct r as [[a e|c|]| | |]; try contradiction; constructor; exact I.
  - constructor. auto.
Qed.
Lemma hagree_lift : forall A B (F : B -> Prop) (x : out A) (f g : A -> hprog B), (forall a, hagree F (f a) (g a)) -> hagree F (hlift x f) (hlift x g).
Proof. intros A B F [] f g H; cbn; auto; constructor; exact I. Qed.
Lemma hagree_scope : forall A (F : A -> Prop) c p q, hagree F p q -> hagree F (hscope c p) (hscope c q).
Proof.
  intros A F c p q H. induction H as [v|v x HF Hc|r Hr|c' k k' H IH]; cbn.
  - constructor. intros _ _. constructor.
  - constructor. intros _ _. constructor; auto.
  - destruct r as [[a e|x|]| | |]; try contradiction; cbn; [constructor; exact I|constructor; intros _ _|..]; constructor; exact I.
  - constructor. auto.
Qed.
Lemma hagree_capture : forall dbg A (F : A -> Prop) last k k', hagree F (k last) (k' last) -> hagree F (hcapture dbg last k) (hcapture dbg last k').
Proof. intros dbg A F last k k' H. unfold hcapture. destruct (dbg && _); [constructor; exact I|exact H]. Qed.
Lemma hagree_report : forall A (F : A -> Prop) (v : A) c, F v -> c <> 0 -> hagree F (hbad true v c) (hbad false v c).
Proof. intros. unfold hbad, wreport. constructor; auto. Qed.
Lemma hagree_fail : forall dbg A (F : A -> Prop) (v : A) c, F v -> c <> 0 -> hagree F (hfail dbg true v c) (hfail dbg false v c).
Proof. intros. unfold hfail. apply hagree_capture, hagree_report; auto. Qed.
Lemma hagree_ret : forall A (F : A -> Prop) (v : A), hagree F (hret v 0) (hret v 0).
Proof. intros. constructor. Qed.
Lemma hagree_file : forall dbg A (F : A -> Prop) p a s f bad bad' body body', (forall e, e <> 0 -> hagree F (bad e) (bad' e)) -> (forall h, hagree F (body h) (body' h)) ->
  hagree F (with_file dbg p a s f bad body) (with_file dbg p a s f bad' body').
Proof.
  intros dbg A F p a s f bad bad' body body' Hb Hy. unfold with_file. constructor. intros [last|h] [Hr _].
  - apply hagree_capture. cbn in Hr. rewrite (proj2 (N.eqb_neq _ _) Hr). apply Hb. exact Hr.
  - apply hagree_scope, Hy.
Qed.
(** Things are given back when an exception passes, or before returning the code. *)
Lemma hagree_calls : forall A (F : A -> Prop) cs v c, F v -> c <> 0 -> hagree F (hcalls cs (WE (WRet v c))) (hcalls cs (WE (WThrow c))).
Proof. intros A F cs v c HF Hc. induction cs as [|x cs IH]; cbn; constructor; auto. Qed.
Lemma hagree_give_back : forall A B (F : B -> Prop) cs (v : B) c (q : wend A) (g : A -> N -> hprog B), F v -> c <> 0 -> q = WE (WThrow c) ->
  hagree F (hbind (hcalls cs (WE (WRet tt 0))) (fun _ _ => hret v c)) (hbind (hcalls cs q) g).
Proof. intros A B F cs v c q g HF Hc ->. induction cs as [|x cs IH]; cbn; constructor; auto. Qed.
Lemma hagree_unwind : forall A B (F : A -> Prop) (G : B -> Prop) cs p q (f g : A -> N -> hprog B),
  hagree F p q -> (forall a, hagree G (f a 0) (g a 0)) ->
  (forall v c, F v -> c <> 0 -> exists w, G w /\ f v c = hbind (hcalls cs (WE (WRet tt 0))) (fun _ _ => hret w c)) ->
  hagree G (hbind (hunwind cs p) f) (hbind (hunwind cs q) g).
Proof.
  intros A B F G cs p q f g H H0 H1. induction H as [v|v c HF Hc|r Hr|c k k' H IH]; cbn [hunwind throws]; auto.
  - apply H0.
  - destruct (H1 v c HF Hc) as (w & Hw & He). cbn [hbind]. rewrite He. apply hagree_give_back; auto.
  - destruct r as [[a e|c|]| | |]; try contradiction; cbn [throws]; try (constructor; exact I).
    induction cs as [|x cs IH]; cbn; [constructor; exact I|]. constructor. intros _ _.
    clear H1. clear IH. induction cs as [|x' cs IH]; cbn; [constructor; exact I|]. constructor. intros _ _. exact IH.
  - constructor. intros r Hr. apply IH. exact Hr.
Qed.


(** The same for the operations without handles. *)
Lemma hcalm_wbind : forall A B (P : A -> N -> Prop) (Q : B -> N -> Prop) p (f : A -> N -> wprog B),
  hcalm P (hplain p) -> (forall a e, P a e -> hcalm Q (hplain (f a e))) -> hcalm Q (hplain (wbind p f)).
Proof. intros A B P Q p f H Hf. induction p as [r|c k IH]; cbn in *; [destruct r as [[a e|c|]| | |]; cbn; auto|]. intros r Hr. apply IH. apply H. exact Hr. Qed.
Lemma hcalm_wlift : forall A B (P : B -> N -> Prop) (x : out A) (f : A -> wprog B), (forall a, hcalm P (hplain (f a))) -> hcalm P (hplain (wlift x f)).
Proof. intros A B P [] f H; cbn; auto. Qed.
Lemma hagree_wafter : forall A B (P : A -> N -> Prop) (F : B -> Prop) p (f g : A -> N -> wprog B),
  hcalm P (hplain p) -> (forall a e, P a e -> hagree F (hplain (f a e)) (hplain (g a e))) -> hagree F (hplain (wbind p f)) (hplain (wbind p g)).
Proof.
  intros A B P F p f g H Hf. induction p as [r|c k IH]; cbn in *.
  - destruct r as [[a e|c|]| | |]; cbn; auto; try contradiction; constructor; exact I.
  - constructor. intros r Hr. apply IH. apply H. exact Hr.
Qed.
Lemma hagree_wbind : forall A B (F : A -> Prop) (G : B -> Prop) p q (f g : A -> N -> wprog B),
  hagree F (hplain p) (hplain q) -> (forall a, hagree G (hplain (f a 0)) (hplain (g a 0))) ->
  (forall v c, F v -> c <> 0 -> exists w, G w /\ f v c = wret w c) -> hagree G (hplain (wbind p f)) (hplain (wbind q g)).
Proof.
  intros A B F G p q f g H H0 H1. remember (hplain p) as p' eqn:Ep. remember (hplain q) as q' eqn:Eq. revert p q Ep Eq.
  induction H as [v|v c HF Hc|r Hr|c k k' H IH]; intros p q Ep Eq.
  - destruct p as [rp|]; [|discriminate]. destruct q as [rq|]; [|discriminate]. injection Ep as <-. injection Eq as <-. apply H0.
  - destruct p as [rp|]; [|discriminate]. destruct q as [rq|]; [|discriminate]. injection Ep as <-. injection Eq as <-.
    destruct (H1 v c HF Hc) as (w & Hw & He). cbn [wbind]. rewrite He. constructor; auto.
  - destruct p as [rp|]; [|discriminate]. destruct q as [rq|]; [|discriminate]. injection Ep as <-. injection Eq as <-.
    destruct r as [[a e|c|]| | |]; try contradiction; constructor; exact I.
  - destruct p as [|cp kp]; [discriminate|]. destruct q as [|cq kq]; [discriminate|]. cbn [hplain] in Ep, Eq.
    assert (Ec : c = h_Plain cp) by (injection Ep; auto). subst c. assert (Ec : cq = cp) by (injection Eq; auto). subst cq.
    assert (Ek : k = fun r => hplain (kp r)) by (injection Ep as Ep; apply Eqdep_dec.inj_pair2_eq_dec in Ep; [exact Ep|repeat decide equality]).
    assert (Ek' : k' = fun r => hplain (kq r)) by (injection Eq as Eq; apply Eqdep_dec.inj_pair2_eq_dec in Eq; [exact Eq|repeat decide equality]).
    subst k k'. cbn [wbind hplain]. constructor. intros r Hr. apply IH with (r := r); auto.
Qed.
Lemma hagree_wlift : forall A B (F : B -> Prop) (x : out A) (f g : A -> wprog B), (forall a, hagree F (hplain (f a)) (hplain (g a))) ->
  hagree F (hplain (wlift x f)) (hplain (wlift x g)).
Proof. intros A B F [] f g H; cbn; auto; constructor; exact I. Qed.
Lemma hagree_wfail : forall dbg A (F : A -> Prop) (v : A) c, F v -> c <> 0 -> hagree F (hplain (wfail dbg true v c)) (hplain (wfail dbg false v c)).
Proof. intros. unfold wfail, wcapture. destruct (dbg && _); cbn; [apply ha_end; exact I|]. constructor; auto. Qed.
Lemma hagree_wbad : forall A (F : A -> Prop) (v : A) c, F v -> c <> 0 -> hagree F (hplain (wbad true v c)) (hplain (wbad false v c)).
Proof. intros. constructor; auto. Qed.
Lemma hagree_wret : forall A (F : A -> Prop) (v : A), hagree F (hplain (wret v 0)) (hplain (wret v 0)).
Proof. intros. constructor. Qed.

Section Agree.
Variable dbg : bool.
Variable E : elision.
Variable m : signed_mode.
Variable tps : Z.
Variable narrow : str -> option str.

Definition any_code {A} (_ : A) (_ : N) : Prop := True.
(** What status and symlink_status with an error_code promise: no type, but a code. *)
Definition known_or_told (st : wstatus) (e : N) : Prop := wknown st = false -> e <> 0.

Lemma calm_failure : forall e, e <> 0 -> hcalm known_or_told (HEnd (WE (ProcessStatusFailure true e))).
Proof.
  intros e He. unfold ProcessStatusFailure. rewrite (proj2 (N.eqb_neq _ _) He). destruct (IsNotFoundError e); [discriminate|].
  destruct (e =? ERROR_SHARING_VIOLATION); [discriminate|]. intros _. destruct (e =? ERROR_ACCESS_DENIED); [discriminate|exact He].
Qed.
Lemma calm_step : forall d t attr prms k, (forall x, hcalm any_code (k x)) -> hcalm any_code (hpermission_step dbg true d t attr prms k).
Proof.
  intros d t attr prms k H. unfold hpermission_step. cbn [hcalm reasoned hanswer]. intros r _. unfold GetTrusteePermissions. cbn [s_rights].
  assert (HP : forall e, hcalm any_code (HEnd (WE (ProcessPermissionsFailure true e)))).
  { intros e. unfold ProcessPermissionsFailure. destruct (IsNotFoundError e); [exact I|]. destruct (e =? _); exact I. }
  destruct r as [[ret last]|mask].
  - destruct (ret =? _); [apply HP|]. unfold wcapture. destruct (dbg && _); [exact I|]. destruct (last =? 0); [apply H|apply HP].
  - destruct (trustee_permissions t mask attr); cbn [N.eqb]; [apply H|exact I..].
Qed.
Lemma calm_get_permissions : forall p attr, hcalm any_code (hGetPermissions dbg true p attr).
Proof.
  intros p attr. unfold hGetPermissions. cbn [hcalm reasoned hanswer]. intros [last|d] [Hr _].
  - apply hcalm_capture. exact I.
  - apply hcalm_scope, calm_step. intros p1. intros [|] _; repeat (apply calm_step; intros); exact I.
Qed.
Lemma calm_with_permissions : forall p attr k, (forall x, hcalm known_or_told (k x)) -> hcalm known_or_told (hwith_permissions dbg true p attr k).
Proof.
  intros p attr k H. unfold hwith_permissions. apply hcalm_bind with (P := any_code); [apply calm_get_permissions|]. intros prms e _.
  destruct (e =? 0) eqn:He; [apply H|]. apply calm_failure. apply N.eqb_neq. exact He.
Qed.
Lemma known_kind : forall attr prms e, known_or_told (directory_or_regular attr, prms) e.
Proof. intros attr prms e. unfold known_or_told, directory_or_regular. destruct (has_attr _ _); discriminate. Qed.
Lemma calm_status : forall p, hcalm known_or_told (hstatus dbg true p).
Proof.
  intros p. unfold hstatus. cbn [hcalm reasoned hanswer wreasoned]. intros [last|attrs] [Hr _].
  - apply hcalm_capture, calm_failure. exact Hr.
  - apply hcalm_bind with (P := fun (r : N + N) (_ : N) => match r with inl e => e <> 0 | inr _ => True end).
    + destruct (has_attr _ _); [|exact I]. apply hcalm_file; [intros e He; exact He|]. intros h [last|a] [Hl _]; [|exact I]. apply hcalm_capture. exact Hl.
    + intros [e|attr] e0 He; [apply calm_failure; exact He|]. apply calm_with_permissions. intros x. apply known_kind.
Qed.
Lemma agree_is_symlink : forall p, hagree (eq false) (hIsReparsePointSymlink dbg true p) (hIsReparsePointSymlink dbg false p).
Proof.
  intros p. apply hagree_file; [intros e He; apply hagree_report; auto|]. intros h. constructor. intros [last|d] [Hr _]; [|apply hagree_ret].
  apply hagree_fail; auto.
Qed.
Lemma calm_symlink_status : forall p, hcalm known_or_told (hsymlink_status dbg true p).
Proof.
  intros p. unfold hsymlink_status. cbn [hcalm reasoned hanswer wreasoned]. intros [last|attr] [Hr _].
  - apply hcalm_capture, calm_failure. exact Hr.
  - apply calm_with_permissions. intros x. destruct (has_attr _ _); [|apply known_kind].
    eapply hcalm_bind; [exact (hagree_calm _ _ _ _ (agree_is_symlink p))|]. intros [|] e _; discriminate.
Qed.
(** A choice between the two. *)
Lemma calm_either : forall (b : bool) (p : path), hcalm known_or_told (if b then hsymlink_status dbg true p else hstatus dbg true p).
Proof. intros [|] p; [apply calm_symlink_status|apply calm_status]. Qed.

Lemma agree_set_permissions : forall p prms, hagree (fun _ => True) (hSetPermissions dbg true p prms) (hSetPermissions dbg false p prms).
Proof.
  intros p prms. unfold hSetPermissions. constructor. intros [code|d] [Hr _]; [apply hagree_report; auto|]. apply hagree_scope. constructor. intros same _.
  cbv zeta. generalize (rev (explicit_entries 0 (if same then 0 else 1) prms)), (@nil N). intros todo.
  induction todo as [|x todo IH]; intros blocks; cbn [hmake_aces].
  - constructor. intros [code|acl] [Ha _]; [apply hagree_report; auto|]. apply hagree_scope. constructor. intros [code|u] [Hs _]; [apply hagree_report; auto|apply hagree_ret].
  - constructor. intros [last|b] [Hb _]; [apply hagree_fail; auto|]. apply hagree_scope. apply IH.
Qed.
Lemma agree_permissions : forall p prms opts, hagree (fun _ => True) (hpermissions dbg true p prms opts) (hpermissions dbg false p prms opts).
Proof.
  intros p prms opts. unfold hpermissions. cbv zeta. destruct (dbg && _); [apply ha_end; exact I|].
  apply hagree_after with (P := fun (r : N + N) (_ : N) => match r with inl e => e <> 0 | inr _ => True end).
  - destruct (_ || _); [|exact I]. apply hcalm_bind with (P := known_or_told); [apply calm_either|]. intros st e _.
    destruct (e =? 0) eqn:He; cbn [negb]; [|apply N.eqb_neq; exact He]. destruct (dbg && _); [exact I|].
    repeat match goal with |- context [if ?b then _ else _] => destruct b end; exact I.
  - intros [e|prms'] e0 He; [apply hagree_report; auto|].
    eapply hagree_after; [exact (hagree_calm _ _ _ _ (agree_set_permissions p prms'))|]. intros u e _.
    destruct (e =? 0) eqn:He1; cbn [negb]; [apply hagree_ret|apply hagree_report; [exact I|apply N.eqb_neq; exact He1]].
Qed.
Lemma agree_read_symlink : forall p, hagree (eq path_default) (hread_symlink dbg true p) (hread_symlink dbg false p).
Proof.
  intros p. apply hagree_file; [intros e He; apply hagree_report; auto|]. intros h. constructor. intros [last|d] [Hr _]; [|apply hagree_ret].
  apply hagree_fail; auto.
Qed.
Lemma agree_equivalent : forall p q, hagree (eq false) (hequivalent dbg true p q) (hequivalent dbg false p q).
Proof.
  intros p q. apply hagree_file; [intros e He; apply hagree_report; auto|]. intros h1. apply hagree_file; [intros e He; apply hagree_report; auto|]. intros h2.
  destruct h1 as [h1|], h2 as [h2|]; try apply hagree_ret; [|apply hagree_report; [reflexivity|discriminate]].
  constructor. intros [last|[a x]] [Hr _]; [apply hagree_fail; auto|]. constructor. intros [last|[b y]] [Hr2 _]; [apply hagree_fail; auto|apply hagree_ret].
Qed.
Lemma agree_hard_link_count : forall p, hagree (eq umax) (hhard_link_count dbg true p) (hhard_link_count dbg false p).
Proof.
  intros p. apply hagree_file; [intros e He; apply hagree_report; auto|]. intros h. constructor. intros [last|[i a]] [Hr _]; [|apply hagree_ret].
  apply hagree_fail; auto.
Qed.
Lemma agree_last_write_time : forall p, hagree (eq i64_min) (hlast_write_time dbg m tps true p) (hlast_write_time dbg m tps false p).
Proof.
  intros p. apply hagree_file; [intros e He; apply hagree_report; auto|]. intros h. constructor. intros [last|q] [Hr _]; [apply hagree_fail; auto|].
  apply hagree_lift. intros t. apply hagree_ret.
Qed.
Lemma agree_set_last_write_time : forall p t, hagree (fun _ => True) (hset_last_write_time dbg m tps true p t) (hset_last_write_time dbg m tps false p t).
Proof.
  intros p t. apply hagree_file; [intros e He; apply hagree_report; auto|]. intros h. apply hagree_lift. intros [q|]; [|apply hagree_report; [exact I|discriminate]].
  constructor. intros [last|u] [Hr _]; [apply hagree_fail; auto|apply hagree_ret].
Qed.
Lemma agree_resize_file : forall p size, hagree (fun _ => True) (hresize_file dbg true p size) (hresize_file dbg false p size).
Proof.
  intros p size. apply hagree_file; [intros e He; apply hagree_report; auto|]. intros h. constructor. intros [last|u] [Hr _]; [apply hagree_fail; auto|].
  constructor. intros [last|v] [Hr2 _]; [apply hagree_fail; auto|apply hagree_ret].
Qed.

Lemma agree_create_directory : forall p, hagree (eq false) (hplain (wcreate_directory dbg true p)) (hplain (wcreate_directory dbg false p)).
Proof.
  intros p. apply ha_sys. intros [e|u] [Hr _]; [|apply hagree_wret]. destruct (negb _); [apply hagree_wfail; auto|apply hagree_wret].
Qed.
Lemma agree_create_directory_like : forall p q, hagree (eq true) (hplain (wcreate_directory_like dbg true p q)) (hplain (wcreate_directory_like dbg false p q)).
Proof.
  intros p q. apply ha_sys. intros [e|u] [Hr _]; [|apply hagree_wret]. destruct (negb _); [apply hagree_wfail; auto|apply hagree_wret].
Qed.
Lemma agree_simple : forall r, given r -> hagree (fun _ => True) (hplain (wsimple dbg true r)) (hplain (wsimple dbg false r)).
Proof. intros [e|u] H; [apply hagree_wfail; auto|apply hagree_wret]. Qed.
Lemma agree_create_symlink : forall p q, hagree (fun _ => True) (hplain (wcreate_symlink dbg true p q)) (hplain (wcreate_symlink dbg false p q)).
Proof. intros. apply ha_sys. intros r [Hr _]. apply agree_simple. exact Hr. Qed.
Lemma agree_create_directory_symlink : forall p q, hagree (fun _ => True) (hplain (wcreate_directory_symlink dbg true p q)) (hplain (wcreate_directory_symlink dbg false p q)).
Proof. intros. apply ha_sys. intros r [Hr _]. apply agree_simple. exact Hr. Qed.
Lemma agree_create_hard_link : forall p q, hagree (fun _ => True) (hplain (wcreate_hard_link dbg true p q)) (hplain (wcreate_hard_link dbg false p q)).
Proof. intros. apply ha_sys. intros r [Hr _]. apply agree_simple. exact Hr. Qed.
Lemma agree_set_current_path : forall p, hagree (fun _ => True) (hplain (wset_current_path dbg true p)) (hplain (wset_current_path dbg false p)).
Proof. intros. apply ha_sys. intros r [Hr _]. apply agree_simple. exact Hr. Qed.
Lemma agree_rename : forall p q, hagree (fun _ => True) (hplain (wrename dbg true p q)) (hplain (wrename dbg false p q)).
Proof. intros. apply ha_sys. intros r [Hr _]. apply agree_simple. exact Hr. Qed.
Lemma agree_current_path : hagree (eq path_default) (hplain (wcurrent_path dbg true)) (hplain (wcurrent_path dbg false)).
Proof. apply ha_sys. intros [e|t] [Hr _]; [apply hagree_wfail; auto|apply hagree_wret]. Qed.
Lemma agree_absolute : forall p, hagree (eq path_default) (hplain (wabsolute dbg E true p)) (hplain (wabsolute dbg E false p)).
Proof.
  intros p. unfold wabsolute. destruct (_ && _); [apply hagree_wret|]. eapply hagree_wbind; [apply agree_current_path|..].
  - intros a. apply hagree_wlift. intros q. apply hagree_wret.
  - intros v c _ Hc. exists path_default. rewrite (proj2 (N.eqb_neq _ _) Hc). auto.
Qed.
Lemma agree_file_size : forall p, hagree (eq umax) (hplain (wfile_size dbg true p)) (hplain (wfile_size dbg false p)).
Proof.
  intros p. apply ha_sys. intros [e|[attrs size]] [Hr _]; [apply hagree_wfail; auto|]. destruct (has_attr _ _); [apply hagree_wbad; [reflexivity|discriminate]|apply hagree_wret].
Qed.
Lemma agree_remove : forall p, hagree (eq false) (hplain (wremove dbg true p)) (hplain (wremove dbg false p)).
Proof.
  intros p. unfold wremove. destruct (empty p); [apply hagree_wret|]. apply ha_sys. intros [e|attrs] [Hr _].
  - destruct (e =? _); [apply hagree_wret|apply hagree_wfail; auto].
  - cbv zeta. destruct (has_attr _ _); apply ha_sys; intros [e|u] [Hr2 _]; try apply hagree_wret; (destruct (negb _); [apply hagree_wfail; auto|apply hagree_wret]).
Qed.
Lemma agree_copy_symlink : forall p q, hagree (fun _ => True) (hcopy_symlink dbg true p q) (hcopy_symlink dbg false p q).
Proof.
  intros p q. unfold hcopy_symlink. eapply hagree_after; [exact (hagree_calm _ _ _ _ (agree_read_symlink p))|]. intros real e _.
  destruct (e =? 0) eqn:He; cbn [negb]; [|apply hagree_report; [exact I|apply N.eqb_neq; exact He]]. cbv zeta.
  apply hagree_after with (P := known_or_told); [apply calm_status|]. intros st e2 _.
  destruct (e2 =? 0) eqn:He2; cbn [negb]; [|apply hagree_report; [exact I|apply N.eqb_neq; exact He2]].
  destruct (wis _ _); [apply agree_create_directory_symlink|apply agree_create_symlink].
Qed.
Lemma agree_copy_file : forall p q o, hagree (eq false) (hcopy_file dbg m tps true p q o) (hcopy_file dbg m tps false p q o).
Proof.
  intros p q o. unfold hcopy_file. apply hagree_after with (P := known_or_told); [apply calm_status|]. intros st1 e1 _.
  destruct (e1 =? 0) eqn:He1; cbn [negb]; [|apply hagree_report; [reflexivity|apply N.eqb_neq; exact He1]].
  destruct (negb (wis _ _)); [apply hagree_report; [reflexivity|discriminate]|].
  apply hagree_after with (P := known_or_told); [apply calm_status|]. intros st2 e2 Hk.
  destruct (wknown st2) eqn:Hw; cbn [negb]; [|apply hagree_report; [reflexivity|exact (Hk Hw)]]. cbv zeta.
  destruct (_ && negb _); [apply hagree_report; [reflexivity|discriminate]|].
  apply hagree_after with (P := any_code).
  { destruct (wexists _); [|exact I]. eapply hcalm_mono; [exact (hagree_calm _ _ _ _ (agree_equivalent p q))|]. intros; exact I. }
  intros same e3 _. destruct same; [apply hagree_report; [reflexivity|destruct (negb _); discriminate]|].
  destruct (_ && _); [apply hagree_ret|].
  assert (Hc : hagree (eq false)
    (HSys (h_Plain (w_CopyFile (native p) (native q) false)) (fun r : N + unit => match r with inr _ => hret true 0 | inl e => hfail dbg true false e end))
    (HSys (h_Plain (w_CopyFile (native p) (native q) false)) (fun r : N + unit => match r with inr _ => hret true 0 | inl e => hfail dbg false false e end))).
  { apply ha_sys. intros [e|u] [Hr _]; [apply hagree_fail; auto|apply hagree_ret]. }
  destruct (_ && _).
  - eapply hagree_after; [exact (hagree_calm _ _ _ _ (agree_last_write_time p))|]. intros t1 e4 _.
    destruct (e4 =? 0) eqn:He4; cbn [negb]; [|apply hagree_report; [reflexivity|apply N.eqb_neq; exact He4]].
    eapply hagree_after; [exact (hagree_calm _ _ _ _ (agree_last_write_time q))|]. intros t2 e5 _.
    destruct (e5 =? 0) eqn:He5; cbn [negb]; [|apply hagree_report; [reflexivity|apply N.eqb_neq; exact He5]].
    destruct (_ <=? _)%Z; [exact Hc|apply hagree_ret].
  - destruct (_ || _); [exact Hc|apply hagree_report; [reflexivity|discriminate]].
Qed.

(** Directory streams. *)
Lemma calm_fill : forall s d, hcalm (fun s' e => e = 0 /\ hs_handle s' = hs_handle s) (hfill E narrow s d).
Proof. intros s d. unfold hfill. destruct (narrow _); [|exact I]. apply hcalm_lift. intros q. split; reflexivity. Qed.
Lemma calm_skip : forall n h d, hcalm any_code (hskip n h d).
Proof.
  induction n as [|n IH]; intros h d; [exact I|]. cbn [hskip]. destruct (is_dots d); [|exact I]. intros [last|d'] _; [exact I|apply IH].
Qed.
Lemma calm_stream_open : forall n skip p, hcalm (fun s e => hs_handle s <> None -> e = 0) (hstream_open E narrow n skip p).
Proof.
  intros n skip p. unfold hstream_open. cbv zeta. intros [last|[h d]] _; [intros H; contradiction H; reflexivity|].
  apply hcalm_bind with (P := any_code); [apply calm_skip|]. intros [x|d'] e _.
  - intros r _ H. contradiction H. reflexivity.
  - eapply hcalm_mono; [apply calm_fill|]. intros s' e' [He _] _. exact He.
Qed.
Lemma calm_advance : forall n s, hcalm any_code (hadvance E narrow n s).
Proof.
  induction n as [|n IH]; intros s; [exact I|]. cbn [hadvance]. intros [last|d] _; [intros r _; exact I|].
  destruct (is_dots d); [apply IH|]. eapply hcalm_bind; [apply calm_fill|]. intros; exact I.
Qed.
Lemma calm_destroy : forall s, hcalm any_code (hdestroy s).
Proof. intros s. apply hcalm_calls. exact I. Qed.
Lemma agree_iter_new : forall n p skip, hagree (eq None) (hiter_new E narrow n true p skip) (hiter_new E narrow n false p skip).
Proof.
  intros n p skip. unfold hiter_new. eapply hagree_after; [apply calm_stream_open|]. intros s e He. cbv beta in He. destruct (hs_handle s) as [h|] eqn:Hh.
  - rewrite He by congruence. apply hagree_ret.
  - destruct (e =? 0) eqn:H0; [apply hagree_ret|apply hagree_report; [reflexivity|apply N.eqb_neq; exact H0]].
Qed.
Lemma agree_iter_increment : forall n it, hagree (eq None) (hiter_increment E narrow n true it) (hiter_increment E narrow n false it).
Proof.
  intros n [s|]; cbn [hiter_increment]; [|apply hagree_report; [reflexivity|discriminate]].
  eapply hagree_after; [apply calm_advance|]. intros [found s'] e _. destruct found; [apply hagree_ret|].
  eapply hagree_after; [apply calm_destroy|]. intros _ _ _. destruct (e =? 0) eqn:H0; [apply hagree_ret|apply hagree_report; [reflexivity|apply N.eqb_neq; exact H0]].
Qed.
Lemma agree_is_empty : forall n p, hagree (eq false) (his_empty dbg E narrow n true p) (his_empty dbg E narrow n false p).
Proof.
  intros n p. apply ha_sys. intros [last|[attrs size]] [Hr _]; [apply hagree_fail; auto|]. destruct (has_attr _ _); [|apply hagree_ret].
  eapply hagree_bind; [apply agree_iter_new|..].
  - intros it. cbn [N.eqb negb]. eapply hagree_after; [apply hcalm_calls with (P := any_code); exact I|]. intros _ _ _. apply hagree_ret.
  - intros it c <- Hc. exists false. cbn. rewrite (proj2 (N.eqb_neq _ _) Hc). auto.
Qed.
Lemma calm_any : forall A (P : A -> N -> Prop) p, hcalm P p -> hcalm any_code p.
Proof. intros A P p H. eapply hcalm_mono; [exact H|]. intros; exact I. Qed.
Lemma calm_remove_entries : forall (f : path -> hprog N), (forall p, hcalm any_code (f p)) ->
  forall k n it ec count, hcalm any_code (hremove_entries E narrow f k n it ec count).
Proof.
  intros f Hf. induction k as [|k IH]; intros n it ec count; [exact I|]. cbn [hremove_entries]. destruct it as [s|]; [|exact I]. destruct (negb _).
  - eapply hcalm_bind; [apply calm_destroy|]. intros; exact I.
  - eapply hcalm_bind; [apply hcalm_unwind, Hf|]. intros c e _. destruct (negb _).
    + eapply hcalm_bind; [apply calm_destroy|]. intros; exact I.
    + eapply hcalm_bind; [apply hcalm_unwind; exact (hagree_calm _ _ _ _ (agree_iter_increment n (Some s)))|]. intros it' e' _. apply IH.
Qed.
Lemma calm_do_remove_all : forall n p, hcalm any_code (hdo_remove_all dbg E narrow n p).
Proof.
  induction n as [|n IH]; intros p; [exact I|]. cbn [hdo_remove_all]. eapply hcalm_bind; [apply calm_symlink_status|]. intros st e _.
  destruct (negb _); [exact I|]. cbv zeta.
  assert (Hfin : forall count, hcalm any_code (hbind (hplain (wremove dbg true p)) (fun b e2 => if b then hret count e2 else hret umax e2))).
  { intros count. eapply hcalm_bind; [exact (hagree_calm _ _ _ _ (agree_remove p))|]. intros [|] e2 _; exact I. }
  destruct (wis _ _); [|apply Hfin]. eapply hcalm_bind; [exact (hagree_calm _ _ _ _ (agree_iter_new n p false))|]. intros it ec _.
  eapply hcalm_bind; [apply calm_remove_entries; exact IH|]. intros [count|] e1 _; [|exact I]. destruct (negb _); [exact I|apply Hfin].
Qed.
Lemma agree_remove_all : forall n p, hagree (eq umax) (hremove_all dbg E narrow n true p) (hremove_all dbg E narrow n false p).
Proof.
  intros n p. unfold hremove_all. destruct (empty p); [apply hagree_ret|]. eapply hagree_after; [apply calm_do_remove_all|]. intros count e _.
  destruct (e =? 0) eqn:He; cbn [negb]; [apply hagree_ret|]. destruct (e =? errc_no_such_file_or_directory); [apply hagree_ret|apply hagree_report; [reflexivity|apply N.eqb_neq; exact He]].
Qed.
Lemma agree_copy_entries : forall f g : path -> path -> hprog unit, (forall a b, hagree (fun _ => True) (f a b) (g a b)) ->
  forall k n to it e, hagree (fun _ => True) (hcopy_entries E narrow f k n true to it e) (hcopy_entries E narrow g k n false to it e).
Proof.
  intros f g Hfg. induction k as [|k IH]; intros n to it e; [apply ha_end; exact I|]. cbn [hcopy_entries]. destruct it as [s|]; [|apply hagree_ret].
  destruct (e =? 0) eqn:He; cbn [negb].
  - eapply hagree_unwind.
    + apply hagree_lift. intros fn. apply hagree_lift. intros b. apply Hfg.
    + intros u. cbn [N.eqb negb]. eapply hagree_after; [apply hcalm_unwind; exact (hagree_calm _ _ _ _ (agree_iter_increment n (Some s)))|].
      intros it' e' _. apply IH.
    + intros u c _ Hc. exists tt. rewrite (proj2 (N.eqb_neq _ _) Hc). auto.
  - eapply hagree_after; [apply calm_destroy|]. intros _ _ _. apply hagree_report; [exact I|apply N.eqb_neq; exact He].
Qed.
Lemma agree_copy : forall n p q o, hagree (fun _ => True) (hcopy dbg E m tps narrow n true p q o) (hcopy dbg E m tps narrow n false p q o).
Proof.
  induction n as [|n IH]; intros p q o; [apply ha_end; exact I|]. cbn [hcopy]. cbv zeta.
  apply hagree_after with (P := known_or_told); [apply calm_either|]. intros f e1 _.
  destruct (e1 =? 0) eqn:He1; cbn [negb]; [|apply hagree_report; [exact I|apply N.eqb_neq; exact He1]].
  apply hagree_after with (P := known_or_told); [apply calm_either|]. intros t e2 Hk.
  destruct (wknown t) eqn:Hw; cbn [negb]; [|apply hagree_report; [exact I|exact (Hk Hw)]].
  destruct (_ || (wis ft_directory f && wis ft_regular t)); [apply hagree_report; [exact I|discriminate]|].
  apply hagree_after with (P := any_code).
  { destruct (_ && _); [|exact I]. eapply calm_any. exact (hagree_calm _ _ _ _ (agree_equivalent p q)). }
  intros same e3 _. destruct (e3 =? 0) eqn:He3; cbn [negb]; [|apply hagree_report; [exact I|apply N.eqb_neq; exact He3]].
  destruct same; [apply hagree_report; [exact I|discriminate]|]. destruct (wis ft_symlink f).
  { destruct (wset co_skip_symlinks o); [apply hagree_ret|]. destruct (negb _); [apply agree_copy_symlink|apply hagree_report; [exact I|discriminate]]. }
  assert (Hcf : forall b, hagree (fun _ => True) (hbind (hcopy_file dbg m tps true p b o) (fun _ e => hret tt e)) (hbind (hcopy_file dbg m tps false p b o) (fun _ e => hret tt e))).
  { intros b. eapply hagree_bind; [apply agree_copy_file|intros; apply hagree_ret|]. intros v c _ Hc. exists tt. auto. }
  destruct (wis ft_regular f).
  { destruct (wset co_directories_only o); [apply hagree_ret|]. destruct (wset co_create_symlinks o); [apply agree_create_symlink|].
    destruct (wset co_create_hard_links o); [apply agree_create_hard_link|]. destruct (wis ft_directory t); [|apply Hcf].
    apply hagree_lift. intros fn. apply hagree_lift. intros to2. apply Hcf. }
  destruct (_ && wset co_create_symlinks o); [apply hagree_report; [exact I|discriminate]|]. destruct (_ && _); [|apply hagree_ret].
  apply hagree_bind with (F := eq true).
  - destruct (negb _); [apply agree_create_directory_like|apply hagree_ret].
  - intros u. cbn [N.eqb negb]. eapply hagree_bind; [apply agree_iter_new|..].
    + intros it. cbn [N.eqb negb]. apply agree_copy_entries. intros a b. apply IH.
    + intros it c <- Hc. exists tt. rewrite (proj2 (N.eqb_neq _ _) Hc). auto.
  - intros u c _ Hc. exists tt. rewrite (proj2 (N.eqb_neq _ _) Hc). auto.
Qed.

(** Recursive iterators. *)
Lemma hagree_scopes : forall A (F : A -> Prop) cs p q, hagree F p q -> hagree F (hscopes cs p) (hscopes cs q).
Proof. intros A F cs p q H. unfold hscopes. induction (rev cs) as [|c l IH]; cbn; [exact H|apply hagree_scope; exact IH]. Qed.
Definition at_end (it : hrec) : Prop := hr_stack it = [].
Lemma agree_rec_new : forall n p follow skip, hagree at_end (hrec_new E narrow n true p follow skip) (hrec_new E narrow n false p follow skip).
Proof.
  intros n p follow skip. unfold hrec_new. cbv zeta. eapply hagree_after; [apply calm_stream_open|]. intros s e _.
  destruct (e =? 0) eqn:He; cbn [negb].
  - destruct (hs_handle s); [apply hagree_ret|]. apply hagree_scopes, hagree_ret.
  - apply hagree_scopes, hagree_report; [reflexivity|apply N.eqb_neq; exact He].
Qed.
Lemma calm_advance_stack : forall n l, hcalm any_code (hadvance_stack E narrow n l).
Proof.
  intros n. induction l as [|s l IH]; [exact I|]. cbn [hadvance_stack]. eapply hcalm_bind; [apply calm_advance|]. intros [found s'] e _.
  destruct found; [exact I|]. destruct (negb _); [exact I|]. eapply hcalm_bind; [apply calm_destroy|]. intros _ _ _. exact IH.
Qed.
Lemma agree_rec_advance : forall n it, hagree at_end (hrec_advance E narrow n true it) (hrec_advance E narrow n false it).
Proof.
  intros n it. unfold hrec_advance. destruct (hr_stack it) as [|s l] eqn:Hs; [apply hagree_report; [exact Hs|discriminate]|].
  eapply hagree_after; [apply calm_advance_stack|]. intros l' e _. destruct (e =? 0) eqn:He; cbn [negb]; [apply hagree_ret|].
  apply hagree_after with (P := any_code); [apply hcalm_calls; exact I|]. intros _ _ _. apply hagree_report; [reflexivity|apply N.eqb_neq; exact He].
Qed.
Fixpoint hreturns {A} (P : A -> N -> Prop) (p : hprog A) : Prop :=
  match p with HEnd (WE (WRet a e)) => P a e | HEnd _ => True | HSys c k => forall r, hreturns P (k r) end.
Lemma hreturns_bind : forall A B (P : B -> N -> Prop) (p : hprog A) f, (forall a e, hreturns P (f a e)) -> hreturns P (hbind p f).
Proof. intros A B P p f H. induction p as [r|c k IH]; cbn; [destruct r as [[a e|c|]| | |]; cbn; auto|]. exact IH. Qed.
Lemma hcalm_catch : forall A (P : A -> N -> Prop) p f, hreturns P p -> (forall c, hcalm P (f c)) -> hcalm P (hcatch p f).
Proof. intros A P p f H Hf. induction p as [r|c k IH]; cbn in *; [destruct r as [[a e|c|]| | |]; cbn; auto|]. intros r _. auto. Qed.
Definition told_quietly {A} (u : A * wres unit) : Prop := match snd u with WThrow _ => False | _ => True end.
Lemma calm_update_basic : forall follow p d, hcalm (fun u _ => told_quietly u) (hUpdateBasic dbg true follow p d).
Proof.
  intros follow p d. unfold hUpdateBasic. intros [last|attr] [Hr _]; [apply hcalm_capture; exact I|]. cbv zeta.
  apply hcalm_bind with (P := fun (x : wdata + upd) (_ : N) => match x with inr u => told_quietly u | inl _ => True end).
  - destruct (has_attr _ _); [|exact I]. apply hcalm_catch; [|intros c; exact I]. apply hreturns_bind. intros a e. exact I.
  - intros [d1|u] e0 Hu; [|exact Hu].
    destruct (_ || _); [|exact I]. apply hcalm_file; [intros e He; exact I|]. intros h [last|i] _; [apply hcalm_capture; exact I|].
    destruct (has_attr attr FILE_ATTRIBUTE_REPARSE_POINT); [exact I|]. destruct (has_attr attr FILE_ATTRIBUTE_DIRECTORY); [exact I|]. intros [t last] _.
    cbn [fst snd]. destruct t; try exact I; apply hcalm_capture; destruct (negb _); exact I.
Qed.
Lemma calm_recurses : forall follow s, hcalm any_code (hrecurses dbg follow s).
Proof.
  intros follow s. unfold hrecurses. cbv zeta. destruct follow; [|exact I]. destruct (wd_type_resolved _); [exact I|].
  eapply hcalm_bind; [apply calm_update_basic|]. intros [d u] e Hu. unfold told_quietly in Hu. cbn [snd] in *. destruct u; try contradiction; exact I.
Qed.
Lemma agree_rec_try : forall n it, hagree (fun x => fst x = false /\ at_end (snd x)) (hrec_try dbg E narrow n true it) (hrec_try dbg E narrow n false it).
Proof.
  intros n it. unfold hrec_try. destruct (hr_stack it) as [|top rest] eqn:Hs; [apply hagree_report; [split; [reflexivity|exact Hs]|discriminate]|].
  eapply hagree_after; [apply calm_recurses|]. intros [go top'] e _. cbv zeta.
  set (it' := HRec (top' :: rest) (hr_follow it) (hr_skip it) (hr_recursion it)).
  assert (Hstay : forall x, hagree (fun x : bool * hrec => fst x = false /\ at_end (snd x))
    (if x =? 0 then hret (false, it') 0 else if (x =? errc_permission_denied) && hr_skip it then hret (false, it') 0
     else hbind (hcalls (stack_closing (hr_stack it')) (WE (WRet tt 0))) (fun _ _ => hbad true (false, hrec_end it') x))
    (if x =? 0 then hret (false, it') 0 else if (x =? errc_permission_denied) && hr_skip it then hret (false, it') 0
     else hbind (hcalls (stack_closing (hr_stack it')) (WE (WRet tt 0))) (fun _ _ => hbad false (false, hrec_end it') x))).
  { intros x. destruct (x =? 0) eqn:Hx; [apply hagree_ret|]. destruct (_ && _); [apply hagree_ret|].
    apply hagree_after with (P := any_code); [apply hcalm_calls; exact I|]. intros _ _ _. apply hagree_report; [split; reflexivity|apply N.eqb_neq; exact Hx]. }
  destruct go; [|apply Hstay]. eapply hagree_after; [apply calm_stream_open|]. intros s e1 _. destruct (hs_handle s); [apply hagree_ret|].
  apply hagree_scopes, Hstay.
Qed.
Lemma agree_rec_increment : forall n it, hagree at_end (hrec_increment dbg E narrow n true it) (hrec_increment dbg E narrow n false it).
Proof.
  intros n it. unfold hrec_increment. cbv zeta. destruct (hr_recursion it); [|apply agree_rec_advance].
  eapply hagree_bind; [apply agree_rec_try|..].
  - intros [pushed it']. cbn [N.eqb negb andb]. rewrite orb_false_r. destruct pushed; [apply hagree_ret|apply agree_rec_advance].
  - intros [pushed it'] c [Hp Hend] Hc. cbn [fst snd] in *. subst pushed. exists it'. rewrite (proj2 (N.eqb_neq _ _) Hc). auto.
Qed.
Lemma agree_rec_pop : forall n it, hagree at_end (hrec_pop E narrow n true it) (hrec_pop E narrow n false it).
Proof.
  intros n it. unfold hrec_pop. destruct (hr_stack it) as [|top rest] eqn:Hs; [apply hagree_report; [exact Hs|discriminate]|].
  eapply hagree_after; [apply calm_destroy|]. intros _ _ _. destruct rest; [apply hagree_ret|apply agree_rec_advance].
Qed.

(** status with its calls taken together. *)
Lemma calm_wget : forall sec attr, hcalm any_code (HEnd (WE (GetPermissions dbg true sec attr))).
Proof.
  intros sec attr. unfold GetPermissions. destruct (s_named sec) as [last|u]; [unfold wcapture; destruct (dbg && _); exact I|].
  assert (Hstep : forall t prms k, (forall x, hcalm any_code (HEnd (WE (k x)))) -> hcalm any_code (HEnd (WE (permission_step dbg true sec t attr prms k)))).
  { intros t prms k Hk. unfold permission_step, GetTrusteePermissions.
    assert (HP : forall e, hcalm any_code (HEnd (WE (ProcessPermissionsFailure true e)))).
    { intros e. unfold ProcessPermissionsFailure. destruct (IsNotFoundError e); [exact I|]. destruct (e =? _); exact I. }
    destruct (s_rights sec t) as [[ret last]|mask].
    - destruct (ret =? _); [apply HP|]. unfold wcapture. destruct (dbg && _); [exact I|]. destruct (last =? 0); [apply Hk|apply HP].
    - destruct (trustee_permissions t mask attr); cbn [N.eqb]; [apply Hk|exact I..]. }
  apply Hstep. intros p1. cbv zeta. destruct (s_same sec); repeat (apply Hstep; intros); exact I.
Qed.
Lemma calm_wstatus : forall p, hcalm known_or_told (hplain (wstatus_of dbg true p)).
Proof.
  intros p. unfold wstatus_of. cbn [hplain]. intros i [(H1 & H2 & H3 & _) _]. unfold wstatus_impl.
  assert (Hcap : forall e, e <> 0 -> hcalm known_or_told (HEnd (WE (wcapture dbg e (ProcessStatusFailure true))))).
  { intros e He. unfold wcapture. destruct (dbg && _); [exact I|apply calm_failure; exact He]. }
  assert (Hfin : forall attr, hcalm known_or_told (HEnd (WE (with_permissions dbg true i attr (fun prms => WRet (directory_or_regular attr, prms) 0))))).
  { intros attr. unfold with_permissions. pose proof (calm_wget (w_security i) attr) as Hg. destruct (GetPermissions _ _ _ _) as [prms e|c|]; [|contradiction|exact I].
    destruct (e =? 0) eqn:He; [apply known_kind|apply calm_failure; apply N.eqb_neq; exact He]. }
  destruct (w_attrs i) as [e|attr]; [apply Hcap; exact H1|]. cbv zeta. destruct (has_attr _ _); [|apply Hfin].
  destruct (w_open i) as [e|u]; [apply Hcap; exact H2|]. destruct (w_handle_attrs i) as [e|a]; [apply Hcap; exact H3|apply Hfin].
Qed.
Lemma calm_wstatus_throwing : forall p, hcalm any_code (hplain (wstatus_of dbg false p)).
Proof.
  intros p. unfold wstatus_of. cbn [hplain]. intros i _. unfold wstatus_impl.
  assert (Hf : forall e, hcalm any_code (HEnd (WE (ProcessStatusFailure false e)))).
  { intros e. unfold ProcessStatusFailure. repeat match goal with |- context [if ?b then _ else _] => destruct b end; exact I. }
  assert (Hcap : forall e, hcalm any_code (HEnd (WE (wcapture dbg e (ProcessStatusFailure false))))).
  { intros e. unfold wcapture. destruct (dbg && _); [exact I|apply Hf]. }
  assert (Hfin : forall attr, hcalm any_code (HEnd (WE (with_permissions dbg false i attr (fun prms => WRet (directory_or_regular attr, prms) 0))))).
  { intros attr. unfold with_permissions. pose proof (calm_wget (w_security i) attr) as Hg. destruct (GetPermissions _ _ _ _) as [prms e|c|]; [|contradiction|exact I].
    destruct (e =? 0); [exact I|apply Hf]. }
  destruct (w_attrs i) as [e|attr]; [apply Hcap|]. cbv zeta. destruct (has_attr _ _); [|apply Hfin].
  destruct (w_open i) as [e|u]; [apply Hcap|]. destruct (w_handle_attrs i) as [e|a]; [apply Hcap|apply Hfin].
Qed.
Lemma calm_push_missing : forall n pp missing, hcalm any_code (hplain (wpush_missing E n pp missing)).
Proof.
  induction n as [|n IH]; intros pp missing; [exact I|]. cbn [wpush_missing]. apply hcalm_wlift. intros hf. destruct (negb hf); [exact I|].
  apply hcalm_wlift. intros fn. apply hcalm_wlift. intros up. apply IH.
Qed.
Lemma agree_create_missing : forall l b, hagree (eq false) (hplain (wcreate_missing dbg true l b)) (hplain (wcreate_missing dbg false l b)).
Proof.
  induction l as [|top l IH]; intros b; [apply hagree_wret|]. cbn [wcreate_missing]. eapply hagree_wafter; [apply calm_wstatus|]. intros st e _. cbv zeta.
  apply hagree_wafter with (P := any_code).
  { destruct (wis _ _); [|exact I]. eapply hcalm_wbind; [exact (hagree_calm _ _ _ _ (agree_create_directory top))|]. intros; exact I. }
  intros u1 e1 _. apply hagree_wafter with (P := any_code).
  { destruct (negb _); [|exact I]. eapply hcalm_wbind; [apply calm_wstatus_throwing|]. intros; exact I. }
  intros u2 e2 _. destruct (e2 =? 0) eqn:He; cbn [negb]; [apply IH|apply hagree_wbad; [reflexivity|apply N.eqb_neq; exact He]].
Qed.
Lemma agree_create_directories : forall n p, hagree (eq false) (hplain (wcreate_directories dbg E n true p)) (hplain (wcreate_directories dbg E n false p)).
Proof.
  intros n p. unfold wcreate_directories. destruct (empty p); [apply hagree_wbad; [reflexivity|discriminate]|].
  eapply hagree_wafter; [apply calm_push_missing|]. intros [|x l] e _; [apply hagree_wret|apply agree_create_missing].
Qed.
Lemma agree_temp_directory_path : hagree (eq path_default) (hplain (wtemp_directory_path dbg true)) (hplain (wtemp_directory_path dbg false)).
Proof.
  apply ha_sys. intros [[len last] buff] [Hr _]. cbn [reasoned wreasoned] in Hr. destruct ((MAX_PATH <? len) || (len =? 0)) eqn:Hl.
  - apply hagree_wfail; [reflexivity|]. apply Hr. apply orb_true_iff in Hl. destruct Hl as [Hl|Hl]; [right; apply N.ltb_lt; exact Hl|left; apply N.eqb_eq; exact Hl].
  - cbv zeta. eapply hagree_wafter; [apply calm_wstatus|]. intros st e Hk.
    destruct (wknown st) eqn:Hw; cbn [negb]; [|apply hagree_wbad; [reflexivity|exact (Hk Hw)]].
    destruct (negb _ || negb _); [apply hagree_wbad; [reflexivity|discriminate]|apply hagree_wret].
Qed.
Lemma calm_current_path : cwd = true -> hcalm any_code (hplain (wcurrent_path dbg false)).
Proof. intros Hc [e|t] [_ H]; [|exact I]. destruct (H Hc) as [t Ht]. discriminate. Qed.
Lemma agree_space : forall p, cwd = true -> hagree (eq (WSpace umax umax umax)) (hplain (wspace dbg E true p)) (hplain (wspace dbg E false p)).
Proof.
  intros p Hc. unfold wspace. apply hagree_wafter with (P := any_code).
  { unfold wabsolute. destruct (_ && _); [exact I|]. eapply hcalm_wbind; [apply calm_current_path; exact Hc|]. intros c e _.
    destruct (e =? 0); [|exact I]. apply hcalm_wlift. intros; exact I. }
  intros q e _. apply hagree_wlift. intros dir. apply ha_sys. intros [e1|[[a t] f]] [Hr _]; [apply hagree_wfail; auto|apply hagree_wret].
Qed.

(** canonical and what is built on it. *)
Definition telling {A} (_ : A) (e : N) : Prop := e <> 0.
Inductive wweak {A} : wprog A -> wprog A -> Prop :=
| ww_ret v : wweak (WEnd (WE (WRet v 0))) (WEnd (WE (WRet v 0)))
| ww_late p c : hcalm telling (hplain p) -> wweak p (WEnd (WE (WThrow c)))
| ww_end r : other_end r -> wweak (WEnd r) (WEnd r)
| ww_sys c k k' : (forall r, proper_answer (h_Plain c) r -> wweak (k r) (k' r)) -> wweak (WSys c k) (WSys c k').
Lemma wweak_bad : forall A (v : A) c, c <> 0 -> wweak (wbad true v c) (wbad false v c).
Proof. intros. apply ww_late. assumption. Qed.
Lemma wweak_fail : forall A (v : A) c, c <> 0 -> wweak (wfail dbg true v c) (wfail dbg false v c).
Proof. intros. unfold wfail, wcapture. destruct (dbg && _); [apply ww_end; exact I|]. apply ww_late. assumption. Qed.
Lemma wweak_lift : forall A B (x : out A) (f g : A -> wprog B), (forall a, wweak (f a) (g a)) -> wweak (wlift x f) (wlift x g).
Proof. intros A B [] f g H; cbn; auto; apply ww_end; exact I. Qed.
Lemma wweak_after : forall A B (P : A -> N -> Prop) p (f g : A -> N -> wprog B),
  hcalm P (hplain p) -> (forall a e, P a e -> wweak (f a e) (g a e)) -> wweak (wbind p f) (wbind p g).
Proof.
  intros A B P p f g H Hf. induction p as [r|c k IH]; cbn in *.
  - destruct r as [[a e|c|]| | |]; cbn; auto; try contradiction; apply ww_end; exact I.
  - apply ww_sys. intros r Hr. apply IH. apply H. exact Hr.
Qed.
Lemma wweak_bind : forall A B (p q : wprog A) (f g : A -> N -> wprog B), wweak p q -> (forall a, wweak (f a 0) (g a 0)) ->
  (forall v c, c <> 0 -> hcalm telling (hplain (f v c))) -> wweak (wbind p f) (wbind q g).
Proof.
  intros A B p q f g H H0 H1. induction H as [v|p c Hp|r Hr|c k k' H IH]; cbn [wbind]; auto.
  - apply ww_late. eapply hcalm_wbind; [exact Hp|]. intros a e He. apply H1. exact He.
  - destruct r as [[a e|c|]| | |]; try contradiction; apply ww_end; exact I.
  - apply ww_sys. auto.
Qed.
Lemma wweak_calm : forall A (p q : wprog A), wweak p q -> hcalm any_code (hplain p).
Proof.
  intros A p q H. induction H as [v|p c Hp|r Hr|c k k' H IH]; cbn; auto.
  - exact I.
  - eapply calm_any. exact Hp.
  - destruct r as [[a e|c|]| | |]; auto; contradiction.
Qed.

Lemma calm_wsymlink_status : forall p, hcalm any_code (hplain (wsymlink_status_of dbg true p)).
Proof.
  intros p. unfold wsymlink_status_of. cbn [hplain]. intros i _. unfold wsymlink_status_impl.
  assert (Hf : forall e, hcalm any_code (HEnd (WE (ProcessStatusFailure true e)))).
  { intros e. unfold ProcessStatusFailure. repeat match goal with |- context [if ?b then _ else _] => destruct b end; exact I. }
  destruct (w_attrs i) as [e|attr]; [unfold wcapture; destruct (dbg && _); [exact I|apply Hf]|].
  unfold with_permissions. pose proof (calm_wget (w_security i) attr) as Hg. destruct (GetPermissions _ _ _ _) as [prms e|c|]; [|contradiction|exact I].
  destruct (e =? 0); [|apply Hf]. destruct (has_attr _ _); [|exact I]. unfold IsReparsePointSymlink, wcapture, wreport.
  destruct (w_open_link i); [destruct (dbg && _); exact I|]. destruct (w_tag i); [destruct (dbg && _)|destruct (_ || _)]; exact I.
Qed.
Lemma calm_wread_symlink : forall p, hcalm any_code (hplain (wread_symlink dbg true p)).
Proof. intros p [e|d] _; [|exact I]. unfold wfail, wcapture. cbn. destruct (dbg && _); exact I. Qed.
Lemma calm_wis_directory : forall p, hcalm any_code (hplain (wis_directory_ec dbg p)).
Proof. intros p. eapply hcalm_wbind; [apply calm_wstatus|]. intros; exact I. Qed.
Lemma calm_wis_symlink : forall p, hcalm any_code (hplain (wis_symlink_ec dbg p)).
Proof. intros p. eapply hcalm_wbind; [apply calm_wsymlink_status|]. intros; exact I. Qed.
Lemma calm_wexists : forall p, hcalm any_code (hplain (wexists_ec dbg p)).
Proof. intros p. eapply hcalm_wbind; [apply calm_wstatus|]. intros; exact I. Qed.

Lemma loop_tells : forall n root result cmpts links m_ec ec, ec <> 0 ->
  hcalm telling (hplain (canonical_loop dbg E n true root result cmpts links m_ec ec)).
Proof.
  induction n as [|n IH]; intros root result cmpts links m_ec ec Hec; [exact I|]. cbn [canonical_loop].
  destruct cmpts as [|f0 rest]; [exact Hec|]. destruct (negb _); [exact Hec|]. cbv zeta.
  destruct (empty _); [apply IH; exact Hec|]. destruct (is_dot _).
  { eapply hcalm_wbind; [apply calm_wis_directory|]. intros d e _. destruct (_ && _); apply IH; [discriminate|exact Hec]. }
  destruct (is_dotdot _). { apply hcalm_wlift. intros up. apply IH. exact Hec. }
  apply hcalm_wlift. intros r1. eapply hcalm_wbind; [apply calm_wis_symlink|]. intros [|] e _; [|apply IH; exact Hec].
  eapply hcalm_wbind; [apply calm_wread_symlink|]. intros link e2 _. destruct (e2 =? 0); [|apply IH; exact Hec].
  destruct (_ <? _)%Z; [exact I|]. destruct (_ =? _)%Z; [apply IH; discriminate|]. destruct (is_absolute _ _ _); apply hcalm_wlift; intros; apply IH; exact Hec.
Qed.
Lemma loop_agrees : forall n root result cmpts links m_ec,
  wweak (canonical_loop dbg E n true root result cmpts links m_ec 0) (canonical_loop dbg E n false root result cmpts links m_ec 0).
Proof.
  induction n as [|n IH]; intros root result cmpts links m_ec; [apply ww_end; exact I|]. cbn [canonical_loop].
  destruct cmpts as [|f0 rest]; [apply ww_ret|]. destruct (negb _); [apply ww_ret|]. cbv zeta.
  destruct (empty _); [apply IH|]. destruct (is_dot _).
  { eapply wweak_after; [apply calm_wis_directory|]. intros d e _. destruct (_ && _); [apply ww_late, loop_tells; discriminate|apply IH]. }
  destruct (is_dotdot _). { apply wweak_lift. intros up. apply IH. }
  apply wweak_lift. intros r1. eapply wweak_after; [apply calm_wis_symlink|]. intros [|] e _; [|apply IH].
  eapply wweak_after; [apply calm_wread_symlink|]. intros link e2 _. destruct (e2 =? 0); [|apply IH].
  destruct (_ <? _)%Z; [apply ww_end; exact I|]. destruct (_ =? _)%Z; [apply ww_late, loop_tells; discriminate|].
  destruct (is_absolute _ _ _); apply wweak_lift; intros; apply IH.
Qed.
Lemma weak_absolute : forall p, wweak (wabsolute dbg E true p) (wabsolute dbg E false p).
Proof.
  intros p. unfold wabsolute. destruct (_ && _); [apply ww_ret|]. apply wweak_bind.
  - apply ww_sys. intros [e|t] [Hr _]; [apply wweak_fail; exact Hr|apply ww_ret].
  - intros a. apply wweak_lift. intros q. apply ww_ret.
  - intros v c Hc. rewrite (proj2 (N.eqb_neq _ _) Hc). exact Hc.
Qed.
Lemma weak_canonical : forall n p, wweak (wcanonical dbg E n true p) (wcanonical dbg E n false p).
Proof.
  intros n p. unfold wcanonical. apply wweak_bind; [apply weak_absolute|..].
  - intros pa. cbv zeta. apply wweak_lift. intros rel. apply wweak_bind; [apply loop_agrees|..].
    + intros [result e]. destruct (negb _); [apply wweak_bad; discriminate|]. eapply wweak_after; [apply calm_wexists|]. intros [|] e1 _; [apply ww_ret|apply wweak_bad; discriminate].
    + intros [result e] c Hc. destruct (negb _); [discriminate|]. eapply hcalm_wbind; [apply calm_wexists|]. intros [|] e1 _; [exact Hc|discriminate].
  - intros pa c Hc. cbv zeta. apply hcalm_wlift. intros rel. eapply hcalm_wbind; [apply loop_tells; exact Hc|].
    intros [result e] c2 Hc2. destruct (negb _); [discriminate|]. eapply hcalm_wbind; [apply calm_wexists|]. intros [|] e1 _; [exact Hc2|discriminate].
Qed.
Lemma calm_prefix : forall l result e, hcalm any_code (hplain (wexisting_prefix dbg E l result e)).
Proof.
  induction l as [|x l IH]; intros result e; [exact I|]. cbn [wexisting_prefix]. apply hcalm_wlift. intros tmp. eapply hcalm_wbind; [apply calm_wstatus|].
  intros st e1 _. destruct (wexists _); [apply IH|exact I].
Qed.
Lemma wweak_same : forall A (p : wprog A), hcalm (fun _ e => e = 0) (hplain p) -> wweak p p.
Proof.
  intros A p H. induction p as [r|c k IH]; cbn in *.
  - destruct r as [[a e|c|]| | |]; try contradiction; [subst e; apply ww_ret|..]; apply ww_end; exact I.
  - apply ww_sys. intros r Hr. apply IH, H, Hr.
Qed.
Lemma weak_weakly_canonical : forall n p, wweak (wweakly_canonical dbg E n true p) (wweakly_canonical dbg E n false p).
Proof.
  intros n p. unfold wweakly_canonical. destruct (empty p); [apply weak_canonical|]. eapply wweak_after; [apply calm_wstatus|]. intros st e Hk.
  destruct (wknown st) eqn:Hw; cbn [negb]; [|apply wweak_bad; exact (Hk Hw)]. destruct (wexists _); [apply weak_canonical|].
  eapply wweak_after; [apply calm_prefix|]. intros [[result rest] e1] e2 _. eapply wweak_after.
  { destruct (_ && _); [eapply wweak_calm, weak_canonical|exact I]. }
  intros r1 e3 _. destruct (negb _); [apply ww_ret|]. apply wweak_lift. intros r. apply wweak_lift. intros nrm. apply ww_ret.
Qed.
Lemma weak_relative : forall rel n p q, wweak (wrelative_with dbg E rel n true p q) (wrelative_with dbg E rel n false p q).
Proof.
  intros rel n p q. unfold wrelative_with. apply wweak_bind; [apply weak_weakly_canonical|..].
  - intros a. cbn [N.eqb negb]. apply wweak_bind; [apply weak_weakly_canonical|..].
    + intros b. cbn [N.eqb negb]. apply wweak_lift. intros r. apply ww_ret.
    + intros b c Hc. rewrite (proj2 (N.eqb_neq _ _) Hc). exact Hc.
  - intros a c Hc. rewrite (proj2 (N.eqb_neq _ _) Hc). exact Hc.
Qed.
Lemma weak_relative_cwd : forall n p, cwd = true -> wweak (wrelative_cwd dbg E n true p) (wrelative_cwd dbg E n false p).
Proof. intros n p Hc. eapply wweak_after; [apply calm_current_path; exact Hc|]. intros c e _. apply weak_relative. Qed.
Lemma weak_proximate_cwd : forall n p, cwd = true -> wweak (wproximate_cwd dbg E n true p) (wproximate_cwd dbg E n false p).
Proof. intros n p Hc. eapply wweak_after; [apply calm_current_path; exact Hc|]. intros c e _. apply weak_relative. Qed.

Lemma hcalm_run : forall A (P : A -> N -> Prop) (p : hprog A) S (h : hkernel S) s, hcalm P p -> (forall c s, proper_answer c (fst (h c s))) ->
  match fst (hrun h p s) with WE (WRet a e) => P a e | WE (WThrow _) => False | _ => True end.
Proof.
  intros A P p S h s H Hh. revert s H. induction p as [r|c k IH]; intros s H; cbn in *; [destruct r as [[a e|c|]| | |]; exact H|].
  pose proof (Hh c s) as Hr. destruct (h c s) as [r s1]. apply IH. apply H. exact Hr.
Qed.
Lemma wweak_run : forall A (p q : wprog A), wweak p q -> woverloads_nearly_agree cwd (hplain p) (hplain q).
Proof.
  intros A p q H S h s Hh Hd.
  assert (Hp : forall c s, proper_answer c (fst (h c s))).
  { intros c s'. split; [apply Hh|]. intros Ec. destruct c; auto. destruct c; auto. apply Hd. exact Ec. }
  revert s. induction H as [v|p c Hc|r Hr|c k k' H IH]; intros s; cbn [hplain].
  - split; reflexivity.
  - cbn [hrun fst near_end]. pose proof (hcalm_run _ _ _ S h s Hc Hp) as Hx. exact Hx.
  - destruct r as [[a e|c|]| | |]; try contradiction; reflexivity.
  - cbn [hrun]. pose proof (Hp (h_Plain c) s) as Hr. destruct (h (h_Plain c) s) as [r s1]. apply IH. exact Hr.
Qed.
End Agree.
End Tools.

(** * Theorems *)

Theorem C107_agree_partial : forall (dbg : bool) (E : elision) (m : signed_mode) (tps : Z) (narrow : str -> option str) (n : nat) (p q : path),
  woverloads_agree false (eq false) (hplain (wcreate_directory dbg true p)) (hplain (wcreate_directory dbg false p)) /\
  woverloads_agree false (eq true) (hplain (wcreate_directory_like dbg true p q)) (hplain (wcreate_directory_like dbg false p q)) /\
  woverloads_agree false (eq false) (hplain (wcreate_directories dbg E n true p)) (hplain (wcreate_directories dbg E n false p)) /\
  woverloads_agree false whatever (hplain (wcreate_symlink dbg true p q)) (hplain (wcreate_symlink dbg false p q)) /\
  woverloads_agree false whatever (hplain (wcreate_directory_symlink dbg true p q)) (hplain (wcreate_directory_symlink dbg false p q)) /\
  woverloads_agree false whatever (hplain (wcreate_hard_link dbg true p q)) (hplain (wcreate_hard_link dbg false p q)) /\
  woverloads_agree false whatever (hplain (wset_current_path dbg true p)) (hplain (wset_current_path dbg false p)) /\
  woverloads_agree false whatever (hplain (wrename dbg true p q)) (hplain (wrename dbg false p q)) /\
  woverloads_agree false (eq path_default) (hplain (wcurrent_path dbg true)) (hplain (wcurrent_path dbg false)) /\
  woverloads_agree false (eq path_default) (hplain (wabsolute dbg E true p)) (hplain (wabsolute dbg E false p)) /\
  woverloads_agree false (eq (2 ^ 64 - 1)) (hplain (wfile_size dbg true p)) (hplain (wfile_size dbg false p)) /\
  woverloads_agree false (eq path_default) (hplain (wtemp_directory_path dbg true)) (hplain (wtemp_directory_path dbg false)) /\
  woverloads_agree false (eq false) (hplain (wremove dbg true p)) (hplain (wremove dbg false p)) /\
  woverloads_agree false (eq (2 ^ 64 - 1)) (hremove_all dbg E narrow n true p) (hremove_all dbg E narrow n false p) /\
  woverloads_agree false (eq false) (his_empty dbg E narrow n true p) (his_empty dbg E narrow n false p) /\
  woverloads_agree false (eq path_default) (hread_symlink dbg true p) (hread_symlink dbg false p) /\
  woverloads_agree false (eq false) (hequivalent dbg true p q) (hequivalent dbg false p q) /\
  woverloads_agree false (eq (2 ^ 64 - 1)) (hhard_link_count dbg true p) (hhard_link_count dbg false p) /\
  woverloads_agree false (eq (- 2 ^ 63)%Z) (hlast_write_time dbg m tps true p) (hlast_write_time dbg m tps false p) /\
  (forall t, woverloads_agree false whatever (hset_last_write_time dbg m tps true p t) (hset_last_write_time dbg m tps false p t)) /\
  (forall size, woverloads_agree false whatever (hresize_file dbg true p size) (hresize_file dbg false p size)) /\
  (forall prms opts, woverloads_agree false whatever (hpermissions dbg true p prms opts) (hpermissions dbg false p prms opts)) /\
  woverloads_agree false whatever (hcopy_symlink dbg true p q) (hcopy_symlink dbg false p q) /\
  (forall o, woverloads_agree false (eq false) (hcopy_file dbg m tps true p q o) (hcopy_file dbg m tps false p q o)) /\
  (forall o, woverloads_agree false whatever (hcopy dbg E m tps narrow n true p q o) (hcopy dbg E m tps narrow n false p q o)) /\
  (forall skip, woverloads_agree false (eq None) (hiter_new E narrow n true p skip) (hiter_new E narrow n false p skip)) /\
  (forall it, woverloads_agree false (eq None) (hiter_increment E narrow n true it) (hiter_increment E narrow n false it)) /\
  (forall follow skip, woverloads_agree false rec_at_end (hrec_new E narrow n true p follow skip) (hrec_new E narrow n false p follow skip)) /\
  (forall it, woverloads_agree false rec_at_end (hrec_increment dbg E narrow n true it) (hrec_increment dbg E narrow n false it)) /\
  (forall it, woverloads_agree false rec_at_end (hrec_pop E narrow n true it) (hrec_pop E narrow n false it)) /\
  woverloads_agree true (eq (WSpace (2 ^ 64 - 1) (2 ^ 64 - 1) (2 ^ 64 - 1))) (hplain (wspace dbg E true p)) (hplain (wspace dbg E false p)).
Proof.
  intros dbg E m tps narrow n p q. repeat match goal with |- _ /\ _ => split end; intros; apply hagree_run.
  - apply agree_create_directory.
  - apply agree_create_directory_like.
  - apply agree_create_directories.
  - apply agree_create_symlink.
  - apply agree_create_directory_symlink.
  - apply agree_create_hard_link.
  - apply agree_set_current_path.
  - apply agree_rename.
  - apply agree_current_path.
  - apply agree_absolute.
  - apply agree_file_size.
  - apply agree_temp_directory_path.
  - apply agree_remove.
  - apply agree_remove_all.
  - apply agree_is_empty.
  - apply agree_read_symlink.
  - apply agree_equivalent.
  - apply agree_hard_link_count.
  - apply agree_last_write_time.
  - apply agree_set_last_write_time.
  - apply agree_resize_file.
  - apply agree_permissions.
  - apply agree_copy_symlink.
  - apply agree_copy_file.
  - apply agree_copy.
  - apply agree_iter_new.
  - apply agree_iter_increment.
  - apply agree_rec_new.
  - apply agree_rec_increment.
  - apply agree_rec_pop.
  - apply agree_space. reflexivity.
Qed.

(** canonical goes on after a failure when there is an error_code, and ends with another one; weakly_canonical, relative and proximate are built on it. *)
Theorem C107_canonical_partial : forall (dbg : bool) (E : elision) (n : nat) (p q : path),
  woverloads_nearly_agree false (hplain (wcanonical dbg E n true p)) (hplain (wcanonical dbg E n false p)) /\
  woverloads_nearly_agree false (hplain (wweakly_canonical dbg E n true p)) (hplain (wweakly_canonical dbg E n false p)) /\
  woverloads_nearly_agree false (hplain (wrelative dbg E n true p q)) (hplain (wrelative dbg E n false p q)) /\
  woverloads_nearly_agree false (hplain (wproximate dbg E n true p q)) (hplain (wproximate dbg E n false p q)) /\
  woverloads_nearly_agree true (hplain (wrelative_cwd dbg E n true p)) (hplain (wrelative_cwd dbg E n false p)) /\
  woverloads_nearly_agree true (hplain (wproximate_cwd dbg E n true p)) (hplain (wproximate_cwd dbg E n false p)).
Proof.
  intros dbg E n p q. repeat match goal with |- _ /\ _ => split end; apply wweak_run.
  - apply weak_canonical.
  - apply weak_weakly_canonical.
  - apply weak_relative.
  - apply weak_relative.
  - apply weak_relative_cwd. reflexivity.
  - apply weak_proximate_cwd. reflexivity.
Qed.

(** Where there is no current directory the overloads of space, relative(p) and proximate(p) with an error_code throw. *)
Theorem C107_directory_refuted : forall S (h : hkernel S) s dbg E n p e, fst (h (h_Plain w_CurrentDirectory) s) = inl e -> e <> 0 ->
  (is_absolute Windows E p = false -> fst (hrun h (hplain (wspace dbg E true p)) s) = WE (WThrow e)) /\
  fst (hrun h (hplain (wrelative_cwd dbg E n true p)) s) = WE (WThrow e) /\ fst (hrun h (hplain (wproximate_cwd dbg E n true p)) s) = WE (WThrow e).
Proof.
  intros S h s dbg E n p e H He. apply N.eqb_neq in He. repeat split; intros; unfold wspace, wabsolute, wrelative_cwd, wproximate_cwd, wcurrent_path, wfail, wcapture.
  1: rewrite H0; cbn [andb].
  all: cbn [wbind hplain hrun]; destruct (h (h_Plain w_CurrentDirectory) s) as [r s1]; cbn [fst] in H; subst r; cbn [wbind hplain hrun fst]; rewrite He, andb_false_r; reflexivity.
Qed.

(** The codes of the two canonicals differ: of a relative path where there is no current directory the one gives that failure, the other tells that there is no such file. *)
Theorem C107_canonical_refuted : forall S (h : hkernel S) s s1 dbg E n p e i e1, is_absolute Windows E p = false ->
  h (h_Plain w_CurrentDirectory) s = (inl e, s1) -> e <> 0 -> fst (h (h_Plain (w_Info [])) s1) = i -> w_attrs i = inl e1 -> IsNotFoundError e1 = true ->
  fst (hrun h (hplain (wcanonical dbg E n false p)) s) = WE (WThrow e) /\
  ((2 <= n)%nat -> fst (hrun h (hplain (wcanonical dbg E n true p)) s) = WE (WRet path_default errc_no_such_file_or_directory)).
Proof.
  intros S h s s1 dbg E n p e i e1 Ha H He Hi Hat Hnf. apply N.eqb_neq in He. unfold wcanonical, wabsolute. rewrite Ha. cbn [andb]. unfold wcurrent_path, wfail, wcapture. split.
  - cbn [wbind hplain hrun]. rewrite H. rewrite He, andb_false_r. reflexivity.
  - intros Hn. destruct n as [|[|n]]; [lia|lia|]. cbn [wbind hplain hrun]. rewrite H. cbn [wbind hplain hrun]. rewrite He, andb_false_r. cbn [wreport wbind hplain hrun]. rewrite He. cbn [wret wbind hplain hrun].
    destruct (h (h_Plain (w_Info [])) s1) as [r s2] eqn:Ei. cbn [fst] in Hi. subst r.
    assert (Hz : (e1 =? 0) = false) by (destruct (e1 =? 0) eqn:Z; [apply N.eqb_eq in Z; subst; discriminate|reflexivity]).
    destruct E as [? ? [|]]; cbn; rewrite Ei; unfold wstatus_impl; rewrite Hat; unfold wcapture, ProcessStatusFailure; rewrite Hz, andb_false_r, Hnf; reflexivity.
Qed.

(** A temporary directory whose name is too long is not a failure of GetTempPathW. Without assertions the throwing overload of temp_directory_path throws a code that says success,
    and the other returns no path and a clear code. *)
Theorem C107_temp_refuted : forall S (h : hkernel S) s len text, fst (h (h_Plain w_TempPath) s) = (len, 0, text) -> 260 < len ->
  fst (hrun h (hplain (wtemp_directory_path false false)) s) = WE (WThrow 0) /\ fst (hrun h (hplain (wtemp_directory_path false true)) s) = WE (WRet path_default 0).
Proof.
  intros S h s len text H Hl. unfold wtemp_directory_path. cbn [hplain hrun]. destruct (h (h_Plain w_TempPath) s) as [r s1]. cbn [fst] in H. subst r. apply N.ltb_lt in Hl.
  change MAX_PATH with 260. rewrite Hl. split; reflexivity.
Qed.

(** * Examples *)

(** The system of C93 gives reasons. *)
Lemma demo_next_given : forall f l, given (fst (demo_next f l)).
Proof.
  intros f l. induction l as [|[x ds] l IH]; [discriminate|]. cbn [demo_next]. destruct (x =? f); [destruct ds; [discriminate|exact I]|]. destruct (demo_next f l). exact IH.
Qed.
Lemma demo_gives_reasons : gives_reasons demo_handles.
Proof.
  intros c s. destruct c; cbn; try exact I; try discriminate.
  - destruct (demo_dir pattern); [exact I|discriminate].
  - destruct h as [f|]; [|discriminate]. pose proof (demo_next_given f (snd s)). destruct (demo_next f (snd s)). assumption.
  - destruct c; cbn; try exact I; try discriminate.
    + repeat split; discriminate.
    + unfold demo_attributes. destruct (_ || _); [exact I|]. destruct (str_eqb _ _); [exact I|discriminate].
Qed.
(** The same with a current directory. *)
Definition demo_home : hkernel demo_state := fun c => match c with h_Plain w_CurrentDirectory => fun s => (inr (lit "C:\d"), s) | c => demo_handles c end.
Lemma home_gives_reasons : gives_reasons demo_home /\ knows_directory demo_home.
Proof.
  split; [|intros s; eexists; reflexivity]. intros c s. pose proof (demo_gives_reasons c s) as H. destruct c; try exact H. destruct c; try exact H. exact I.
Qed.

Definition at_d : path := wpath (lit "C:\d").
(** remove_all removes three files with both overloads; resize_file fails with ERROR_DISK_FULL, told or thrown. *)
Example C107_agree_example :
  fst (hrun demo_handles (hremove_all true no_elision (fun t => Some t) 20 true at_d) (1, [])) = WE (WRet 3 0) /\
  fst (hrun demo_handles (hremove_all true no_elision (fun t => Some t) 20 false at_d) (1, [])) = WE (WRet 3 0) /\
  fst (hrun demo_handles (hresize_file true true at_d 5) (1, [])) = WE (WRet tt 112) /\
  fst (hrun demo_handles (hresize_file true false at_d 5) (1, [])) = WE (WThrow 112) /\
  fst (hrun demo_home (hplain (wspace true no_elision true (wpath (lit "x")))) (1, [])) = WE (WRet (WSpace umax umax umax) 1).
Proof. repeat split; vm_compute; reflexivity. Qed.
(** canonical of a relative path in the directory C:\d: nothing can be looked at, and both say that there is no such file. *)
Example C107_canonical_example :
  fst (hrun demo_home (hplain (wcanonical true no_elision 9 true (wpath (lit "x")))) (1, [])) = WE (WRet path_default 2) /\
  fst (hrun demo_home (hplain (wcanonical true no_elision 9 false (wpath (lit "x")))) (1, [])) = WE (WThrow 2).
Proof. repeat split; vm_compute; reflexivity. Qed.
(** Without a current directory. *)
Example C107_directory_example : fst (hrun demo_handles (hplain (wspace true no_elision true (wpath (lit "x")))) (1, [])) = WE (WThrow 1) /\
  fst (hrun demo_handles (hplain (wrelative_cwd true no_elision 9 true (wpath (lit "x")))) (1, [])) = WE (WThrow 1).
Proof. pose proof (C107_directory_refuted _ demo_handles (1, []) true no_elision 9 (wpath (lit "x")) 1 eq_refl ltac:(discriminate)) as [H1 [H2 _]]. split; [apply H1; reflexivity|exact H2]. Qed.
(** A system without a current directory and files, and with a long temporary directory. *)
Definition demo_nowhere : hkernel demo_state := fun c =>
  match c with
  | h_Plain (w_Info _) => fun s => (WInfo (inl 2) (inl 2) (inl 2) (inl 2) (inl 2) (Security (inl 2) true (fun _ => inr 0)), s)
  | h_Plain w_TempPath => fun s => ((300, 0, []), s)
  | c => demo_handles c
  end.
Example C107_canonical_codes_example :
  fst (hrun demo_nowhere (hplain (wcanonical true no_elision 9 false (wpath (lit "x")))) (1, [])) = WE (WThrow 1) /\
  fst (hrun demo_nowhere (hplain (wcanonical true no_elision 9 true (wpath (lit "x")))) (1, [])) = WE (WRet path_default 2).
Proof. pose proof (C107_canonical_refuted _ demo_nowhere (1, []) (1, []) true no_elision 9 (wpath (lit "x")) 1 _ 2 eq_refl eq_refl ltac:(discriminate) eq_refl eq_refl eq_refl) as [H1 H2]. split; [exact H1|apply H2; lia]. Qed.
Example C107_temp_example : fst (hrun demo_nowhere (hplain (wtemp_directory_path false false)) (1, [])) = WE (WThrow 0).
Proof. apply (C107_temp_refuted _ demo_nowhere (1, []) 300 []); reflexivity. Qed.

Print Assumptions C107_agree_partial.
Print Assumptions C107_canonical_partial.
Print Assumptions C107_directory_refuted.
Print Assumptions C107_canonical_refuted.
Print Assumptions C107_temp_refuted.
