(** Which calls the operations make on Windows: what they may look at and what they may change. *)
From Coq Require Import Ascii String Bool NArith ZArith List Lia.
From Verif Require Import Str PathModel FlagsModel TimeModel WinPermsModel WinAclModel WinStatModel WinOpsModel WinHandleModel WinHandles.
Import ListNotations.
Local Open Scope N_scope.

(** * Vocabulary *)

(** The rights with which something can be changed or deleted through a handle (winnt.h): writing and appending data, writing extended attributes and
    attributes, deleting entries, DELETE, WRITE_DAC, WRITE_OWNER, MAXIMUM_ALLOWED, GENERIC_ALL, GENERIC_WRITE. *)
Definition changing_rights : N := 2 + 4 + 16 + 64 + 256 + 65536 + 262144 + 524288 + 33554432 + 268435456 + 1073741824.

(** Calls that change nothing and are about the files named by a text with [P], or about a handle or a block of memory in the hands of the library. *)
Definition only_asks (P : str -> Prop) (c : hcall) : Prop :=
  match c with
  | h_CreateFile t access _ _ => P t /\ N.land access changing_rights = 0
  | h_NamedSecurity t | h_Plain (w_Attributes t) | h_Plain (w_AttributesEx t) => P t
  | h_FindFirst x => exists t, P t /\ x = find_pattern t
  | h_CloseHandle _ | h_Information _ | h_AttributeTag _ | h_DeviceIoControl _ | h_GetFileTime _ | h_GetFileType _ | h_FindNext _ | h_FindClose _
  | h_EqualSid _ | h_EffectiveRights _ _ | h_LocalFree _ => True
  | _ => False
  end.

(** Whatever Windows answers, every call [p] makes until it ends, however it ends, is one of [OK]. *)
Definition makes {A} (OK : hcall -> Prop) (p : hprog A) : Prop :=
  forall S (h : hkernel S) s, Forall (fun e => match e with HEv c _ => OK c end) (snd (snd (hrun (recorded h) p (s, [])))).

(** What is made of [p] by going down by the names found in directories, "." and ".." left out. *)
Inductive descends (E : elision) (narrow : str -> option str) (p : path) : path -> Prop :=
| descends_here : descends E narrow p p
| descends_entry : forall q r d n, descends E narrow p q -> is_dots d = false -> narrow (fd_name d) = Some n -> path_div Windows E q (wpath n) = Ok r ->
    descends E narrow p r.

(** Going down in the source and the target together: the entry [q2] of the source [q] goes with what is made of the target [r] with the file name of [q2]. *)
Inductive twins (E : elision) (narrow : str -> option str) (p g : path) : path -> path -> Prop :=
| twins_here : twins E narrow p g p g
| twins_entry : forall q r d n q2 f r2, twins E narrow p g q r -> is_dots d = false -> narrow (fd_name d) = Some n -> path_div Windows E q (wpath n) = Ok q2 ->
    filename Windows q2 = Ok f -> path_div Windows E r f = Ok r2 -> twins E narrow p g q2 r2.
(** A file may also go into its target, when that is a directory. *)
Definition twin_files (E : elision) (narrow : str -> option str) (p g a b : path) : Prop :=
  twins E narrow p g a b \/ exists r f, twins E narrow p g a r /\ filename Windows a = Ok f /\ path_div Windows E r f = Ok b.

(** The calls allowed to each kind of operation. *)
Definition removing (E : elision) (narrow : str -> option str) (p : path) (c : hcall) : Prop :=
  match c with
  | h_Plain (w_RemoveDirectory t) | h_Plain (w_DeleteFile t) => exists q, descends E narrow p q /\ t = native q
  | _ => only_asks (fun t => exists q, descends E narrow p q /\ t = native q) c
  end.
Definition copying_file (a b : path) (c : hcall) : Prop :=
  match c with
  | h_Plain (w_CopyFile x y false) => x = native a /\ y = native b
  | _ => only_asks (fun t => t = native a \/ t = native b) c
  end.
Definition copying_tree (E : elision) (narrow : str -> option str) (p g : path) (c : hcall) : Prop :=
  match c with
  | h_Plain (w_CopyFile x y false) => exists a b, twin_files E narrow p g a b /\ x = native a /\ y = native b
  | h_Plain (w_CreateDirectoryEx x y) | h_Plain (w_CreateHardLink y x) => exists a b, twins E narrow p g a b /\ x = native a /\ y = native b
  | h_Plain (w_CreateSymbolicLink y _ _) => exists a b, twins E narrow p g a b /\ y = native b
  | _ => only_asks (fun _ => True) c
  end.
Definition setting_permissions (p : path) (c : hcall) : Prop :=
  match c with
  | h_SetNamedSecurity t _ => t = native p
  | h_LocalAlloc | h_SetEntries _ _ _ => True
  | _ => only_asks (fun t => t = native p) c
  end.
Definition setting_time (p : path) (c : hcall) : Prop :=
  match c with
  | h_CreateFile t access _ _ => t = native p /\ access = FILE_WRITE_ATTRIBUTES
  | h_SetFileTime _ _ | h_CloseHandle _ => True
  | _ => False
  end.
Definition setting_size (p : path) (c : hcall) : Prop :=
  match c with
  | h_CreateFile t _ share _ => t = native p /\ share = 0
  | h_SetFilePointer _ _ | h_SetEndOfFile _ | h_CloseHandle _ => True
  | _ => False
  end.

(** * Proof *)

Fixpoint hall {A} (OK : hcall -> Prop) (p : hprog A) (post : A -> N -> Prop) : Prop :=
  match p with
  | HEnd (WE (WRet a e)) => post a e
  | HEnd _ => True
  | HSys c k => OK c /\ forall r, hall OK (k r) post
  end.

Lemma hall_makes : forall A OK (p : hprog A) post, hall OK p post -> makes OK p.
Proof.
  intros A OK p post H S h s. enough (G : forall l, Forall (fun e => match e with HEv c _ => OK c end) l ->
    Forall (fun e => match e with HEv c _ => OK c end) (snd (snd (hrun (recorded h) p (s, l))))) by (apply G; constructor).
  revert s H. induction p as [r|c k IH]; intros s H l Hl; cbn in *; [exact Hl|]. destruct H as [H1 H2]. assert (Er : recorded h c (s, l) = (fst (h c s), (snd (h c s), l ++ [HEv c (fst (h c s))]))) by (unfold recorded; cbn [fst snd]; destruct (h c s); reflexivity).
  rewrite Er. apply IH; [apply H2|]. apply Forall_app. split; [exact Hl|]. constructor; [exact H1|constructor].
Qed.

Section Calls.
Variables (dbg : bool) (E : elision) (m : signed_mode) (tps : Z) (narrow : str -> option str).

Lemma hall_weaken : forall A (OK OK2 : hcall -> Prop) (p : hprog A) (post post2 : A -> N -> Prop), hall OK p post -> (forall c, OK c -> OK2 c) -> (forall a e, post a e -> post2 a e) -> hall OK2 p post2.
Proof.
  intros A OK OK2 p post post2 H H1 H2. induction p as [r|c k IH]; cbn in *; [destruct r as [[a e|c|]| | |]; auto|]. destruct H as [H3 H4]. split; auto.
Qed.
Lemma hall_bind : forall A B (OK : hcall -> Prop) (p : hprog A) (f : A -> N -> hprog B) post post2, hall OK p post -> (forall a e, post a e -> hall OK (f a e) post2) -> hall OK (hbind p f) post2.
Proof.
  intros A B OK p f post post2 H H1. induction p as [r|c k IH]; cbn in *; [destruct r as [[a e|c|]| | |]; cbn; auto|]. destruct H as [H2 H3]. split; auto.
Qed.
Lemma hall_scope : forall A (OK : hcall -> Prop) c (p : hprog A) post, OK c -> hall OK p post -> hall OK (hscope c p) post.
Proof.
  intros A OK c p post Hc H. induction p as [r|c2 k IH]; cbn in *; [destruct r as [[a e|c2|]| | |]; cbn in *; auto|]. destruct H as [H2 H3]. split; auto.
Qed.
Lemma hall_calls : forall A (OK : hcall -> Prop) cs (r : wend A) post, Forall OK cs -> hall OK (HEnd r) post -> hall OK (hcalls cs r) post.
Proof. intros A OK cs r post H Hr. induction H; cbn; auto. Qed.
Lemma hall_unwind : forall A (OK : hcall -> Prop) cs (p : hprog A) post, Forall OK cs -> hall OK p post -> hall OK (hunwind cs p) post.
Proof.
  intros A OK cs p post Hc H. induction p as [r|c2 k IH]; cbn -[throws] in *; [|destruct H as [H2 H3]; split; auto].
  destruct (throws r) eqn:Et; [|exact H]. apply hall_calls; auto.
Qed.
Lemma hall_scopes : forall A (OK : hcall -> Prop) cs (p : hprog A) post, Forall OK cs -> hall OK p post -> hall OK (hscopes cs p) post.
Proof.
  intros A OK cs p post Hc H. unfold hscopes. apply Forall_rev in Hc. induction Hc; cbn; auto. apply hall_scope; auto.
Qed.
Lemma hall_catch : forall A (OK : hcall -> Prop) (p : hprog A) f post, hall OK p post -> (forall c, hall OK (f c) post) -> hall OK (hcatch p f) post.
Proof.
  intros A OK p f post H Hf. induction p as [r|c2 k IH]; cbn in *; [destruct r as [[a e|c2|]| | |]; cbn in *; auto|]. destruct H as [H2 H3]. split; auto.
Qed.
Lemma hall_lift : forall A B (OK : hcall -> Prop) (x : out A) (f : A -> hprog B) post, (forall a, x = Ok a -> hall OK (f a) post) -> hall OK (hlift x f) post.
Proof. intros A B OK x f post H. destruct x; cbn; auto. Qed.
Lemma hall_capture : forall A (OK : hcall -> Prop) last (k : N -> hprog A) post, (forall e, hall OK (k e) post) -> hall OK (hcapture dbg last k) post.
Proof. intros. unfold hcapture. destruct (dbg && (last =? 0)); cbn; auto. Qed.
Lemma hall_file : forall A (OK : hcall -> Prop) p a s f (bad : N -> hprog A) body post, OK (h_CreateFile (native p) a s f) -> (forall h, OK (h_CloseHandle h)) ->
  (forall e, hall OK (bad e) post) -> (forall h, hall OK (body h) post) -> hall OK (with_file dbg p a s f bad body) post.
Proof.
  intros A OK p a s f bad body post H1 H2 H3 H4. unfold with_file. cbn [hall]. split; [exact H1|]. intros [last|h].
  - apply hall_capture. intros e. destruct (e =? 0); auto.
  - apply hall_scope; auto.
Qed.
Lemma hall_end : forall A (OK : hcall -> Prop) (r : wend A), hall OK (HEnd r) (fun _ _ => True).
Proof. intros. cbn. destruct r as [[a e|c|]| | |]; auto. Qed.
Definition every {A} (OK : hcall -> Prop) (p : hprog A) : Prop := hall OK p (fun _ _ => True).
Lemma every_bind : forall A B (OK : hcall -> Prop) (p : hprog A) (f : A -> N -> hprog B), every OK p -> (forall a e, every OK (f a e)) -> every OK (hbind p f).
Proof. intros. unfold every in *. eapply hall_bind; eauto. Qed.
Lemma every_more : forall A (OK OK2 : hcall -> Prop) (p : hprog A), every OK p -> (forall c, OK c -> OK2 c) -> every OK2 p.
Proof. intros. eapply hall_weaken; eauto. Qed.

Ltac allowed := cbn; try match goal with |- _ /\ _ => split end; try exact Logic.I; try reflexivity; auto; try (eexists; split; [|reflexivity]); auto.
Ltac walk_calls :=
  repeat first
  [ progress (unfold every, hret, hbad, hfail, hupd, hupd_fail, hthen)
  | match goal with
    | |- hall _ (HEnd _) (fun _ _ => True) => apply hall_end
    | |- hall _ (hbind _ _) (fun _ _ => True) => apply every_bind; [|intros ? ?]
    | |- hall _ (with_file _ _ _ _ _ _ _) _ => apply hall_file; [solve [allowed]|intros; solve [allowed]|intros ?|intros ?]
    | |- hall _ (hcapture _ _ _) _ => apply hall_capture; intros ?
    | |- hall _ (hscope _ _) _ => apply hall_scope; [solve [allowed]|]
    | |- hall _ (hcatch _ _) _ => apply hall_catch; [|intros ?]
    | |- hall _ (hlift _ _) _ => apply hall_lift; intros ? ?
    | |- hall _ (HSys _ _) _ => cbn [hall]; split; [solve [allowed]|intros ?]
    | |- hall _ (match ?x with _ => _ end) _ => destruct x
    | |- hall _ (let '(_, _) := ?x in _) _ => destruct x
    end ].

Section About.
Variables (P : str -> Prop) (p : path).
Hypothesis Hp : P (native p).
Let OK := only_asks P.

Lemma every_get_permissions : forall has attr, every OK (hGetPermissions dbg has p attr).
Proof. intros. unfold hGetPermissions, hpermission_step. walk_calls. Qed.
Lemma every_with_permissions : forall has attr k, (forall x, every OK (k x)) -> every OK (hwith_permissions dbg has p attr k).
Proof. intros has attr k H. unfold hwith_permissions. apply every_bind; [apply every_get_permissions|]. intros a e. destruct (e =? 0); [apply H|apply hall_end]. Qed.
Lemma every_status : forall has, every OK (hstatus dbg has p).
Proof. intros. unfold hstatus. walk_calls. apply every_with_permissions. intros. walk_calls. Qed.
Lemma every_is_symlink : forall has, every OK (hIsReparsePointSymlink dbg has p).
Proof. intros. unfold hIsReparsePointSymlink. walk_calls. Qed.
Lemma every_symlink_status : forall has, every OK (hsymlink_status dbg has p).
Proof. intros. unfold hsymlink_status. walk_calls. apply every_with_permissions. intros. walk_calls. apply every_is_symlink. Qed.
Lemma every_read_symlink : forall has, every OK (hread_symlink dbg has p).
Proof. intros. unfold hread_symlink. walk_calls. Qed.
Lemma every_hard_link_count : forall has, every OK (hhard_link_count dbg has p).
Proof. intros. unfold hhard_link_count. walk_calls. Qed.
Lemma every_last_write_time : forall has, every OK (hlast_write_time dbg m tps has p).
Proof. intros. unfold hlast_write_time. walk_calls. Qed.
Lemma every_equivalent : forall q has, P (native q) -> every OK (hequivalent dbg has p q).
Proof. intros q has Hq. unfold hequivalent. walk_calls. Qed.
Lemma every_update_basic : forall has follow d, every OK (hUpdateBasic dbg has follow p d).
Proof. intros. unfold hUpdateBasic. walk_calls. all: apply every_is_symlink. Qed.
Lemma every_when : forall A c (b : bool) (x y r : hprog A), every OK x -> every OK y -> every OK r ->
  every OK (match c with WEmpty => if b then x else r | WBasic => if b then y else r | _ => r end) /\
  every OK (match c with WEmpty => if b then x else r | WFull => if b then y else r | _ => r end).
Proof. intros A [] [] x y r Hx Hy Hr; auto. Qed.
Lemma every_update_extra : forall has follow d, every OK (hUpdateExtra dbg m tps has follow p d).
Proof. intros. unfold hUpdateExtra. apply every_when; walk_calls. Qed.
Lemma every_permission_block : forall has flags d, every OK (hpermission_block dbg has p flags d).
Proof. intros. unfold hpermission_block. walk_calls. apply every_get_permissions. Qed.
Lemma every_update_permissions : forall has follow d, every OK (hUpdatePermissions dbg has follow p d).
Proof. intros. unfold hUpdatePermissions. apply every_when; walk_calls. all: apply every_permission_block. Qed.
Lemma every_refresh : every OK (hrefresh dbg m tps p).
Proof.
  unfold hrefresh. walk_calls; first [apply every_update_basic|apply every_update_extra|apply every_update_permissions].
Qed.
End About.

(** * Streams *)

(** [q] is made of [r] and a name found in a directory. *)
Definition entry_path (r q : path) : Prop := exists d n, is_dots d = false /\ narrow (fd_name d) = Some n /\ path_div Windows E r (wpath n) = Ok q.
Definition iter_of (p : path) (it : hiter) : Prop := match it with Some s => hs_root s = p /\ entry_path p (hs_path s) | None => True end.

Section Streams.
Variable OK : hcall -> Prop.
Hypothesis Hnext : forall h, OK (h_FindNext h).
Hypothesis Hclose : forall h, OK (h_FindClose h).

Lemma hall_fill : forall s d, is_dots d = false -> hall OK (hfill E narrow s d) (fun s2 _ => hs_root s2 = hs_root s /\ hs_handle s2 = hs_handle s /\ entry_path (hs_root s) (hs_path s2)).
Proof.
  intros s d Hd. unfold hfill. destruct (narrow (fd_name d)) as [t|] eqn:En; cbn; auto. apply hall_lift. intros q Hq. cbn. split; [reflexivity|]. split; [reflexivity|]. exists d, t. auto.
Qed.
Lemma hall_skip : forall n h d, hall OK (hskip n h d) (fun x _ => match x with inr d2 => is_dots d2 = false | _ => True end).
Proof.
  induction n as [|n IH]; intros h d; [exact Logic.I|]. cbn [hskip]. destruct (is_dots d) eqn:Ed; [|exact Ed]. cbn [hall]. split; [apply Hnext|]. intros [l|d2]; [exact Logic.I|apply IH].
Qed.
Lemma hall_open : forall n skip p, OK (h_FindFirst (find_pattern (native p))) ->
  hall OK (hstream_open E narrow n skip p) (fun s _ => hs_handle s <> None -> hs_root s = p /\ entry_path p (hs_path s)).
Proof.
  intros n skip p Hp. unfold hstream_open. cbn [hall]. split; [exact Hp|]. intros [last|[h d]]; [cbn; congruence|]. eapply hall_bind; [apply hall_skip|]. cbn beta. intros [l|d2] e Hd.
  - cbn. split; [apply Hclose|]. intros r H. congruence.
  - eapply hall_weaken; [apply hall_fill; exact Hd|auto|]. cbn. intros s _ (H1 & H2 & H3) _. auto.
Qed.
Lemma hall_advance : forall n s, hall OK (hadvance E narrow n s) (fun r _ => fst r = true -> hs_root (snd r) = hs_root s /\ entry_path (hs_root s) (hs_path (snd r))).
Proof.
  induction n as [|n IH]; intros s; [exact Logic.I|]. cbn [hadvance hall]. split; [apply Hnext|]. intros [last|d].
  - cbn. split; [apply Hclose|]. intros r H. discriminate.
  - destruct (is_dots d) eqn:Ed; [apply IH|]. eapply hall_bind; [apply hall_fill; exact Ed|]. cbn. intros s2 _ (H1 & H2 & H3) _. auto.
Qed.
Lemma closing_ok : forall s, Forall OK (closing s).
Proof. intros s. unfold closing. destruct (hs_handle s); auto. Qed.
Lemma stack_closing_ok : forall l, Forall OK (stack_closing l).
Proof. induction l as [|s l IH]; [constructor|]. cbn. apply Forall_app. split; [apply closing_ok|exact IH]. Qed.
Lemma every_destroy : forall s, every OK (hdestroy s).
Proof. intros s. apply hall_calls; [apply closing_ok|exact Logic.I]. Qed.
Lemma every_iter_destroy : forall it, every OK (hiter_destroy it).
Proof. intros [s|]; [apply every_destroy|exact Logic.I]. Qed.
Lemma hall_iter_new : forall n has p skip, OK (h_FindFirst (find_pattern (native p))) -> hall OK (hiter_new E narrow n has p skip) (fun it _ => iter_of p it).
Proof.
  intros n has p skip Hp. unfold hiter_new. eapply hall_bind; [apply hall_open; exact Hp|]. cbn beta. intros s e H. destruct (hs_handle s) eqn:Eh; [cbn; apply H; congruence|].
  destruct (e =? 0); [exact Logic.I|]. unfold hbad, wreport. destruct has; exact Logic.I.
Qed.
Lemma hall_iter_increment : forall n has it p, iter_of p it -> hall OK (hiter_increment E narrow n has it) (fun it2 _ => iter_of p it2).
Proof.
  intros n has it p Hi. unfold hiter_increment. destruct it as [s|]; [|unfold hbad, wreport; destruct has; exact Logic.I]. destruct Hi as [<- Hi].
  eapply hall_bind; [apply hall_advance|]. cbn beta. intros [found s2] e H. cbn [fst snd] in H. destruct found; [apply H; reflexivity|].
  eapply hall_bind; [apply every_destroy|]. intros _ _ _. destruct (e =? 0); [exact Logic.I|]. unfold hbad, wreport. destruct has; exact Logic.I.
Qed.
Lemma hall_advance_stack : forall n l, every OK (hadvance_stack E narrow n l).
Proof.
  intros n l. induction l as [|s l IH]; [exact Logic.I|]. cbn [hadvance_stack]. eapply hall_bind; [apply hall_advance|]. intros [found s2] e _. destruct found; [exact Logic.I|].
  destruct (negb (e =? 0)); [exact Logic.I|]. apply every_bind; [apply every_destroy|]. intros. exact IH.
Qed.
Lemma every_rec_advance : forall n has it, every OK (hrec_advance E narrow n has it).
Proof.
  intros n has it. unfold hrec_advance. destruct (hr_stack it) as [|s l]; [apply hall_end|]. apply every_bind; [apply hall_advance_stack|]. intros l2 e. destruct (negb (e =? 0)); [|apply hall_end].
  apply every_bind; [|intros; apply hall_end]. apply hall_calls; [apply stack_closing_ok|exact Logic.I].
Qed.
Lemma every_rec_pop : forall n has it, every OK (hrec_pop E narrow n has it).
Proof.
  intros n has it. unfold hrec_pop. destruct (hr_stack it) as [|s l]; [apply hall_end|]. apply every_bind; [apply every_destroy|]. intros _ _. destruct l; [apply hall_end|apply every_rec_advance].
Qed.
End Streams.

Lemma asks_next : forall P h, only_asks P (h_FindNext h). Proof. intros. exact Logic.I. Qed.
Lemma asks_close : forall P h, only_asks P (h_FindClose h). Proof. intros. exact Logic.I. Qed.
Local Hint Resolve asks_next asks_close : core.

Lemma every_is_empty : forall (P : str -> Prop) n has p, P (native p) -> every (only_asks P) (his_empty dbg E narrow n has p).
Proof.
  intros P n has p Hp. unfold his_empty. cbn [hall every]. split; [exact Hp|]. intros [last|[attrs size]]; [walk_calls|]. destruct (has_attr attrs FILE_ATTRIBUTE_DIRECTORY); [|walk_calls].
  eapply hall_bind; [apply hall_iter_new; auto; exists (native p); auto|]. intros it e _. apply every_bind; [apply every_iter_destroy; auto|]. intros. walk_calls.
Qed.
Lemma every_rec_new : forall (P : str -> Prop) n has p follow skip, P (native p) -> every (only_asks P) (hrec_new E narrow n has p follow skip).
Proof.
  intros P n has p follow skip Hp. unfold hrec_new. eapply hall_bind; [apply hall_open; auto; exists (native p); auto|]. intros s e _.
  destruct (negb (e =? 0)); [apply hall_scopes; [apply closing_ok; auto|walk_calls]|]. destruct (hs_handle s); [walk_calls|]. apply hall_scopes; [apply closing_ok; auto|walk_calls].
Qed.
(** What a recursive iterator stands at. *)
Definition stands_at (it : hrec) (t : str) : Prop := exists s l, hr_stack it = s :: l /\ t = native (hs_path s).
Lemma hall_recurses : forall follow s, hall (only_asks (fun t => t = native (hs_path s))) (hrecurses dbg follow s) (fun r _ => hs_path (snd r) = hs_path s).
Proof.
  intros follow s. unfold hrecurses. destruct follow; [|reflexivity]. destruct (wd_type_resolved (hs_data s)); [reflexivity|]. eapply hall_bind; [apply every_update_basic; reflexivity|].
  intros [d r] e _. cbn [snd]. destruct r; cbn; auto.
Qed.
Lemma every_rec_increment : forall n has it, every (only_asks (stands_at it)) (hrec_increment dbg E narrow n has it).
Proof.
  intros n has it. unfold hrec_increment. destruct (hr_recursion it); [|apply every_rec_advance; auto]. apply every_bind.
  - unfold hrec_try. destruct (hr_stack it) as [|s l] eqn:Es; [apply hall_end|].
    eapply hall_bind; [eapply hall_weaken; [apply hall_recurses| |intros a e H; exact H]|].
    + intros c Hc. assert (Hs : forall t, t = native (hs_path s) -> stands_at it t) by (intros t ->; exists s, l; auto). destruct c as [| | | | | | | | | |x| | | | | | | | | |c]; cbn in *; auto.
      * destruct Hc; auto.
      * destruct Hc as (t & H1 & H2). eauto.
      * destruct c; auto.
    + cbn beta. intros [go s2] e H. cbn [snd] in H. set (it2 := HRec _ _ _ _).
      assert (Hstay : forall e, every (only_asks (stands_at it)) (if e =? 0 then hret (false, it2) 0 else if (e =? errc_permission_denied) && hr_skip it then hret (false, it2) 0
         else hbind (hcalls (stack_closing (hr_stack it2)) (WE (WRet tt 0))) (fun _ _ => hbad has (false, hrec_end it2) e))).
      { intros e2. destruct (e2 =? 0); [exact Logic.I|]. destruct (_ && _); [exact Logic.I|]. apply every_bind; [|intros; apply hall_end]. apply hall_calls; [apply stack_closing_ok; auto|exact Logic.I]. }
      destruct go; [|apply Hstay]. eapply hall_bind; [apply hall_open; auto; exists (native (hs_path s2)); split; [exists s, l; rewrite H; auto|reflexivity]|].
      intros s3 e3 _. destruct (hs_handle s3); [exact Logic.I|]. apply hall_scopes; [apply closing_ok; auto|apply Hstay].
  - intros [pushed it2] e. destruct (pushed || (has && negb (e =? 0))); [exact Logic.I|]. apply every_rec_advance; auto.
Qed.

(** * Operations that change something *)

Lemma every_set_permissions : forall has p prms, every (setting_permissions p) (hSetPermissions dbg has p prms).
Proof.
  intros has p prms. unfold hSetPermissions. walk_calls. enough (H : forall todo blocks k, (forall bs, every (setting_permissions p) (k bs)) -> every (setting_permissions p) (hmake_aces dbg has todo blocks k)).
  { apply H. intros bs. walk_calls. }
  induction todo as [|a todo IH]; intros blocks k Hk; cbn [hmake_aces]; [apply Hk|]. walk_calls. apply IH. exact Hk.
Qed.
Lemma asks_setting : forall p c, only_asks (fun t => t = native p) c -> setting_permissions p c.
Proof. intros p c H. destruct c; cbn in *; auto; contradiction. Qed.
Lemma every_permissions : forall has p prms opts, every (setting_permissions p) (hpermissions dbg has p prms opts).
Proof.
  intros has p prms opts. unfold hpermissions. cbv zeta. walk_calls;
    first [apply every_set_permissions|eapply every_more; [first [apply (every_symlink_status (fun t => t = native p))|apply (every_status (fun t => t = native p))]; reflexivity|apply asks_setting]].
Qed.
Lemma every_set_time : forall has p t, every (setting_time p) (hset_last_write_time dbg m tps has p t).
Proof. intros. unfold hset_last_write_time. walk_calls. Qed.
Lemma every_resize : forall has p n, every (setting_size p) (hresize_file dbg has p n).
Proof. intros. unfold hresize_file. walk_calls. Qed.

Lemma every_remove : forall (OK : hcall -> Prop) has p, OK (h_Plain (w_Attributes (native p))) -> OK (h_Plain (w_RemoveDirectory (native p))) -> OK (h_Plain (w_DeleteFile (native p))) ->
  every OK (hplain (wremove dbg has p)).
Proof.
  intros OK has p H1 H2 H3. assert (Hf : forall (e : N), every OK (hplain (wfail dbg has false e))) by (intros e; apply hall_end).
  unfold wremove. destruct (empty p); [exact Logic.I|]. cbn [hplain]. split; [exact H1|]. intros [e|attrs].
  - destruct (e =? ERROR_FILE_NOT_FOUND); [exact Logic.I|apply Hf].
  - destruct (has_attr attrs FILE_ATTRIBUTE_DIRECTORY); cbn [hplain]; (split; [assumption|]); (intros [e|u]; [destruct (negb _); [apply Hf|exact Logic.I]|exact Logic.I]).
Qed.

Lemma asks_removing : forall p q c, descends E narrow p q -> only_asks (fun t => t = native q) c -> removing E narrow p c.
Proof.
  intros p q c Hq H. destruct c as [| | | | | | | | | |x| | | | | | | | | |c]; cbn in *; auto.
  - destruct H as [-> H]. split; eauto.
  - destruct H as (t & -> & ->). exists (native q). split; eauto.
  - eauto.
  - destruct c; auto; try contradiction; subst; eauto.
Qed.
Lemma every_remove_entries : forall p q f k n it ec count, descends E narrow p q -> (forall q2, descends E narrow p q2 -> every (removing E narrow p) (f q2)) -> iter_of q it ->
  every (removing E narrow p) (hremove_entries E narrow f k n it ec count).
Proof.
  intros p q f k n it ec count Hq Hf. revert it ec count. induction k as [|k IH]; intros it ec count Hi; [exact Logic.I|]. cbn [hremove_entries].
  assert (N1 : forall h, removing E narrow p (h_FindNext h)) by (intros; exact Logic.I). assert (N2 : forall h, removing E narrow p (h_FindClose h)) by (intros; exact Logic.I).
  destruct it as [s|]; [|exact Logic.I]. pose proof Hi as [Hr (d & nm & D1 & D2 & D3)].
  destruct (negb (ec =? 0)); [apply every_bind; [apply every_destroy; auto|intros; exact Logic.I]|].
  apply every_bind; [apply hall_unwind; [apply closing_ok; auto|apply Hf; eapply descends_entry; eauto]|]. intros c e.
  destruct (negb (e =? 0)); [apply every_bind; [apply every_destroy; auto|intros; exact Logic.I]|].
  eapply hall_bind; [apply hall_unwind; [apply closing_ok; auto|apply hall_iter_increment; eauto]|]. intros it2 e2 Hi2. apply IH. exact Hi2.
Qed.
Lemma every_do_remove_all : forall n p q, descends E narrow p q -> every (removing E narrow p) (hdo_remove_all dbg E narrow n q).
Proof.
  induction n as [|n IH]; intros p q Hq; [exact Logic.I|]. cbn [hdo_remove_all]. apply every_bind.
  { eapply every_more; [apply (every_symlink_status (fun t => t = native q)); reflexivity|]. intros c. apply asks_removing. exact Hq. }
  intros st e. destruct (negb (e =? 0)); [exact Logic.I|].
  assert (Hfin : forall count : N, every (removing E narrow p) (hbind (hplain (wremove dbg true q)) (fun b e2 => if b then hret count e2 else hret umax e2))).
  { intros count. apply every_bind; [apply every_remove; exists q; auto|]. intros [] e2; exact Logic.I. }
  destruct (wis ft_directory st); [|apply Hfin]. eapply hall_bind; [apply hall_iter_new; try (intros; exact Logic.I)|].
  { cbn. exists (native q). split; [exists q; auto|reflexivity]. }
  intros it ec Hi. apply every_bind; [eapply every_remove_entries; eauto|]. intros [count|] e1; [|exact Logic.I]. destruct (negb (e1 =? 0)); [exact Logic.I|apply Hfin].
Qed.
Lemma every_remove_all : forall n has p, every (removing E narrow p) (hremove_all dbg E narrow n has p).
Proof.
  intros n has p. unfold hremove_all. destruct (empty p); [exact Logic.I|]. apply every_bind; [apply every_do_remove_all; constructor|]. intros c e. walk_calls.
Qed.

Lemma every_copy_file : forall has a b o, every (copying_file a b) (hcopy_file dbg m tps has a b o).
Proof.
  intros has a b o. set (P := fun t => t = native a \/ t = native b).
  assert (Hm : forall A (x : hprog A), every (only_asks P) x -> every (copying_file a b) x).
  { intros A x H. eapply every_more; [exact H|]. intros c Hc. destruct c as [| | | | | | | | | | | | | | | | | | | |c]; cbn in *; auto. destruct c; auto. destruct Hc. }
  unfold hcopy_file. cbv zeta. walk_calls; try (apply Hm; first [apply every_status|apply every_last_write_time|apply every_equivalent]; unfold P; auto).
Qed.

Lemma asks_copying : forall p g c (P : str -> Prop), only_asks P c -> copying_tree E narrow p g c.
Proof.
  intros p g c P H. destruct c as [| | | | | | | | | |x| | | | | | | | | |c]; cbn in *; auto.
  - destruct H; auto.
  - destruct H as (t & _ & ->). eauto.
  - destruct c; auto; destruct H.
Qed.
Lemma every_tree : forall p g A (x : hprog A), every (only_asks (fun _ => True)) x -> every (copying_tree E narrow p g) x.
Proof. intros p g A x H. eapply every_more; [exact H|]. intros c. apply asks_copying. Qed.
Lemma every_wsimple : forall (OK : hcall -> Prop) has r, every OK (hplain (wsimple dbg has r)).
Proof. intros OK has [e|u]; [|exact Logic.I]. apply hall_end. Qed.
Lemma every_copy_symlink : forall p g has a b, twins E narrow p g a b -> every (copying_tree E narrow p g) (hcopy_symlink dbg has a b).
Proof.
  intros p g has a b Ht. unfold hcopy_symlink. apply every_bind; [apply every_tree, every_read_symlink; exact Logic.I|]. intros real e. destruct (negb (e =? 0)); [apply hall_end|]. cbv zeta.
  apply every_bind; [apply every_tree, every_status; exact Logic.I|]. intros st e2. destruct (negb (e2 =? 0)); [apply hall_end|].
  destruct (wis ft_directory st); (cbn [hplain wcreate_directory_symlink wcreate_symlink]; split; [exists a, b; auto|]; intros r; apply every_wsimple).
Qed.
Lemma every_file_tree : forall p g has a b o, twin_files E narrow p g a b -> every (copying_tree E narrow p g) (hcopy_file dbg m tps has a b o).
Proof.
  intros p g has a b o Ht. eapply every_more; [apply every_copy_file|]. intros c Hc.
  assert (H : only_asks (fun t => t = native a \/ t = native b) c \/ c = h_Plain (w_CopyFile (native a) (native b) false)).
  { destruct c as [| | | | | | | | | |x| | | | | | | | | |c]; auto. destruct c; auto. destruct fail_if_exists; [destruct Hc|]. destruct Hc as [-> ->]. auto. }
  destruct H as [H| ->]; [eapply asks_copying; exact H|]. exists a, b. auto.
Qed.
Lemma every_copy_entries : forall p g q r f k n has it ec, twins E narrow p g q r -> (forall a b, twins E narrow p g a b -> every (copying_tree E narrow p g) (f a b)) -> iter_of q it ->
  every (copying_tree E narrow p g) (hcopy_entries E narrow f k n has r it ec).
Proof.
  intros p g q r f k n has it ec Ht Hf. revert it ec. induction k as [|k IH]; intros it ec Hi; [exact Logic.I|]. cbn [hcopy_entries].
  assert (N1 : forall h, copying_tree E narrow p g (h_FindNext h)) by (intros; exact Logic.I). assert (N2 : forall h, copying_tree E narrow p g (h_FindClose h)) by (intros; exact Logic.I).
  destruct it as [s|]; [|exact Logic.I]. pose proof Hi as [Hr (d & nm & D1 & D2 & D3)].
  destruct (negb (ec =? 0)); [apply every_bind; [apply every_destroy; auto|intros; apply hall_end]|].
  apply every_bind.
  - apply hall_unwind; [apply closing_ok; auto|]. apply hall_lift. intros fn Hfn. apply hall_lift. intros b Hb. apply Hf. eapply twins_entry; eauto.
  - intros _ e. destruct (negb (e =? 0)); [apply every_bind; [apply every_destroy; auto|intros; apply hall_end]|].
    eapply hall_bind; [apply hall_unwind; [apply closing_ok; auto|apply hall_iter_increment; eauto]|]. intros it2 e2 Hi2. apply IH. exact Hi2.
Qed.
Lemma every_copy : forall n p g has a b o, twins E narrow p g a b -> every (copying_tree E narrow p g) (hcopy dbg E m tps narrow n has a b o).
Proof.
  induction n as [|n IH]; intros p g has a b o Ht; [exact Logic.I|]. cbn [hcopy].
  assert (Hst : forall A (x y : hprog A) (c : bool), every (only_asks (fun _ => True)) x -> every (only_asks (fun _ => True)) y -> every (copying_tree E narrow p g) (if c then x else y)) by (intros A x y []; intros; apply every_tree; auto).
  apply every_bind; [apply Hst; [apply every_symlink_status|apply every_status]; exact Logic.I|]. intros f e1. destruct (negb (e1 =? 0)); [apply hall_end|].
  apply every_bind; [apply Hst; [apply every_symlink_status|apply every_status]; exact Logic.I|]. intros t e2. destruct (negb (wknown t)); [apply hall_end|].
  destruct (_ || _); [apply hall_end|]. apply every_bind; [apply Hst; [apply every_equivalent; exact Logic.I|apply hall_end]|]. intros same e3.
  destruct (negb (e3 =? 0)); [apply hall_end|]. destruct same; [apply hall_end|]. destruct (wis ft_symlink f).
  { destruct (wset co_skip_symlinks o); [apply hall_end|]. destruct (negb (wexists (fst t))); [apply every_copy_symlink; exact Ht|apply hall_end]. }
  destruct (wis ft_regular f).
  { destruct (wset co_directories_only o); [apply hall_end|]. destruct (wset co_create_symlinks o).
    { cbn [hplain wcreate_symlink]. split; [exists a, b; auto|]. intros r. apply every_wsimple. }
    destruct (wset co_create_hard_links o).
    { cbn [hplain wcreate_hard_link]. split; [exists a, b; auto|]. intros r. apply every_wsimple. }
    destruct (wis ft_directory t).
    - apply hall_lift. intros fn Hfn. apply hall_lift. intros to2 Hto. apply every_bind; [|intros; apply hall_end]. apply every_file_tree. right. exists b, fn. auto.
    - apply every_bind; [|intros; apply hall_end]. apply every_file_tree. left. exact Ht. }
  destruct (wis ft_directory f && wset co_create_symlinks o); [apply hall_end|]. destruct (wis ft_directory f && _); [|apply hall_end]. apply every_bind.
  { destruct (negb (wexists (fst t))); [|apply hall_end]. cbn [hplain wcreate_directory_like]. split; [exists a, b; auto|]. intros [e|u]; [|exact Logic.I].
    destruct (negb (e =? ERROR_ALREADY_EXISTS)); [|exact Logic.I]. apply hall_end. }
  intros _ e4. destruct (negb (e4 =? 0)); [apply hall_end|]. eapply hall_bind; [apply hall_iter_new; try (intros; exact Logic.I)|].
  { cbn. exists (native a). auto. }
  intros it ec Hi. destruct (negb (ec =? 0)); [apply every_bind; [apply every_iter_destroy; intros; exact Logic.I|intros; apply hall_end]|].
  eapply every_copy_entries; eauto.
Qed.
End Calls.

(** * C104 *)

(** Queries change nothing and look at nothing but what they are asked about: the file named, for an iterator that goes on what it stands at, and nothing by name for the
    other steps of an iterator. *)
Theorem C104_queries : forall dbg E m tps narrow n has p q follow skip it rit,
  let about t := t = native p in
  (makes (only_asks about) (hstatus dbg has p) /\ makes (only_asks about) (hsymlink_status dbg has p) /\ makes (only_asks about) (hread_symlink dbg has p)) /\
  (makes (only_asks about) (hhard_link_count dbg has p) /\ makes (only_asks about) (hlast_write_time dbg m tps has p) /\ makes (only_asks about) (his_empty dbg E narrow n has p)) /\
  (makes (only_asks (fun t => t = native p \/ t = native q)) (hequivalent dbg has p q) /\ makes (only_asks about) (hrefresh dbg m tps p)) /\
  (makes (only_asks about) (hiter_new E narrow n has p skip) /\ makes (only_asks about) (hrec_new E narrow n has p follow skip)) /\
  (makes (only_asks (fun _ => False)) (hiter_increment E narrow n has it) /\ makes (only_asks (fun _ => False)) (hiter_destroy it)) /\
  (makes (only_asks (stands_at rit)) (hrec_increment dbg E narrow n has rit) /\ makes (only_asks (fun _ => False)) (hrec_pop E narrow n has rit) /\
   makes (only_asks (fun _ => False)) (hrec_destroy rit)).
Proof.
  intros dbg E m tps narrow n has p q follow skip it rit about. repeat match goal with |- _ /\ _ => split end; eapply hall_makes.
  - apply every_status. reflexivity.
  - apply every_symlink_status. reflexivity.
  - apply every_read_symlink. reflexivity.
  - apply every_hard_link_count. reflexivity.
  - apply every_last_write_time. reflexivity.
  - apply every_is_empty. reflexivity.
  - apply every_equivalent; auto.
  - apply every_refresh. reflexivity.
  - apply hall_iter_new; try (intros; exact Logic.I). exists (native p). split; reflexivity.
  - apply every_rec_new. reflexivity.
  - unfold hiter_increment. destruct it as [s|]; [|apply hall_end]. eapply hall_bind; [apply hall_advance; intros; exact Logic.I|]. intros [found s2] e _. destruct found; [exact Logic.I|].
    apply every_bind; [apply every_destroy; intros; exact Logic.I|]. intros. destruct (e =? 0); apply hall_end.
  - apply every_iter_destroy. intros; exact Logic.I.
  - apply every_rec_increment.
  - apply every_rec_pop; intros; exact Logic.I.
  - apply hall_calls with (post := fun _ _ => True); [apply stack_closing_ok; intros; exact Logic.I|exact Logic.I].
Qed.

(** What changes something changes what it is asked to change: permissions, time and size those of the file named, through a handle opened for that; remove_all removes what is
    named and what it found below it; copy_file copies the one file to the other; copy makes each file, directory and link at the place in the target that goes with its place in
    the source, and removes nothing. *)
Theorem C104_changes : forall dbg E m tps narrow n has p q prms opts t size,
  (makes (setting_permissions p) (hpermissions dbg has p prms opts) /\ makes (setting_time p) (hset_last_write_time dbg m tps has p t) /\ makes (setting_size p) (hresize_file dbg has p size)) /\
  makes (removing E narrow p) (hremove_all dbg E narrow n has p) /\
  makes (copying_file p q) (hcopy_file dbg m tps has p q opts) /\
  makes (copying_tree E narrow p q) (hcopy dbg E m tps narrow n has p q opts).
Proof.
  intros dbg E m tps narrow n has p q prms opts t size. repeat match goal with |- _ /\ _ => split end; eapply hall_makes.
  - apply every_permissions.
  - apply every_set_time.
  - apply every_resize.
  - apply every_remove_all.
  - apply every_copy_file.
  - apply every_copy. constructor.
Qed.

(** A case: the calls of remove_all for the directory C:\d of WinHandles.v that change something. *)
Example C104_example :
  let record := snd (snd (hrun (recorded demo_handles) (hremove_all true no_elision Some 9 true (wpath (lit "C:\d"))) ((0%N, []), []))) in
  flat_map (fun e => match e with HEv (h_Plain (w_DeleteFile t)) _ | HEv (h_Plain (w_RemoveDirectory t)) _ => [t] | _ => [] end) record = [lit "C:\d\e\f"; lit "C:\d\e"; lit "C:\d"] /\
  descends no_elision Some (wpath (lit "C:\d")) (wpath (lit "C:\d\e\f")) /\ length record = 37%nat.
Proof.
  split; [vm_compute; reflexivity|]. split; [|vm_compute; reflexivity].
  eapply descends_entry with (d := FindData (lit "f") 32 0) (q := wpath (lit "C:\d\e")); [|reflexivity|reflexivity|vm_compute; reflexivity].
  eapply descends_entry with (d := FindData (lit "e") 16 0); [constructor|reflexivity|reflexivity|vm_compute; reflexivity].
Qed.

Print Assumptions C104_queries.
Print Assumptions C104_changes.
