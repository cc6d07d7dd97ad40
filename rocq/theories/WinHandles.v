(** C93: handles and memory blocks on Windows. Every operation releases what it acquired, releases nothing twice and uses nothing it does not hold,
    on every path including exceptions, provided that the names found in directories can be converted; if one cannot, a search handle is
    lost. Library model: [WinHandleModel.v]; this file adds the bookkeeping. *)
From Coq Require Import Ascii String Bool Arith NArith ZArith Lia List.
From Verif Require Import Str PathModel FlagsModel TimeModel WinPermsModel WinAclModel WinStatModel WinOpsModel WinHandleModel.
Import ListNotations.

(** * Specification: what is held along a trace of calls *)

Inductive resource := RFile (h : N) | RFind (h : N) | RBlock (b : N).
Definition resource_eq_dec : forall a b : resource, {a = b} + {a <> b}.
Proof. decide equality; apply N.eq_dec. Defined.
Arguments resource_eq_dec : simpl never.

Inductive hevent := HEv (c : hcall) (r : hanswer c).

(** What a call acquires. *)
Definition acquires (e : hevent) : list resource :=
  match e with
  | HEv (h_CreateFile _ _ _ _) (inr h) => [RFile h]
  | HEv (h_FindFirst _) (inr (h, _)) => [RFind h]
  | HEv (h_NamedSecurity _) (inr d) => [RBlock d]
  | HEv h_LocalAlloc (inr b) => [RBlock b]
  | HEv (h_SetEntries _ _ _) (inr acl) => [RBlock acl]
  | _ => []
  end.
(** What it releases. *)
Definition releases (c : hcall) : list resource :=
  match c with
  | h_CloseHandle h => [RFile h]
  | h_FindClose (Some h) => [RFind h]
  | h_LocalFree b => [RBlock b]
  | _ => []
  end.
(** What it works on, including what it releases; [None] if it is given INVALID_HANDLE_VALUE. *)
Definition works_on (c : hcall) : option (list resource) :=
  match c with
  | h_CloseHandle h => Some [RFile h]
  | h_Information h | h_AttributeTag h | h_DeviceIoControl h | h_GetFileTime h | h_SetFileTime h _ | h_SetFilePointer h _
  | h_SetEndOfFile h | h_GetFileType h => option_map (fun h => [RFile h]) h
  | h_FindNext h | h_FindClose h => option_map (fun h => [RFind h]) h
  | h_EqualSid d | h_EffectiveRights d _ => Some [RBlock d]
  | h_LocalFree b => Some [RBlock b]
  | h_SetEntries d blocks _ => Some (RBlock d :: map RBlock blocks)
  | h_SetNamedSecurity _ acl => Some [RBlock acl]
  | _ => Some []
  end.

Fixpoint drop_one (x : resource) (l : list resource) : list resource :=
  match l with [] => [] | y :: r => if resource_eq_dec x y then r else y :: drop_one x r end.
Definition holds (held : list resource) (x : resource) : bool := if in_dec resource_eq_dec x held then true else false.

(** What is held after a call, [None] if it works on something that is not held. With [strict] it may not be given the invalid handle
    either; otherwise Windows refuses such a call. *)
Definition settle (strict : bool) (held : list resource) (e : hevent) : option (list resource) :=
  match e with
  | HEv c r =>
      if match works_on c with None => negb strict | Some l => forallb (holds held) l end
      then Some (acquires e ++ fold_right drop_one held (releases c)) else None
  end.
Fixpoint held_after (strict : bool) (held : list resource) (l : list hevent) : option (list resource) :=
  match l with
  | [] => Some held
  | e :: r => match settle strict held e with Some x => held_after strict x r | None => None end
  end.

(** A system that also records the calls it answers. *)
Definition recorded {S} (h : hkernel S) : hkernel (S * list hevent) :=
  fun c sl => let '(r, s') := h c (fst sl) in (r, (s', snd sl ++ [HEv c r])).

(** [p] is started holding [before]. Against every system it works only on what it holds; when it returns [a] it holds [after a] and when it throws
    [thrown]. *)
Definition releases_all {A} (strict : bool) (p : hprog A) (before : list resource) (after : A -> list resource) (thrown : list resource) : Prop :=
  forall S (h : hkernel S) s,
  let '(r, (_, l)) := hrun (recorded h) p (s, []) in
  match r with
  | WE (WRet a _) => held_after strict before l = Some (after a)
  | WE (WThrow _) | WExn => held_after strict before l = Some thrown
  | _ => exists held, held_after strict before l = Some held
  end.

(** * Proof *)

Section Wp.
Variable strict : bool.

(** Not in the specification: weakest precondition; [ex] takes the code of a filesystem_error or [None]. *)
Fixpoint hwp {A} (p : hprog A) (held : list resource) (post : A -> N -> list resource -> Prop) (ex : option N -> list resource -> Prop) : Prop :=
  match p with
  | HEnd (WE (WRet a e)) => post a e held
  | HEnd (WE (WThrow c)) => ex (Some c) held
  | HEnd WExn => ex None held
  | HEnd _ => True
  | HSys c k => forall r, exists held', settle strict held (HEv c r) = Some held' /\ hwp (k r) held' post ex
  end.

Lemma held_after_app : forall l l' held,
  held_after strict held (l ++ l') = match held_after strict held l with Some x => held_after strict x l' | None => None end.
Proof. induction l; intros; cbn; auto. destruct (settle strict held a); auto. Qed.

Lemma hwp_run : forall A (p : hprog A) held post ex, hwp p held post ex ->
  forall S (h : hkernel S) s l0 before, held_after strict before l0 = Some held ->
  let '(r, (_, l)) := hrun (recorded h) p (s, l0) in
  match r with
  | WE (WRet a e) => exists x, held_after strict before l = Some x /\ post a e x
  | WE (WThrow c) => exists x, held_after strict before l = Some x /\ ex (Some c) x
  | WExn => exists x, held_after strict before l = Some x /\ ex None x
  | _ => exists x, held_after strict before l = Some x
  end.
Proof.
  intros A p. induction p as [r|c k IH]; intros held post ex H S h s l0 before Hl; cbn [hrun].
  - destruct r as [[a e|c|]| | |]; cbn in H; exists held; auto.
  - cbn in H. unfold recorded at 1. cbn [fst snd]. destruct (h c s) as [r s1]. destruct (H r) as (x & Hx & Hw).
    apply (IH r x post ex Hw S h s1). rewrite held_after_app, Hl. cbn. cbn in Hx. rewrite Hx. reflexivity.
Qed.

Lemma hwp_mono : forall A (p : hprog A) held (post post' : A -> N -> list resource -> Prop) (ex ex' : option N -> list resource -> Prop),
  hwp p held post ex -> (forall a e l, post a e l -> post' a e l) -> (forall c l, ex c l -> ex' c l) -> hwp p held post' ex'.
Proof.
  intros A p. induction p as [r|c k IH]; intros held post post' ex ex' H Hp He.
  - destruct r as [[a e|c|]| | |]; cbn in *; auto.
  - cbn in *. intros r. destruct (H r) as (x & Hx & Hw). exists x. split; eauto.
Qed.

Lemma hwp_releases : forall A (p : hprog A) before after thrown,
  hwp p before (fun a _ l => l = after a) (fun _ l => l = thrown) -> releases_all strict p before after thrown.
Proof.
  intros A p before after thrown H S h s. pose proof (hwp_run _ p before _ _ H S h s [] before eq_refl) as Hr.
  destruct (hrun (recorded h) p (s, [])) as [r [s' l]]. destruct r as [[a e|c|]| | |]; auto;
    destruct Hr as (x & Hx & ->); exact Hx.
Qed.

Lemma hwp_bind : forall A B (p : hprog A) (f : A -> N -> hprog B) held post ex,
  hwp p held (fun a e l => hwp (f a e) l post ex) ex -> hwp (hbind p f) held post ex.
Proof.
  intros A B p f. induction p as [r|c k IH]; intros held post ex H.
  - destruct r as [[a e|c|]| | |]; cbn in *; auto.
  - cbn in *. intros r. destruct (H r) as (y & Hy & Hw). exists y. auto.
Qed.

Lemma drop_head : forall x l, drop_one x (x :: l) = l.
Proof. intros. cbn. destruct (resource_eq_dec x x); congruence. Qed.
Lemma holds_in : forall held x, In x held -> holds held x = true.
Proof. intros. unfold holds. destruct (in_dec resource_eq_dec x held); tauto. Qed.
Lemma holds_all : forall held l, incl l held -> forallb (holds held) l = true.
Proof. intros held l H. apply forallb_forall. intros x Hx. apply holds_in. auto. Qed.

(** A call that releases [x], held first in the list. *)
Definition gives_back (c : hcall) (x : resource) : Prop :=
  releases c = [x] /\ works_on c = Some [x] /\ forall r, acquires (HEv c r) = [].
Lemma back_file : forall h, gives_back (h_CloseHandle h) (RFile h).
Proof. intros. split; [|split]; reflexivity. Qed.
Lemma back_block : forall h, gives_back (h_LocalFree h) (RBlock h).
Proof. intros. split; [|split]; reflexivity. Qed.
Lemma back_find : forall h, gives_back (h_FindClose (Some h)) (RFind h).
Proof. intros. split; [|split]; reflexivity. Qed.
Lemma settle_back : forall c x, gives_back c x -> forall r l, settle strict (x :: l) (HEv c r) = Some l.
Proof.
  intros c x (Hr & Hw & Ha) r l. unfold settle. rewrite Hw, Hr, (Ha r). cbn [forallb fold_right app]. rewrite holds_in by (left; reflexivity).
  cbn [andb]. rewrite drop_head. reflexivity.
Qed.

Lemma hwp_scope : forall A c x, gives_back c x -> forall (p : hprog A) held post ex,
  hwp p held (fun a e l => exists l', l = x :: l' /\ post a e l') (fun o l => exists l', l = x :: l' /\ ex o l') ->
  hwp (hscope c p) held post ex.
Proof.
  intros A c x Hg p. induction p as [r|c' k IH]; intros held post ex H.
  - cbn [hscope]. destruct r as [[a e|z|]| | |]; cbn [leaves]; try exact Logic.I; cbn in H; destruct H as (l' & -> & H); cbn [hwp]; intros y; exists l';
      (split; [exact (settle_back c x Hg y l')|exact H]).
  - cbn in *. intros r. destruct (H r) as (y & Hy & Hw). exists y. auto.
Qed.

Lemma hwp_calls : forall A cs xs (r : wend A) l post ex, Forall2 gives_back cs xs ->
  hwp (HEnd r) l post ex -> hwp (hcalls cs r) (xs ++ l) post ex.
Proof.
  intros A cs xs r l post ex H Hr. induction H as [|c x cs xs Hc Hs IH]; [exact Hr|]. cbn [hcalls hwp app]. intros y. exists (xs ++ l). split; [|exact IH].
  exact (settle_back c x Hc y _).
Qed.

Lemma hwp_unwind : forall A cs xs, Forall2 gives_back cs xs -> forall (p : hprog A) held post ex,
  hwp p held post (fun o l => exists l', l = xs ++ l' /\ ex o l') -> hwp (hunwind cs p) held post ex.
Proof.
  intros A cs xs Hg p. induction p as [r|c' k IH]; intros held post ex H.
  - cbn [hunwind]. destruct r as [[a e|z|]| | |]; cbn [throws]; try exact H; cbn in H; destruct H as (l' & -> & H); apply hwp_calls; auto.
  - cbn in *. intros r. destruct (H r) as (y & Hy & Hw). exists y. auto.
Qed.

Lemma hwp_catch : forall A (p : hprog A) f held post ex,
  hwp p held post (fun o l => match o with Some c => hwp (f c) l post ex | None => ex None l end) -> hwp (hcatch p f) held post ex.
Proof.
  intros A p f. induction p as [r|c' k IH]; intros held post ex H.
  - cbn [hcatch]. destruct r as [[a e|z|]| | |]; exact H.
  - cbn in *. intros r. destruct (H r) as (y & Hy & Hw). exists y. auto.
Qed.

Lemma hwp_lift : forall A B (x : out A) (f : A -> hprog B) held post ex,
  (forall a, x = Ok a -> hwp (f a) held post ex) -> (forall e, x = Throw e -> ex None held) -> hwp (hlift x f) held post ex.
Proof. intros A B [] f held post ex H He; cbn; eauto. Qed.

(** ** Programs that hold at the end what they held at the start *)

Definition keeps {A} (xs : list resource) (p : hprog A) : Prop :=
  forall held, incl xs held -> hwp p held (fun _ _ l => l = held) (fun _ l => l = held).

Lemma keeps_end : forall A xs (r : wend A), keeps xs (HEnd r).
Proof. intros A xs r held H. destruct r as [[a e|z|]| | |]; cbn; auto. Qed.
Lemma keeps_more : forall A xs ys (p : hprog A), incl xs ys -> keeps xs p -> keeps ys p.
Proof. intros A xs ys p Hi Hp held Hh. apply Hp. eapply incl_tran; eauto. Qed.
Lemma keeps_bind : forall A B xs (p : hprog A) (f : A -> N -> hprog B), keeps xs p -> (forall a e, keeps xs (f a e)) -> keeps xs (hbind p f).
Proof.
  intros A B xs p f Hp Hf held Hh. apply hwp_bind. eapply hwp_mono; [apply Hp; exact Hh| |]; cbn; auto. intros a e l ->. apply Hf. exact Hh.
Qed.

Definition plain_use (xs : list resource) (c : hcall) : Prop :=
  (forall r, acquires (HEv c r) = []) /\ releases c = [] /\ match works_on c with None => strict = false | Some l => incl l xs end.
Lemma keeps_sys : forall A xs c (k : hanswer c -> hprog A), plain_use xs c -> (forall r, keeps xs (k r)) -> keeps xs (HSys c k).
Proof.
  intros A xs c k (Ha & Hr & Hu) Hk held Hh. cbn [hwp]. intros r. exists held. split; [|apply Hk; exact Hh]. unfold settle. rewrite (Ha r), Hr. cbn.
  destruct (works_on c) as [l|]; [|rewrite Hu; reflexivity]. rewrite holds_all; [reflexivity|]. eapply incl_tran; eauto.
Qed.
Lemma keeps_lift : forall A B xs (x : out A) (f : A -> hprog B), (forall a, keeps xs (f a)) -> keeps xs (hlift x f).
Proof. intros A B xs [] f H; cbn; auto; apply keeps_end. Qed.
Lemma keeps_catch : forall A xs (p : hprog A) f, keeps xs p -> (forall c, keeps xs (f c)) -> keeps xs (hcatch p f).
Proof.
  intros A xs p f Hp Hf held Hh. apply hwp_catch. eapply hwp_mono; [apply Hp; exact Hh|auto|]. intros [c|] l ->; auto. apply Hf. exact Hh.
Qed.
(** A call that acquires [x], which [p] then releases. *)
Lemma keeps_scope : forall A xs c x (p : hprog A), gives_back c x -> keeps (x :: xs) p ->
  forall held, incl xs held -> hwp (hscope c p) (x :: held) (fun _ _ l => l = held) (fun _ l => l = held).
Proof.
  intros A xs c x p Hg Hp held Hh. apply (hwp_scope A c x Hg). eapply hwp_mono; [apply (Hp (x :: held)); apply incl_cons; [left; reflexivity|apply incl_tl; exact Hh]| |];
    cbn; intros; subst; eauto.
Qed.
End Wp.

Lemma keeps_safe : forall A strict (p : hprog A) before, keeps strict [] p -> releases_all strict p before (fun _ => before) before.
Proof. intros A strict p before H. apply hwp_releases. apply H. intros x []. Qed.

Section Ops.
Variable dbg : bool.
Variable E : elision.
Variable m : signed_mode.
Variable tps : Z.

Lemma keeps_capture : forall A xs last (k : N -> hprog A), (forall e, keeps dbg xs (k e)) -> keeps dbg xs (hcapture dbg last k).
Proof. intros. unfold hcapture. destruct (dbg && _); [apply keeps_end|auto]. Qed.
Lemma keeps_file : forall A xs p a s f (bad : N -> hprog A) body,
  (forall e, keeps dbg xs (bad e)) -> (dbg = false -> keeps dbg xs (body None)) -> (forall h, keeps dbg (RFile h :: xs) (body (Some h))) ->
  keeps dbg xs (with_file dbg p a s f bad body).
Proof.
  intros A xs p a s f bad body Hb Hn Hs held Hh. unfold with_file. cbn [hwp]. intros [last|h].
  - exists held. split; [reflexivity|]. unfold hcapture. destruct dbg eqn:Hd; cbn [andb].
    + destruct (last =? 0)%N eqn:Hl; [exact Logic.I|apply Hb; exact Hh].
    + destruct (last =? 0)%N; [apply Hn|apply Hb]; auto.
  - exists (RFile h :: held). split; [reflexivity|]. apply keeps_scope with (x := RFile h) (xs := xs); auto using back_file.
Qed.
Lemma keeps_block : forall A xs c (k : hanswer c -> hprog A) (got : hanswer c -> option N),
  (forall r, acquires (HEv c r) = match got r with Some b => [RBlock b] | None => [] end) ->
  releases c = [] -> match works_on c with None => False | Some l => incl l xs end ->
  (forall r, match got r with
             | Some b => exists p, k r = hscope (h_LocalFree b) p /\ keeps dbg (RBlock b :: xs) p
             | None => keeps dbg xs (k r)
             end) -> keeps dbg xs (HSys c k).
Proof.
  intros A xs c k got Ha Hr Hw Hk held Hh. cbn [hwp]. intros r. unfold settle. rewrite (Ha r), Hr.
  destruct (works_on c) as [l|]; [|destruct Hw]. rewrite holds_all by (eapply incl_tran; eauto). specialize (Hk r). destruct (got r) as [b|].
  - eexists. split; [reflexivity|]. destruct Hk as (p & -> & Hp). cbn [app fold_right].
    apply keeps_scope with (x := RBlock b) (xs := xs); auto using back_block.
  - eexists. split; [reflexivity|]. apply Hk. exact Hh.
Qed.

Create HintDb keeps.
Hint Resolve keeps_end : keeps.
Ltac inc := intros ? ?; cbn in *; intuition.
Ltac kp1 :=
  match goal with
  | |- keeps _ _ (hbind _ _) => apply keeps_bind; [|intros]
  | |- keeps _ _ (HEnd _) => apply keeps_end
  | |- keeps _ _ (hret _ _) => apply keeps_end
  | |- keeps _ _ (hbad _ _ _) => apply keeps_end
  | |- keeps _ _ (hupd _) => apply keeps_end
  | |- keeps _ _ (hfail _ _ _ _) => apply keeps_capture; intros
  | |- keeps _ _ (hupd_fail _ _ _ _) => apply keeps_capture; intros
  | |- keeps _ _ (hcapture _ _ _) => apply keeps_capture; intros
  | |- keeps _ _ (with_file _ _ _ _ _ _ _) => apply keeps_file; [intros| intros ?|intros]
  | |- keeps _ _ (hcatch _ _) => apply keeps_catch; [|intros]
  | |- keeps _ _ (hlift _ _) => apply keeps_lift; intros
  | |- keeps _ _ (HSys _ _) => apply keeps_sys; [split; [intros; reflexivity|split; [reflexivity|first [assumption|cbn; inc]]]|intros]
  | |- keeps _ _ _ => solve [auto with keeps]
  | |- keeps _ _ (let '(_, _) := ?x in _) => destruct x
  | |- keeps _ _ (match ?x with _ => _ end) => destruct x
  | |- keeps _ ?xs ?p => match xs with [] => fail 1 | _ => apply keeps_more with (xs := []); [inc|solve [auto with keeps]] end
  end.
Ltac kp := repeat kp1.

Lemma keeps_permission_step : forall xs has d t attr prms k, In (RBlock d) xs -> (forall p, keeps dbg xs (k p)) ->
  keeps dbg xs (hpermission_step dbg has d t attr prms k).
Proof.
  intros xs has d t attr prms k Hd Hk. unfold hpermission_step. apply keeps_sys.
  - split; [reflexivity|split; [reflexivity|]]. cbn. intros x [<-|[]]. exact Hd.
  - intros r. destruct (GetTrusteePermissions _ _ _ _) as [p e|c|]; kp.
Qed.
Lemma keeps_get_permissions : forall has p attr, keeps dbg [] (hGetPermissions dbg has p attr).
Proof.
  intros has p attr. unfold hGetPermissions.
  apply keeps_block with (got := fun r => match r with inl _ => None | inr d => Some d end); [intros []; reflexivity|reflexivity|intros x []|].
  intros [last|d]; [kp|]. eexists. split; [reflexivity|]. apply keeps_permission_step; [left; reflexivity|]. intros p1. apply keeps_sys.
  - split; [reflexivity|split; [reflexivity|]]. cbn. inc.
  - intros []; [|apply keeps_permission_step; [left; reflexivity|intros p2]]; apply keeps_permission_step; try (left; reflexivity); intros; kp.
Qed.
Hint Resolve keeps_get_permissions : keeps.
Lemma keeps_with_permissions : forall has p attr k, (forall x, keeps dbg [] (k x)) -> keeps dbg [] (hwith_permissions dbg has p attr k).
Proof. intros. unfold hwith_permissions. kp. Qed.

Lemma keeps_status : forall has p, keeps dbg [] (hstatus dbg has p).
Proof.
  intros. unfold hstatus. apply keeps_sys; [split; [reflexivity|split; [reflexivity|intros x []]]|]. intros [last|attrs]; [kp|]. apply keeps_bind.
  - kp.
  - intros [e|attr] _; [kp|]. apply keeps_with_permissions. intros. kp.
Qed.
Lemma keeps_is_symlink : forall has p, keeps dbg [] (hIsReparsePointSymlink dbg has p).
Proof. intros. unfold hIsReparsePointSymlink. kp. Qed.
Hint Resolve keeps_status keeps_is_symlink : keeps.
Lemma keeps_symlink_status : forall has p, keeps dbg [] (hsymlink_status dbg has p).
Proof.
  intros. unfold hsymlink_status. apply keeps_sys; [split; [reflexivity|split; [reflexivity|intros x []]]|]. intros [last|attrs]; [kp|].
  apply keeps_with_permissions. intros. kp.
Qed.
Hint Resolve keeps_symlink_status : keeps.

Lemma keeps_make_aces : forall has todo xs blocks k,
  (forall bs, keeps dbg (map RBlock bs ++ xs) (k (bs ++ blocks))) -> keeps dbg xs (hmake_aces dbg has todo blocks k).
Proof.
  intros has todo. induction todo as [|a todo IH]; intros xs blocks k Hk; cbn [hmake_aces]; [exact (Hk [])|].
  apply keeps_block with (got := fun r => match r with inl _ => None | inr d => Some d end); [intros []; reflexivity|reflexivity|intros x []|].
  intros [last|b]; [kp|]. eexists. split; [reflexivity|]. apply IH. intros bs. specialize (Hk (bs ++ [b])). rewrite <- app_assoc in Hk. cbn in Hk.
  rewrite map_app, <- app_assoc in Hk. exact Hk.
Qed.
Lemma keeps_set_permissions : forall has p prms, keeps dbg [] (hSetPermissions dbg has p prms).
Proof.
  intros has p prms. unfold hSetPermissions.
  apply keeps_block with (got := fun r => match r with inl _ => None | inr d => Some d end); [intros []; reflexivity|reflexivity|intros x []|].
  intros [last|d]; [kp|]. eexists. split; [reflexivity|]. apply keeps_sys; [split; [reflexivity|split; [reflexivity|cbn; inc]]|]. intros same.
  apply keeps_make_aces. intros bs. rewrite app_nil_r.
  apply keeps_block with (got := fun r => match r with inl _ => None | inr d => Some d end); [intros []; reflexivity|reflexivity| |].
  - cbn. apply incl_cons; [apply in_or_app; right; left; reflexivity|apply incl_appl; apply incl_refl].
  - intros [code|acl]; [kp|]. eexists. split; [reflexivity|]. kp.
Qed.
Hint Resolve keeps_set_permissions : keeps.
Lemma keeps_permissions : forall has p prms opts, keeps dbg [] (hpermissions dbg has p prms opts).
Proof. intros. unfold hpermissions. cbv zeta. kp. Qed.

Lemma keeps_read_symlink : forall has p, keeps dbg [] (hread_symlink dbg has p).
Proof. intros. unfold hread_symlink. kp. Qed.
Lemma keeps_equivalent : forall has p q, keeps dbg [] (hequivalent dbg has p q).
Proof. intros. unfold hequivalent. kp. Qed.
Lemma keeps_hard_link_count : forall has p, keeps dbg [] (hhard_link_count dbg has p).
Proof. intros. unfold hhard_link_count. kp. Qed.
Lemma keeps_last_write_time : forall has p, keeps dbg [] (hlast_write_time dbg m tps has p).
Proof. intros. unfold hlast_write_time. kp. Qed.
Lemma keeps_set_last_write_time : forall has p t, keeps dbg [] (hset_last_write_time dbg m tps has p t).
Proof. intros. unfold hset_last_write_time. kp. Qed.
Lemma keeps_resize_file : forall has p n, keeps dbg [] (hresize_file dbg has p n).
Proof. intros. unfold hresize_file. kp. Qed.
Hint Resolve keeps_read_symlink keeps_equivalent keeps_last_write_time : keeps.

Lemma keeps_update_basic : forall has follow p d, keeps dbg [] (hUpdateBasic dbg has follow p d).
Proof. intros. unfold hUpdateBasic. kp. Qed.
Lemma keeps_when : forall A xs c (b : bool) (p q r : hprog A), keeps dbg xs p -> keeps dbg xs q -> keeps dbg xs r ->
  keeps dbg xs (match c with WEmpty => if b then p else r | WBasic => if b then q else r | _ => r end) /\
  keeps dbg xs (match c with WEmpty => if b then p else r | WFull => if b then q else r | _ => r end).
Proof. intros A xs [] [] p q r Hp Hq Hr; auto. Qed.
Lemma keeps_update_extra : forall has follow p d, keeps dbg [] (hUpdateExtra dbg m tps has follow p d).
Proof. intros. unfold hUpdateExtra. apply keeps_when; kp. Qed.
Lemma keeps_permission_block : forall has p flags d, keeps dbg [] (hpermission_block dbg has p flags d).
Proof. intros. unfold hpermission_block. kp. apply keeps_more with (xs := []); [inc|]. auto with keeps.
Qed.
Hint Resolve keeps_update_basic keeps_update_extra keeps_permission_block : keeps.
Lemma keeps_update_permissions : forall has follow p d, keeps dbg [] (hUpdatePermissions dbg has follow p d).
Proof. intros. unfold hUpdatePermissions. apply keeps_when; kp. Qed.
Hint Resolve keeps_update_permissions : keeps.
Lemma keeps_refresh : forall p, keeps dbg [] (hrefresh dbg m tps p).
Proof. intros. unfold hrefresh, hthen. kp. Qed.

Lemma keeps_plain : forall A (p : wprog A), keeps dbg [] (hplain p).
Proof. intros A p. induction p as [r|c k IH]; cbn [hplain]; kp. Qed.
Hint Resolve keeps_plain : keeps.
Lemma keeps_copy_file : forall has p q o, keeps dbg [] (hcopy_file dbg m tps has p q o).
Proof. intros. unfold hcopy_file. cbv zeta. kp. Qed.
Lemma keeps_copy_symlink : forall has p q, keeps dbg [] (hcopy_symlink dbg has p q).
Proof. intros. unfold hcopy_symlink. cbv zeta. kp. Qed.
Hint Resolve keeps_copy_file keeps_copy_symlink : keeps.

(** ** Programs that never throw *)

Fixpoint silent {A} (p : hprog A) : Prop :=
  match p with HEnd r => throws r = false | HSys _ k => forall r, silent (k r) end.
Lemma hwp_silent : forall A strict (p : hprog A) held post ex, silent p -> hwp strict p held post ex -> hwp strict p held post (fun _ _ => False).
Proof.
  intros A strict p. induction p as [r|c k IH]; intros held post ex Hs H.
  - destruct r as [[a e|c|]| | |]; cbn in *; auto; discriminate.
  - cbn in *. intros r. destruct (H r) as (x & Hx & Hw). exists x. split; eauto.
Qed.
Lemma silent_bind : forall A B (p : hprog A) (f : A -> N -> hprog B), silent p -> (forall a e, silent (f a e)) -> silent (hbind p f).
Proof.
  intros A B p f Hp Hf. induction p as [r|c k IH].
  - destruct r as [[a e|c|]| | |]; cbn in *; auto.
  - cbn in *. auto.
Qed.
Lemma silent_scope : forall A c (p : hprog A), silent p -> silent (hscope c p).
Proof.
  intros A c p Hp. induction p as [r|c' k IH].
  - cbn [hscope]. destruct (leaves r); cbn; auto.
  - cbn in *. auto.
Qed.
(** Programs that throw nothing but filesystem_error. *)
Fixpoint tame {A} (p : hprog A) : Prop :=
  match p with HEnd r => match r with WExn => False | _ => True end | HSys _ k => forall r, tame (k r) end.
Lemma tame_scope : forall A c (p : hprog A), tame p -> tame (hscope c p).
Proof.
  intros A c p Hp. induction p as [r|c' k IH].
  - cbn [hscope]. destruct (leaves r); cbn; auto.
  - cbn in *. auto.
Qed.
Lemma silent_catch : forall A (p : hprog A) f, tame p -> (forall c, silent (f c)) -> silent (hcatch p f).
Proof.
  intros A p f Hp Hf. induction p as [r|c k IH].
  - destruct r as [[a e|c|]| | |]; cbn in *; auto. destruct Hp.
  - cbn in *. auto.
Qed.
Lemma tame_bind : forall A B (p : hprog A) (f : A -> N -> hprog B), tame p -> (forall a e, tame (f a e)) -> tame (hbind p f).
Proof.
  intros A B p f Hp Hf. induction p as [r|c k IH].
  - destruct r as [[a e|c|]| | |]; cbn in *; auto.
  - cbn in *. auto.
Qed.
Lemma silent_tame : forall A (p : hprog A), silent p -> tame p.
Proof. intros A p. induction p as [r|c k IH]; cbn; auto. destruct r as [[a e|c|]| | |]; cbn; auto. discriminate. Qed.
Lemma silent_capture : forall A last (k : N -> hprog A), (forall e, silent (k e)) -> silent (hcapture dbg last k).
Proof. intros. unfold hcapture. destruct (dbg && _); [reflexivity|auto]. Qed.
Lemma silent_file : forall A p a s f (bad : N -> hprog A) body, (forall e, silent (bad e)) -> (forall h, silent (body h)) ->
  silent (with_file dbg p a s f bad body).
Proof.
  intros A p a s f bad body Hb Hs. unfold with_file. cbn [silent]. intros [last|h].
  - apply silent_capture. intros e. destruct (e =? 0)%N; auto.
  - apply silent_scope. auto.
Qed.
Lemma silent_lift : forall A B (x : out A) (f : A -> hprog B), (forall e, x <> Throw e) -> (forall a, silent (f a)) -> silent (hlift x f).
Proof. intros A B [] f H Hf; cbn; auto. destruct (H e eq_refl). Qed.

Create HintDb silent.
Ltac si1 :=
  match goal with
  | |- silent (hbind _ _) => apply silent_bind; [|intros]
  | |- silent (HEnd _) => reflexivity
  | |- silent (hret _ _) => reflexivity
  | |- silent (hbad true _ _) => reflexivity
  | |- silent (hupd _) => reflexivity
  | |- silent (hfail _ true _ _) => apply silent_capture; intros
  | |- silent (hupd_fail _ true _ _) => apply silent_capture; intros
  | |- silent (hcapture _ _ _) => apply silent_capture; intros
  | |- silent (with_file _ _ _ _ _ _ _) => apply silent_file; intros
  | |- silent (hscope _ _) => apply silent_scope
  | |- silent (HSys _ _) => cbn [silent hanswer]; intros
  | |- silent _ => solve [auto with silent]
  | |- silent (let '(_, _) := ?x in _) => destruct x
  | |- silent (match ?x with _ => _ end) => destruct x
  end.
Ltac si := repeat si1.

Lemma tame_is_symlink : forall has p, tame (hIsReparsePointSymlink dbg has p).
Proof.
  intros has p. unfold hIsReparsePointSymlink, with_file. cbn [tame hanswer]. unfold hcapture, hfail, hbad, hret, hcapture, wreport.
  intros [last|h].
  - destruct (dbg && _); [exact Logic.I|]. destruct (last =? 0)%N; [|destruct has; exact Logic.I]. cbn [tame hanswer]. intros [l2|d]; [|exact Logic.I].
    destruct (dbg && _); [exact Logic.I|destruct has; exact Logic.I].
  - apply tame_scope. cbn [tame hanswer]. intros [l2|d]; [|exact Logic.I].
    destruct (dbg && _); [exact Logic.I|destruct has; exact Logic.I].
Qed.
Lemma silent_is_symlink : forall p, silent (hIsReparsePointSymlink dbg true p).
Proof. intros. unfold hIsReparsePointSymlink. si. Qed.
Lemma process_not_throws : forall has e, throws (WE (ProcessStatusFailure has e)) = false.
Proof.
  intros. unfold ProcessStatusFailure. destruct (e =? 0)%N; [reflexivity|]. destruct (IsNotFoundError e); [reflexivity|].
  destruct (e =? ERROR_SHARING_VIOLATION)%N; [reflexivity|]. destruct has; reflexivity.
Qed.
Lemma silent_process : forall has e, silent (HEnd (WE (ProcessStatusFailure has e))).
Proof. exact process_not_throws. Qed.
Lemma silent_permission_step : forall d t attr prms k, (forall p, silent (k p)) -> silent (hpermission_step dbg true d t attr prms k).
Proof.
  intros d t attr prms k Hk. unfold hpermission_step. cbn [silent hanswer]. intros r.
  destruct (GetTrusteePermissions dbg _ t attr) as [p e|c|] eqn:Hg; [destruct (e =? 0)%N; [apply Hk|]| |reflexivity].
  - cbn. unfold ProcessPermissionsFailure. destruct (IsNotFoundError e); [reflexivity|]. destruct (e =? ERROR_SHARING_VIOLATION)%N; reflexivity.
  - exfalso. unfold GetTrusteePermissions in Hg. cbn [s_rights] in Hg. destruct r as [[ret last]|mask].
    + destruct (ret =? ERROR_INVALID_ACL)%N; [discriminate|]. unfold wcapture in Hg. destruct (dbg && _); discriminate.
    + destruct (trustee_permissions t mask attr); discriminate.
Qed.
Lemma silent_get_permissions : forall p attr, silent (hGetPermissions dbg true p attr).
Proof.
  intros p attr. unfold hGetPermissions. cbn [silent hanswer]. intros [last|d]; [si|]. apply silent_scope.
  apply silent_permission_step. intros p1. cbn [silent hanswer]. intros []; [|apply silent_permission_step; intros p2];
    apply silent_permission_step; intros; si.
Qed.
Hint Resolve silent_is_symlink silent_process silent_get_permissions : silent.
Lemma silent_with_permissions : forall has p attr k, (forall x, silent (k x)) -> silent (hwith_permissions dbg has p attr k).
Proof.
  intros has p attr k Hk. unfold hwith_permissions. apply silent_bind; [auto with silent|]. intros a e. destruct (e =? 0)%N; [auto|apply silent_process].
Qed.
Lemma silent_status : forall has p, silent (hstatus dbg has p).
Proof.
  intros has p. unfold hstatus. cbn [silent hanswer]. intros [last|attrs].
  - apply silent_capture. intros. apply silent_process.
  - apply silent_bind; [si|]. intros [e|attr] _; [apply silent_process|]. apply silent_with_permissions. intros. si.
Qed.
Lemma silent_symlink_status : forall p, silent (hsymlink_status dbg true p).
Proof.
  intros p. unfold hsymlink_status. cbn [silent hanswer]. intros [last|attrs].
  - apply silent_capture. intros. apply silent_process.
  - apply silent_with_permissions. intros. si.
Qed.
Lemma silent_make_aces : forall todo blocks k, (forall bs, silent (k bs)) -> silent (hmake_aces dbg true todo blocks k).
Proof. induction todo; intros blocks k Hk; cbn [hmake_aces]; [apply Hk|]. cbn [silent hanswer]. intros [last|b]; [si|]. apply silent_scope. auto. Qed.
Lemma silent_set_permissions : forall p prms, silent (hSetPermissions dbg true p prms).
Proof.
  intros p prms. unfold hSetPermissions. cbn [silent hanswer]. intros [code|d]; [si|]. apply silent_scope. cbn [silent hanswer]. intros same.
  apply silent_make_aces. intros bs. si.
Qed.
Hint Resolve silent_status silent_symlink_status silent_set_permissions : silent.
Lemma silent_permissions : forall p prms opts, silent (hpermissions dbg true p prms opts).
Proof. intros. unfold hpermissions. cbv zeta. si. Qed.
Lemma silent_update_basic : forall follow p d, silent (hUpdateBasic dbg true follow p d).
Proof.
  intros follow p d. unfold hUpdateBasic. cbn [silent hanswer]. intros [last|attr]; [si|]. cbv zeta. apply silent_bind; [|intros; si].
  destruct (has_attr _ _); [|si]. apply silent_catch; [|intros; si]. apply tame_bind; [apply tame_is_symlink|]. intros. exact Logic.I.
Qed.

(** Programs whose values all satisfy [P]. *)
Fixpoint rets {A} (P : A -> Prop) (p : hprog A) : Prop :=
  match p with HEnd (WE (WRet a _)) => P a | HEnd _ => True | HSys _ k => forall r, rets P (k r) end.
Lemma hwp_rets : forall A strict P (p : hprog A) held post ex, rets P p -> hwp strict p held post ex ->
  hwp strict p held (fun a e l => post a e l /\ P a) ex.
Proof.
  intros A strict P p. induction p as [r|c k IH]; intros held post ex Hs H.
  - destruct r as [[a e|c|]| | |]; cbn in *; auto.
  - cbn in *. intros r. destruct (H r) as (x & Hx & Hw). exists x. split; eauto.
Qed.
Lemma rets_bind : forall A B P Q (p : hprog A) (f : A -> N -> hprog B), rets P p -> (forall a e, P a -> rets Q (f a e)) -> rets Q (hbind p f).
Proof.
  intros A B P Q p f Hp Hf. induction p as [r|c k IH].
  - destruct r as [[a e|c|]| | |]; cbn in *; auto.
  - cbn in *. auto.
Qed.
Lemma rets_scope : forall A P c (p : hprog A), rets P p -> rets P (hscope c p).
Proof.
  intros A P c p Hp. induction p as [r|c' k IH].
  - cbn [hscope]. destruct r as [[a e|z|]| | |]; cbn [leaves]; cbn; auto.
  - cbn in *. auto.
Qed.
Lemma rets_catch : forall A P (p : hprog A) f, rets P p -> (forall c, rets P (f c)) -> rets P (hcatch p f).
Proof.
  intros A P p f Hp Hf. induction p as [r|c k IH].
  - destruct r as [[a e|c|]| | |]; cbn in *; auto.
  - cbn in *. auto.
Qed.
Lemma rets_any : forall A (p : hprog A), rets (fun _ => True) p.
Proof. intros A p. induction p as [r|c k IH]; cbn; auto. destruct r as [[a e|c|]| | |]; auto. Qed.
Definition calm_upd (u : upd) : Prop := forall c, snd u <> WThrow c.
Lemma rets_update_basic : forall follow p d, rets calm_upd (hUpdateBasic dbg true follow p d).
Proof.
  assert (Hc : forall last (k : N -> hprog upd), (forall e, rets calm_upd (k e)) -> rets calm_upd (hcapture dbg last k)).
  { intros last k Hk. unfold hcapture. destruct (dbg && _); [exact Logic.I|auto]. }
  assert (Hf : forall d last, rets calm_upd (hupd_fail dbg true d last)).
  { intros d last. apply Hc. intros e c. discriminate. }
  intros follow p d. unfold hUpdateBasic. cbn [rets hanswer]. intros [last|attr]; [apply Hf|]. cbv zeta.
  apply rets_bind with (P := fun x => match x with inl _ => True | inr u => calm_upd u end).
  - destruct (has_attr _ _); [|exact Logic.I]. apply rets_catch; [|intros c; cbn; intros c' H; discriminate].
    apply rets_bind with (P := fun _ => True); [apply rets_any|]. intros l _ _. exact Logic.I.
  - intros [d1|u] _ Hu; [|exact Hu]. clear Hu. destruct (_ || _); [|cbn; intros c; discriminate].
    assert (Hb : forall d2 h, rets calm_upd (HSys (h_Information h) (fun r => match r with
      | inl last => hupd_fail dbg true d2 last
      | inr _ =>
        if has_attr attr FILE_ATTRIBUTE_REPARSE_POINT
        then hupd (set_cache WBasic (if wd_symlink (set_type WReparse d2) then set_type_resolved (set_type WReparse d2) else set_type WReparse d2), WRet tt 0%N)
        else if has_attr attr FILE_ATTRIBUTE_DIRECTORY
        then hupd (set_cache WBasic (if wd_symlink (set_type (WT ft_directory) d2) then set_type_resolved (set_type (WT ft_directory) d2) else set_type (WT ft_directory) d2), WRet tt 0%N)
        else HSys (h_GetFileType h) (fun t : handle_type * N =>
          match fst t with
          | H_CHAR => hupd (set_cache WBasic (if wd_symlink (set_type (WT ft_character) d2) then set_type_resolved (set_type (WT ft_character) d2) else set_type (WT ft_character) d2), WRet tt 0%N)
          | H_PIPE => hupd (set_cache WBasic (if wd_symlink (set_type (WT ft_fifo) d2) then set_type_resolved (set_type (WT ft_fifo) d2) else set_type (WT ft_fifo) d2), WRet tt 0%N)
          | H_DISK => hcapture dbg (snd t) (fun e => if negb (e =? 0)%N then hupd (set_type (WT ft_regular) d2, wreport true tt e) else
              hupd (set_cache WBasic (if wd_symlink (set_type (WT ft_unknown) (set_type (WT ft_regular) d2)) then set_type_resolved (set_type (WT ft_unknown) (set_type (WT ft_regular) d2)) else set_type (WT ft_unknown) (set_type (WT ft_regular) d2)), WRet tt 0%N))
          | H_OTHER => hcapture dbg (snd t) (fun e => if negb (e =? 0)%N then hupd (d2, wreport true tt e) else
              hupd (set_cache WBasic (if wd_symlink (set_type (WT ft_unknown) d2) then set_type_resolved (set_type (WT ft_unknown) d2) else set_type (WT ft_unknown) d2), WRet tt 0%N))
          end)
      end))).
    { intros d2 h. cbn [rets hanswer]. intros [last|x]; [apply Hf|]. destruct (has_attr _ _); [intros c; discriminate|].
      destruct (has_attr _ _); [intros c; discriminate|]. cbn [rets hanswer]. intros [t l]. cbn [fst snd].
      destruct t; try (intros c; discriminate); apply Hc; intros e; destruct (negb _); intros c; discriminate. }
    unfold with_file. cbn [rets hanswer]. intros [last|h].
    + apply Hc. intros e. destruct (e =? 0)%N; [apply Hb|intros c; discriminate].
    + apply rets_scope. apply Hb.
Qed.

(** ** Streams and iterators *)

Definition no_exn {A} (x : out A) : Prop := forall e, x <> Throw e.
Lemma div_no_exn : forall a b, no_exn (path_div Windows E a b).
Proof.
  intros a b e. unfold path_div, path_append, has_filename, filename. destruct (_ || _); [discriminate|].
  destruct (has_root_directory _ _ b); cbn [bind]; [discriminate|].
  destruct (empty a); cbn [bind]; [discriminate|]. destruct (ptyp a); cbn [bind]; try discriminate.
  destruct (match last _ _ with Some _ => _ | None => _ end); cbn [bind]; [discriminate|].
  destruct (last (map Some (comps a)) None) as [c|]; [|discriminate]. destruct (ptype_eqb _ _); discriminate.
Qed.
Lemma filename_no_exn : forall a, no_exn (filename Windows a).
Proof.
  intros a e. unfold filename. destruct (empty a); [discriminate|]. destruct (ptyp a); try discriminate.
  destruct (match last _ _ with Some _ => _ | None => _ end); [discriminate|].
  destruct (last (map Some (comps a)) None) as [c|]; [|discriminate]. destruct (ptype_eqb _ _); discriminate.
Qed.

Variable narrow : str -> option str.
Hypothesis total : forall s, narrow s <> None.

(** What streams and iterators hold. *)
Definition owned (s : hstream) : list resource := match hs_handle s with Some h => [RFind h] | None => [] end.
Definition iter_owned (it : hiter) : list resource := match it with Some s => owned s | None => [] end.
Definition rec_owned (it : hrec) : list resource := flat_map owned (hr_stack it).
(** An iterator that is not at the end has open streams only. *)
Definition opened (s : hstream) : Prop := hs_handle s <> None.
Definition iter_valid (it : hiter) : Prop := match it with Some s => opened s | None => True end.
Definition rec_valid (it : hrec) : Prop := Forall opened (hr_stack it).

Lemma closing_owned : forall s, Forall2 gives_back (closing s) (owned s).
Proof. intros s. unfold closing, owned. destruct (hs_handle s) as [h|]; constructor; [apply back_find|constructor]. Qed.
Lemma stack_closing_owned : forall l, Forall2 gives_back (stack_closing l) (flat_map owned l).
Proof. induction l as [|s l IH]; cbn; [constructor|]. apply Forall2_app; [apply closing_owned|exact IH]. Qed.
Lemma iter_closing_owned : forall it, Forall2 gives_back (iter_closing it) (iter_owned it).
Proof. intros [s|]; [apply closing_owned|constructor]. Qed.

Lemma hwp_scopes : forall A cs xs, Forall2 gives_back cs xs -> forall (p : hprog A) held post ex,
  (length xs <= 1)%nat ->
  hwp dbg p held (fun a e l => exists l', l = xs ++ l' /\ post a e l') (fun o l => exists l', l = xs ++ l' /\ ex o l') ->
  hwp dbg (hscopes cs p) held post ex.
Proof.
  intros A cs xs H p held post ex Hn Hp. destruct H as [|c x cs xs Hc H].
  - cbn. eapply hwp_mono; [exact Hp| |]; cbn; intros; destruct H as (l' & -> & H); exact H.
  - destruct H; [|cbn in Hn; lia]. cbn. apply (hwp_scope dbg A c x Hc). exact Hp.
Qed.
Lemma owned_short : forall s, (length (owned s) <= 1)%nat.
Proof. intros s. unfold owned. destruct (hs_handle s); cbn; lia. Qed.

Lemma hwp_fill : forall s d held, hwp dbg (hfill E narrow s d) held (fun s' e l => hs_handle s' = hs_handle s /\ e = 0%N /\ l = held) (fun _ _ => False).
Proof.
  intros s d held. unfold hfill. destruct (narrow (fd_name d)) as [t|] eqn:Ht; [|destruct (total _ Ht)].
  apply hwp_lift; [|intros e He; exact (div_no_exn _ _ e He)]. intros q _. cbn. auto.
Qed.
Lemma settle_next : forall h r held, In (RFind h) held -> settle dbg held (HEv (h_FindNext (Some h)) r) = Some held.
Proof. intros h r held H. unfold settle. cbn [works_on option_map forallb]. rewrite holds_in by exact H. reflexivity. Qed.
Lemma hwp_skip : forall n h d held, In (RFind h) held -> hwp dbg (hskip n h d) held (fun _ _ l => l = held) (fun _ _ => False).
Proof.
  induction n as [|n IH]; intros h d held H; cbn [hskip]; [exact Logic.I|]. destruct (is_dots d); [|reflexivity].
  cbn [hwp]. intros r. exists held. split; [apply settle_next; exact H|]. destruct r; [reflexivity|]. apply IH. exact H.
Qed.
Lemma hwp_open : forall n skip root held,
  hwp dbg (hstream_open E narrow n skip root) held (fun s _ l => l = owned s ++ held) (fun _ _ => False).
Proof.
  intros n skip root held. unfold hstream_open. cbv zeta. cbn [hwp]. intros [last|[h d]]; eexists; (split; [reflexivity|]).
  - reflexivity.
  - cbn [acquires app releases fold_right]. apply hwp_bind. eapply hwp_mono; [apply hwp_skip; left; reflexivity| |intros ? ? []].
    intros [last|d'] _ l ->.
    + cbn [hwp]. intros r. exists held. split; [exact (settle_back dbg _ _ (back_find h) r held)|]. reflexivity.
    + eapply hwp_mono; [apply hwp_fill| |intros ? ? []]. cbn. intros s' e l (Hs & _ & ->). unfold owned. rewrite Hs. reflexivity.
Qed.
Lemma hwp_destroy : forall s held (post : unit -> N -> list resource -> Prop) ex, post tt 0%N held -> hwp dbg (hdestroy s) (owned s ++ held) post ex.
Proof. intros s held post ex H. unfold hdestroy. apply hwp_calls; [apply closing_owned|exact H]. Qed.
Lemma hwp_advance : forall n s held, opened s ->
  hwp dbg (hadvance E narrow n s) (owned s ++ held)
    (fun r _ l => l = owned (snd r) ++ held /\ (fst r = true -> opened (snd r)) /\ (fst r = false -> hs_handle (snd r) = None)) (fun _ _ => False).
Proof.
  induction n as [|n IH]; intros s held Hs; cbn [hadvance]; [exact Logic.I|]. unfold opened in Hs.
  destruct (hs_handle s) as [h|] eqn:Hh; [|congruence]. assert (Ho : owned s = [RFind h]) by (unfold owned; rewrite Hh; reflexivity).
  cbn [hwp]. intros r. exists (owned s ++ held). split; [rewrite Ho; apply settle_next; left; reflexivity|]. destruct r as [last|d].
  - cbn [hwp]. intros r. exists held. split; [rewrite Ho; exact (settle_back dbg _ _ (back_find h) r held)|]. cbn. repeat split; congruence.
  - destruct (is_dots d); [apply IH; unfold opened; congruence|]. apply hwp_bind. eapply hwp_mono; [apply hwp_fill| |intros ? ? []].
    cbn. intros s' e l (He & _ & ->). unfold owned, opened. rewrite He, Hh. repeat split; congruence.
Qed.

Lemma hwp_iter_new : forall n has p skip held,
  hwp dbg (hiter_new E narrow n has p skip) held (fun it e l => l = iter_owned it ++ held /\ iter_valid it) (fun _ l => has = false /\ l = held).
Proof.
  intros n has p skip held. unfold hiter_new. apply hwp_bind. eapply hwp_mono; [apply hwp_open| |intros ? ? []].
  intros s e l ->. destruct (hs_handle s) as [h|] eqn:Hh.
  - cbn. split; [reflexivity|]. unfold opened. congruence.
  - assert (Ho : owned s = []) by (unfold owned; rewrite Hh; reflexivity). rewrite Ho. destruct (e =? 0)%N; [cbn; auto|].
    unfold hbad, wreport. destruct has; cbn; auto.
Qed.
Lemma hwp_iter_increment : forall n has it held, iter_valid it ->
  hwp dbg (hiter_increment E narrow n has it) (iter_owned it ++ held)
    (fun it' e l => l = iter_owned it' ++ held /\ iter_valid it') (fun _ l => has = false /\ l = held).
Proof.
  intros n has [s|] held Hv; cbn [hiter_increment iter_owned].
  - apply hwp_bind. eapply hwp_mono; [apply hwp_advance; exact Hv| |intros ? ? []]. intros [found s'] e l (-> & Ht & Hf). cbn [fst snd] in *.
    destruct found; [cbn; auto|]. apply hwp_bind. apply hwp_destroy. destruct (e =? 0)%N; [cbn; auto|]. unfold hbad, wreport. destruct has; cbn; auto.
  - unfold hbad, wreport. destruct has; cbn; auto.
Qed.
Lemma hwp_iter_destroy : forall it held (post : unit -> N -> list resource -> Prop) ex, post tt 0%N held -> hwp dbg (hiter_destroy it) (iter_owned it ++ held) post ex.
Proof. intros it held post ex H. unfold hiter_destroy. apply hwp_calls; [apply iter_closing_owned|exact H]. Qed.

Lemma keeps_is_empty : forall n has p, keeps dbg [] (his_empty dbg E narrow n has p).
Proof.
  intros n has p. unfold his_empty. apply keeps_sys; [split; [reflexivity|split; [reflexivity|intros x []]]|]. intros [last|[attrs size]]; [kp|].
  destruct (has_attr _ _); [|kp]. intros held _. apply hwp_bind. eapply hwp_mono; [apply hwp_iter_new| |intros c l [_ ->]; reflexivity].
  intros it e l [-> Hv]. apply hwp_bind. apply hwp_iter_destroy. destruct (negb _); reflexivity.
Qed.

Lemma keeps_remove_entries : forall f k n it ec count held, (forall q, keeps dbg [] (f q)) -> iter_valid it ->
  hwp dbg (hremove_entries E narrow f k n it ec count) (iter_owned it ++ held) (fun _ _ l => l = held) (fun _ l => l = held).
Proof.
  intros f k. induction k as [|k IH]; intros n it ec count held Hf Hv; cbn [hremove_entries]; [exact Logic.I|].
  destruct it as [s|]; [|reflexivity]. cbn [iter_owned].
  destruct (negb (ec =? 0)%N); [apply hwp_bind; apply hwp_destroy; reflexivity|].
  apply hwp_bind. apply (hwp_unwind dbg _ _ _ (closing_owned s)). eapply hwp_mono; [apply Hf; intros x []| |intros c l ->; eauto].
  cbn beta. intros c e l ->. destruct (negb (e =? 0)%N); [apply hwp_bind; apply hwp_destroy; reflexivity|].
  apply hwp_bind. apply (hwp_unwind dbg _ _ _ (closing_owned s)).
  eapply hwp_mono; [exact (hwp_iter_increment n true (Some s) held Hv)| |intros o l [H _]; discriminate].
  intros it' e' l [-> Hv']. apply IH; auto.
Qed.
Lemma keeps_do_remove_all : forall n p, keeps dbg [] (hdo_remove_all dbg E narrow n p).
Proof.
  induction n as [|n IH]; intros p; cbn [hdo_remove_all]; [kp|]. apply keeps_bind; [kp|]. intros st e. destruct (negb _); [kp|].
  destruct (wis ft_directory st); [|kp]. intros held _. apply hwp_bind. eapply hwp_mono; [apply hwp_iter_new| |intros c l [H _]; discriminate].
  intros it ec l [-> Hv]. apply hwp_bind. eapply hwp_mono; [apply keeps_remove_entries; auto| |auto]. cbn beta. intros r e1 l ->.
  destruct r as [count|]; [|reflexivity]. destruct (negb _); [reflexivity|].
  assert (keeps dbg [] (hbind (hplain (wremove dbg true p)) (fun b e2 => if b then hret count e2 else hret umax e2))) as Hk by kp.
  apply Hk. intros x [].
Qed.
Hint Resolve keeps_do_remove_all : keeps.
Lemma keeps_remove_all : forall n has p, keeps dbg [] (hremove_all dbg E narrow n has p).
Proof. intros. unfold hremove_all. kp. Qed.

Lemma keeps_copy_entries : forall f k n has to it ec held, (forall a b, keeps dbg [] (f a b)) -> iter_valid it ->
  hwp dbg (hcopy_entries E narrow f k n has to it ec) (iter_owned it ++ held) (fun _ _ l => l = held) (fun _ l => l = held).
Proof.
  intros f k. induction k as [|k IH]; intros n has to it ec held Hf Hv; cbn [hcopy_entries]; [exact Logic.I|].
  destruct it as [s|]; [|reflexivity]. cbn [iter_owned].
  destruct (negb (ec =? 0)%N); [apply hwp_bind; apply hwp_destroy; unfold hbad, wreport; destruct has; reflexivity|].
  apply hwp_bind. apply (hwp_unwind dbg _ _ _ (closing_owned s)).
  eapply hwp_mono with (post := fun _ _ l => l = owned s ++ held) (ex := fun _ l => l = owned s ++ held).
  { assert (keeps dbg [] (hlift (filename Windows (hs_path s)) (fun fn => hlift (path_div Windows E to fn) (fun b => f (hs_path s) b)))) as Hk.
    { apply keeps_lift. intros. apply keeps_lift. intros. apply Hf. }
    apply Hk. intros x []. }
  2:{ intros c l ->. eauto. }
  cbn beta. intros c e l ->. destruct (negb (e =? 0)%N); [apply hwp_bind; apply hwp_destroy; reflexivity|].
  apply hwp_bind. apply (hwp_unwind dbg _ _ _ (closing_owned s)).
  eapply hwp_mono; [exact (hwp_iter_increment n true (Some s) held Hv)| |intros o l [H _]; discriminate].
  intros it' e' l [-> Hv']. apply IH; auto.
Qed.
Lemma keeps_copy : forall n has p q o, keeps dbg [] (hcopy dbg E m tps narrow n has p q o).
Proof.
  induction n as [|n IH]; intros has p q o; cbn [hcopy]; cbv zeta; [kp|]. apply keeps_bind; [kp|]. intros f e1. destruct (negb _); [kp|].
  apply keeps_bind; [kp|]. intros t e2. destruct (negb _); [kp|]. destruct (_ || _); [kp|]. apply keeps_bind; [kp|]. intros same e3.
  destruct (negb _); [kp|]. destruct same; [kp|]. destruct (wis ft_symlink f); [kp|]. destruct (wis ft_regular f); [kp|].
  destruct (_ && _); [kp|]. destruct (_ && _); [|kp]. apply keeps_bind; [kp|]. intros _ e4. destruct (negb _); [kp|].
  intros held _. apply hwp_bind. eapply hwp_mono; [apply hwp_iter_new| |intros c l [_ ->]; reflexivity].
  intros it ec l [-> Hv]. destruct (negb _); [apply hwp_bind; apply hwp_iter_destroy; reflexivity|]. apply keeps_copy_entries; auto.
Qed.

Lemma hwp_rec_new : forall n has p follow skip held,
  hwp dbg (hrec_new E narrow n has p follow skip) held (fun it _ l => l = rec_owned it ++ held /\ rec_valid it) (fun _ l => l = held).
Proof.
  intros n has p follow skip held. unfold hrec_new. cbv zeta. apply hwp_bind. eapply hwp_mono; [apply hwp_open| |intros ? ? []].
  intros s e l ->. destruct (negb _).
  - apply (hwp_scopes _ _ _ (closing_owned s) _ _ _ _ (owned_short s)). unfold hbad, wreport. destruct has; cbn; exists held; repeat split; constructor.
  - destruct (hs_handle s) as [h|] eqn:Hh.
    + cbn. unfold rec_owned, rec_valid. cbn. rewrite app_nil_r. split; [reflexivity|]. constructor; [unfold opened; congruence|constructor].
    + apply (hwp_scopes _ _ _ (closing_owned s) _ _ _ _ (owned_short s)). cbn. exists held. repeat split; constructor.
Qed.
Lemma hwp_advance_stack : forall n l0 held, Forall opened l0 ->
  hwp dbg (hadvance_stack E narrow n l0) (flat_map owned l0 ++ held)
    (fun l' e l => l = flat_map owned l' ++ held /\ (e = 0%N -> Forall opened l')) (fun _ _ => False).
Proof.
  intros n l0. induction l0 as [|s l0 IH]; intros held Hv; cbn [hadvance_stack]; [cbn; auto|]. inversion Hv; subst. cbn [flat_map]. rewrite <- app_assoc.
  apply hwp_bind. eapply hwp_mono; [apply hwp_advance; assumption| |intros ? ? []]. intros [found s'] e l (-> & Ht & Hf). cbn [fst snd] in *.
  destruct found; [cbn; rewrite <- app_assoc; auto|]. destruct (e =? 0)%N eqn:He; cbn [negb].
  - apply hwp_bind. apply hwp_destroy. apply IH. assumption.
  - cbn. rewrite <- app_assoc. split; [reflexivity|]. intros ->. discriminate.
Qed.
Lemma hwp_rec_advance : forall n has it held, rec_valid it ->
  hwp dbg (hrec_advance E narrow n has it) (rec_owned it ++ held) (fun it' _ l => l = rec_owned it' ++ held /\ rec_valid it') (fun _ l => l = held).
Proof.
  intros n has it held Hv. unfold hrec_advance, rec_owned, rec_valid in *. destruct (hr_stack it) as [|s l0] eqn:Hl.
  - unfold hbad, wreport. destruct has; cbn; [rewrite Hl; auto|reflexivity].
  - apply hwp_bind. eapply hwp_mono; [apply hwp_advance_stack; exact Hv| |intros ? ? []]. intros l' e l [-> He].
    destruct (e =? 0)%N eqn:H0; cbn [negb].
    + cbn. split; [reflexivity|]. apply He. apply N.eqb_eq. exact H0.
    + apply hwp_bind. apply hwp_calls; [apply stack_closing_owned|]. unfold hbad, wreport. destruct has; cbn; auto.
Qed.
Lemma hwp_recurses : forall follow s held,
  hwp dbg (hrecurses dbg follow s) held (fun r _ l => l = held /\ hs_handle (snd r) = hs_handle s) (fun _ _ => False).
Proof.
  intros follow s held. unfold hrecurses. cbv zeta. destruct follow; [|cbn; auto]. destruct (wd_type_resolved _); [cbn; auto|].
  apply hwp_bind. eapply hwp_mono; [eapply hwp_silent; [apply silent_update_basic|apply hwp_rets; [apply rets_update_basic|apply keeps_update_basic; intros x []]]| |intros ? ? []]. cbn beta. intros u e l [-> Hu].
  destruct (snd u) as [[] e'|c|] eqn:He; cbn; auto. exact (Hu c He).
Qed.
Lemma hwp_rec_try : forall n has it held, rec_valid it ->
  hwp dbg (hrec_try dbg E narrow n has it) (rec_owned it ++ held)
    (fun r _ l => l = rec_owned (snd r) ++ held /\ rec_valid (snd r))
    (fun _ l => l = held).
Proof.
  intros n has it held Hv. unfold hrec_try, rec_owned, rec_valid in *. destruct (hr_stack it) as [|s l0] eqn:Hl.
  - unfold hbad, wreport. destruct has; cbn; [rewrite Hl; auto|auto].
  - apply hwp_bind. eapply hwp_mono; [apply hwp_recurses| |intros ? ? []]. intros [go s'] e l [-> Hs]. cbn [fst snd] in *. cbv zeta.
    inversion Hv as [|x y Ho Hr]; subst x y.
    assert (Hs' : owned s' = owned s) by (unfold owned; rewrite Hs; reflexivity).
    assert (Ho' : opened s') by (unfold opened in *; rewrite Hs; exact Ho).
    set (it' := HRec (s' :: l0) (hr_follow it) (hr_skip it) (hr_recursion it)).
    assert (Hstay : forall e', hwp dbg (if (e' =? 0)%N then hret (false, it') 0%N
        else if (e' =? errc_permission_denied)%N && hr_skip it then hret (false, it') 0%N
        else hbind (hcalls (stack_closing (hr_stack it')) (WE (WRet tt 0%N))) (fun _ _ => hbad has (false, hrec_end it') e'))
       (flat_map owned (s :: l0) ++ held) (fun r _ l => l = flat_map owned (hr_stack (snd r)) ++ held /\ Forall opened (hr_stack (snd r)))
       (fun _ l => l = held)).
    { intros e'. assert (flat_map owned (s :: l0) = flat_map owned (hr_stack it')) as -> by (cbn; rewrite Hs'; reflexivity).
      assert (Forall opened (hr_stack it')) by (constructor; assumption).
      destruct (e' =? 0)%N; [cbn; auto|]. destruct (_ && _); [cbn; auto|].
      apply hwp_bind. apply hwp_calls; [apply stack_closing_owned|]. unfold hbad, wreport. destruct has; cbn; auto. }
    destruct go; [|apply Hstay]. apply hwp_bind. eapply hwp_mono; [apply hwp_open| |intros ? ? []]. intros new e' l ->.
    destruct (hs_handle new) as [h|] eqn:Hn.
    + cbn. rewrite Hs', <- !app_assoc. split; [reflexivity|]. constructor; [unfold opened; congruence|constructor; assumption].
    + assert (Hc : closing new = []) by (unfold closing; rewrite Hn; reflexivity). rewrite Hc. cbn [hscopes rev fold_right].
      assert (Hw : owned new = []) by (unfold owned; rewrite Hn; reflexivity). rewrite Hw. apply Hstay.
Qed.
Lemma hwp_rec_increment : forall n has it held, rec_valid it ->
  hwp dbg (hrec_increment dbg E narrow n has it) (rec_owned it ++ held) (fun it' _ l => l = rec_owned it' ++ held /\ rec_valid it') (fun _ l => l = held).
Proof.
  intros n has it held Hv. unfold hrec_increment. cbv zeta.
  assert (Hgo : forall it, rec_valid it -> hwp dbg (hrec_advance E narrow n has (HRec (hr_stack it) (hr_follow it) (hr_skip it) true)) (rec_owned it ++ held)
            (fun it' _ l => l = rec_owned it' ++ held /\ rec_valid it') (fun _ l => l = held)).
  { intros i Hi. exact (hwp_rec_advance n has (HRec (hr_stack i) (hr_follow i) (hr_skip i) true) held Hi). }
  destruct (hr_recursion it); [|apply Hgo; exact Hv]. apply hwp_bind. eapply hwp_mono; [apply hwp_rec_try; exact Hv| |auto].
  intros [pushed it'] e l [-> Hv']. cbn [snd] in *. destruct (_ || _); [cbn; auto|apply Hgo; exact Hv'].
Qed.
Lemma hwp_rec_pop : forall n has it held, rec_valid it ->
  hwp dbg (hrec_pop E narrow n has it) (rec_owned it ++ held) (fun it' _ l => l = rec_owned it' ++ held /\ rec_valid it') (fun _ l => l = held).
Proof.
  intros n has it held Hv. unfold hrec_pop. unfold rec_valid in Hv. unfold rec_owned at 1. destruct (hr_stack it) as [|s l0] eqn:Hl.
  - unfold hbad, wreport, rec_owned, rec_valid. destruct has; cbn; [rewrite Hl; auto|reflexivity].
  - cbn [flat_map]. rewrite <- app_assoc. inversion Hv; subst. apply hwp_bind. apply hwp_destroy. destruct l0 as [|s' l0].
    + cbn. split; [reflexivity|constructor].
    + exact (hwp_rec_advance n has (HRec (s' :: l0) (hr_follow it) (hr_skip it) (hr_recursion it)) held H2).
Qed.
Lemma hwp_rec_destroy : forall it held, hwp dbg (hrec_destroy it) (rec_owned it ++ held) (fun _ _ l => l = held) (fun _ _ => False).
Proof. intros it held. unfold hrec_destroy. apply hwp_calls; [apply stack_closing_owned|reflexivity]. Qed.

(** Without [total]. *)
Lemma hwp_open_any : forall n skip root held,
  hwp dbg (hstream_open E narrow n skip root) held (fun s _ l => l = owned s ++ held) (fun o l => o = None /\ exists h, l = RFind h :: held).
Proof.
  intros n skip root held. unfold hstream_open. cbv zeta. cbn [hwp]. intros [last|[h d]]; eexists; (split; [reflexivity|]).
  - reflexivity.
  - cbn [acquires app releases fold_right]. apply hwp_bind. eapply hwp_mono; [apply hwp_skip; left; reflexivity| |intros ? ? []].
    intros [last|d'] _ l ->.
    + cbn [hwp]. intros r. exists held. split; [exact (settle_back dbg _ _ (back_find h) r held)|]. reflexivity.
    + unfold hfill. destruct (narrow (fd_name d')) as [t|]; [|cbn; eauto]. apply hwp_lift; [|intros e He; destruct (div_no_exn _ _ e He)].
      intros q _. reflexivity.
Qed.
Lemma hwp_iter_new_any : forall n has p skip held,
  hwp dbg (hiter_new E narrow n has p skip) held (fun _ _ _ => True) (fun o l => o = None -> exists h, l = RFind h :: held).
Proof.
  intros n has p skip held. unfold hiter_new. apply hwp_bind. eapply hwp_mono; [apply hwp_open_any| |intros o l [_ H] _; exact H].
  intros s e l ->. destruct (hs_handle s); [exact Logic.I|]. destruct (e =? 0)%N; [exact Logic.I|]. unfold hbad, wreport.
  destruct has; cbn; auto. discriminate.
Qed.
Lemma hwp_rec_new_any : forall n has p follow skip held,
  hwp dbg (hrec_new E narrow n has p follow skip) held (fun _ _ _ => True) (fun o l => o = None -> exists h, l = RFind h :: held).
Proof.
  intros n has p follow skip held. unfold hrec_new. cbv zeta. apply hwp_bind. eapply hwp_mono; [apply hwp_open_any| |intros o l [_ H] _; exact H].
  intros s e l ->. destruct (negb _).
  - apply (hwp_scopes _ _ _ (closing_owned s) _ _ _ _ (owned_short s)). unfold hbad, wreport. destruct has; cbn; exists held; split; auto. discriminate.
  - destruct (hs_handle s); [exact Logic.I|]. apply (hwp_scopes _ _ _ (closing_owned s) _ _ _ _ (owned_short s)). cbn. eauto.
Qed.
End Ops.

Lemma hwp_values : forall A strict (p : hprog A) held (post : A -> N -> list resource -> Prop) ex (P : A -> Prop), hwp strict p held post ex ->
  (forall a e l, post a e l -> P a) -> rets P p.
Proof.
  intros A strict p. induction p as [r|c k IH]; intros held post ex P H HP.
  - destruct r as [[a e|c|]| | |]; cbn in *; eauto.
  - cbn in *. intros r. destruct (H r) as (x & _ & Hw). eauto.
Qed.
Lemma rets_run : forall A P (p : hprog A), rets P p -> forall S (h : hkernel S) s a e s', hrun h p s = (WE (WRet a e), s') -> P a.
Proof.
  intros A P p. induction p as [r|c k IH]; intros H S h s a e s' Hr; cbn in *.
  - inversion Hr; subst. exact H.
  - destruct (h c s) as [r s1]. eauto.
Qed.

(** * Theorems *)

(** Every operation ends holding what it held at the start, whether it returns or throws, and works only on what it holds. In a build with assertions
    it does not hand the invalid handle to Windows either. The names found in directories are taken to be convertible. *)
Theorem C93_no_leak_partial : forall (dbg : bool) (E : elision) (m : signed_mode) (tps : Z) (narrow : str -> option str),
  (forall s, narrow s <> None) -> forall n has p q size t prms o (before : list resource),
  let safe {A} (x : hprog A) := releases_all dbg x before (fun _ => before) before in
  (safe (hstatus dbg has p) /\ safe (hsymlink_status dbg has p) /\ safe (hpermissions dbg has p prms o) /\ safe (hread_symlink dbg has p)) /\
  (safe (hequivalent dbg has p q) /\ safe (hhard_link_count dbg has p) /\ safe (hresize_file dbg has p size)) /\
  (safe (hlast_write_time dbg m tps has p) /\ safe (hset_last_write_time dbg m tps has p t) /\ safe (hrefresh dbg m tps p)) /\
  (safe (hcopy_file dbg m tps has p q o) /\ safe (hcopy_symlink dbg has p q) /\ safe (hcopy dbg E m tps narrow n has p q o)) /\
  (safe (his_empty dbg E narrow n has p) /\ safe (hremove_all dbg E narrow n has p)).
Proof.
  intros dbg E m tps narrow Ht n has p q size t prms o before safe. unfold safe.
  repeat match goal with |- _ /\ _ => split end; apply keeps_safe.
  - apply keeps_status.
  - apply keeps_symlink_status.
  - apply keeps_permissions.
  - apply keeps_read_symlink.
  - apply keeps_equivalent.
  - apply keeps_hard_link_count.
  - apply keeps_resize_file.
  - apply keeps_last_write_time.
  - apply keeps_set_last_write_time.
  - apply keeps_refresh.
  - apply keeps_copy_file.
  - apply keeps_copy_symlink.
  - apply keeps_copy. exact Ht.
  - apply keeps_is_empty. exact Ht.
  - apply keeps_remove_all. exact Ht.
Qed.
Print Assumptions C93_no_leak_partial.

(** An iterator holds the handle of its stream and nothing else; it is given back at the end, on errors and on destruction. *)
Theorem C93_directory_iterator_partial : forall (dbg : bool) (E : elision) (narrow : str -> option str),
  (forall s, narrow s <> None) -> forall n has p skip (before : list resource),
  releases_all dbg (hiter_new E narrow n has p skip) before (fun it => iter_owned it ++ before) before /\
  forall it, iter_valid it ->
  releases_all dbg (hiter_increment E narrow n has it) (iter_owned it ++ before) (fun it' => iter_owned it' ++ before) before /\
  releases_all dbg (hiter_destroy it) (iter_owned it ++ before) (fun _ => before) before.
Proof.
  intros dbg E narrow Ht n has p skip before. split; [|intros it Hv; split]; apply hwp_releases.
  - eapply hwp_mono; [apply hwp_iter_new; exact Ht| |]; cbn; [intros a e l [H _]; exact H|intros c l [_ H]; exact H].
  - eapply hwp_mono; [apply hwp_iter_increment; assumption| |]; cbn; [intros a e l [H _]; exact H|intros c l [_ H]; exact H].
  - apply hwp_iter_destroy. reflexivity.
Qed.
Print Assumptions C93_directory_iterator_partial.

(** The same for recursive_directory_iterator and its stack of streams. *)
Theorem C93_recursive_directory_iterator_partial : forall (dbg : bool) (E : elision) (narrow : str -> option str),
  (forall s, narrow s <> None) -> forall n has p follow skip (before : list resource),
  releases_all dbg (hrec_new E narrow n has p follow skip) before (fun it => rec_owned it ++ before) before /\
  forall it, rec_valid it ->
  releases_all dbg (hrec_increment dbg E narrow n has it) (rec_owned it ++ before) (fun it' => rec_owned it' ++ before) before /\
  releases_all dbg (hrec_pop E narrow n has it) (rec_owned it ++ before) (fun it' => rec_owned it' ++ before) before /\
  releases_all dbg (hrec_destroy it) (rec_owned it ++ before) (fun _ => before) before.
Proof.
  intros dbg E narrow Ht n has p follow skip before. split; [|intros it Hv; split; [|split]]; apply hwp_releases.
  - eapply hwp_mono; [apply hwp_rec_new; exact Ht| |auto]. intros a e l [H _]. exact H.
  - eapply hwp_mono; [apply hwp_rec_increment; assumption| |auto]. intros a e l [H _]. exact H.
  - eapply hwp_mono; [apply hwp_rec_pop; assumption| |auto]. intros a e l [H _]. exact H.
  - eapply hwp_mono; [apply hwp_rec_destroy| |intros ? ? []]. auto.
Qed.
Print Assumptions C93_recursive_directory_iterator_partial.

(** The iterators a program can get hold of are of the kind the two theorems speak about. *)
Theorem C93_iterators_valid : forall (dbg : bool) (E : elision) (narrow : str -> option str),
  (forall s, narrow s <> None) -> forall n has p follow skip S (h : hkernel S) s,
  (forall it e s', hrun h (hiter_new E narrow n has p skip) s = (WE (WRet it e), s') -> iter_valid it) /\
  (forall it0, iter_valid it0 -> forall it e s', hrun h (hiter_increment E narrow n has it0) s = (WE (WRet it e), s') -> iter_valid it) /\
  (forall it e s', hrun h (hrec_new E narrow n has p follow skip) s = (WE (WRet it e), s') -> rec_valid it) /\
  (forall it0, rec_valid it0 -> forall it e s', hrun h (hrec_increment dbg E narrow n has it0) s = (WE (WRet it e), s') -> rec_valid it) /\
  (forall it0, rec_valid it0 -> forall it e s', hrun h (hrec_pop E narrow n has it0) s = (WE (WRet it e), s') -> rec_valid it).
Proof.
  intros dbg E narrow Ht n has p follow skip S h s.
  split; [|split; [|split; [|split]]].
  - intros it e s'. apply rets_run. eapply hwp_values; [apply (hwp_iter_new dbg E narrow Ht n has p skip [])|]. intros a x l [_ H]. exact H.
  - intros it0 Hv it e s'. apply rets_run. eapply hwp_values; [apply (hwp_iter_increment dbg E narrow Ht n has it0 [] Hv)|]. intros a x l [_ H]. exact H.
  - intros it e s'. apply rets_run. eapply hwp_values; [apply (hwp_rec_new dbg E narrow Ht n has p follow skip [])|]. intros a x l [_ H]. exact H.
  - intros it0 Hv it e s'. apply rets_run. eapply hwp_values; [apply (hwp_rec_increment dbg E narrow Ht n has it0 [] Hv)|]. intros a x l [_ H]. exact H.
  - intros it0 Hv it e s'. apply rets_run. eapply hwp_values; [apply (hwp_rec_pop dbg E narrow Ht n has it0 [] Hv)|]. intros a x l [_ H]. exact H.
Qed.
Print Assumptions C93_iterators_valid.

(** A name that cannot be converted makes the constructors of the iterators throw, and whenever they throw such an exception the search handle stays open:
    nobody has it any more. *)
Theorem C93_conversion_refuted : forall (dbg : bool) (E : elision) (narrow : str -> option str) n has p follow skip (before : list resource)
    S (h : hkernel S) s,
  let lost (r : bool) (l : list hevent) := r = true -> exists x, held_after dbg before l = Some (RFind x :: before) in
  let exn {A} (r : wend A) := match r with WExn => true | _ => false end in
  (let '(r, (_, l)) := hrun (recorded h) (hiter_new E narrow n has p skip) (s, []) in lost (exn r) l) /\
  (let '(r, (_, l)) := hrun (recorded h) (hrec_new E narrow n has p follow skip) (s, []) in lost (exn r) l) /\
  (forall x d s1, h (h_FindFirst (find_pattern (native p))) s = (inr (x, d), s1) -> is_dots d = false -> narrow (fd_name d) = None -> n <> O ->
     fst (hrun h (hiter_new E narrow n has p skip) s) = WExn /\ fst (hrun h (hrec_new E narrow n has p follow skip) s) = WExn).
Proof.
  intros dbg E narrow n has p follow skip before S h s lost exn. split; [|split].
  - pose proof (hwp_run dbg _ _ _ _ _ (hwp_iter_new_any dbg E narrow n has p skip before) S h s [] before eq_refl) as H.
    destruct (hrun (recorded h) _ _) as [r [s' l]]. unfold lost, exn. destruct r as [[a e|c|]| | |]; try discriminate.
    intros _. destruct H as (x & Hx & Hp). destruct (Hp eq_refl) as [y ->]. eauto.
  - pose proof (hwp_run dbg _ _ _ _ _ (hwp_rec_new_any dbg E narrow n has p follow skip before) S h s [] before eq_refl) as H.
    destruct (hrun (recorded h) _ _) as [r [s' l]]. unfold lost, exn. destruct r as [[a e|c|]| | |]; try discriminate.
    intros _. destruct H as (x & Hx & Hp). destruct (Hp eq_refl) as [y ->]. eauto.
  - intros x d s1 Hf Hd Hn H0. destruct n as [|n]; [congruence|].
    unfold hiter_new, hrec_new, hstream_open. cbn [hbind hrun]. rewrite Hf. cbn [hskip]. rewrite Hd. cbn [hbind hret].
    unfold hfill. rewrite Hn. cbn [hbind hrun fst]. split; reflexivity.
Qed.
Print Assumptions C93_conversion_refuted.

(** permissions with an error_code throws nothing; neither do status, in both overloads, and symlink_status with an error_code, when the calls behind them are
    taken one by one (C73). *)
Theorem C73_permissions_never_throws : forall (dbg : bool) p prms opts has S (h : hkernel S) s,
  let quiet {A} (x : wend A * S) := match fst x with WE (WThrow _) | WExn => False | _ => True end in
  quiet (hrun h (hpermissions dbg true p prms opts) s) /\ quiet (hrun h (hstatus dbg has p) s) /\ quiet (hrun h (hsymlink_status dbg true p) s).
Proof.
  assert (Hs : forall A (p : hprog A), silent p -> forall S (h : hkernel S) s, match fst (hrun h p s) with WE (WThrow _) | WExn => False | _ => True end).
  { intros A p. induction p as [r|c k IH]; intros H S h s; cbn in *.
    - destruct r as [[a e|c|]| | |]; cbn in *; auto; discriminate.
    - destruct (h c s) as [r s1]. apply IH. apply H. }
  intros dbg p prms opts has S h s quiet. unfold quiet. split; [|split]; apply Hs.
  - apply silent_permissions.
  - apply silent_status.
  - apply silent_symlink_status.
Qed.
Print Assumptions C73_permissions_never_throws.

(** * Examples *)

(** A system with the directories C:\d and C:\d\e and the file C:\d\e\f: the next handle, and what each search has still to deliver. *)
Definition demo_dir (p : str) : option (list find_data) :=
  if str_eqb p (lit "C:\d\*") then Some [FindData (lit "..") 16 0; FindData (lit "e") 16 0]
  else if str_eqb p (lit "C:\d\e\*") then Some [FindData (lit "..") 16 0; FindData (lit "f") 32 0]
  else None.
Definition demo_attributes (p : str) : N + N :=
  if str_eqb p (lit "C:\d") || str_eqb p (lit "C:\d\e") then inr 16%N
  else if str_eqb p (lit "C:\d\e\f") then inr 32%N else inl 2%N.
Definition demo_state : Type := N * list (N * list find_data).
Fixpoint demo_next (h : N) (l : list (N * list find_data)) : (N + find_data) * list (N * list find_data) :=
  match l with
  | [] => (inl 6%N, [])
  | (x, ds) :: r =>
      if (x =? h)%N then match ds with [] => (inl ERROR_NO_MORE_FILES, l) | d :: ds' => (inr d, (x, ds') :: r) end
      else let '(a, r') := demo_next h r in (a, (x, ds) :: r')
  end.
Definition demo_handles : hkernel demo_state := fun c =>
  match c as c return demo_state -> hanswer c * demo_state with
  | h_CreateFile _ _ _ _ => fun s => (inr (fst s), ((fst s + 1)%N, snd s))
  | h_CloseHandle _ => fun s => (tt, s)
  | h_Information _ => fun s => (inl 6%N, s)
  | h_AttributeTag _ => fun s => (inr 32%N, s)
  | h_DeviceIoControl _ => fun s => (inl 6%N, s)
  | h_GetFileTime _ => fun s => (inl 6%N, s)
  | h_SetFileTime _ _ => fun s => (inr tt, s)
  | h_SetFilePointer _ _ => fun s => (inr tt, s)
  | h_SetEndOfFile _ => fun s => (inl 112%N, s)
  | h_GetFileType _ => fun s => ((H_DISK, 0%N), s)
  | h_FindFirst p => fun s =>
      match demo_dir p with
      | Some l => (inr (fst s, FindData (lit ".") 16 0), ((fst s + 1)%N, (fst s, l) :: snd s))
      | None => (inl 2%N, s)
      end
  | h_FindNext (Some h) => fun s => let '(a, l) := demo_next h (snd s) in (a, (fst s, l))
  | h_FindNext None => fun s => (inl 6%N, s)
  | h_FindClose _ => fun s => (0%N, s)
  | h_NamedSecurity _ => fun s => (inr (fst s), ((fst s + 1)%N, snd s))
  | h_EqualSid _ => fun s => (false, s)
  | h_EffectiveRights _ _ => fun s => (inr 0%N, s)
  | h_LocalAlloc => fun s => (inr (fst s), ((fst s + 1)%N, snd s))
  | h_LocalFree _ => fun s => (tt, s)
  | h_SetEntries _ _ _ => fun s => (inl 1337%N, s)
  | h_SetNamedSecurity _ _ => fun s => (inr tt, s)
  | h_Plain (w_Attributes p) => fun s => (demo_attributes p, s)
  | h_Plain (w_RemoveDirectory _) => fun s => (inr tt, s)
  | h_Plain (w_DeleteFile _) => fun s => (inr tt, s)
  | h_Plain c => fun s => (match c as c return wanswer c with
                           | w_Info _ => WInfo (inl 1%N) (inl 1%N) (inl 1%N) (inl 1%N) (inl 1%N) (Security (inl 1%N) true (fun _ => inr 0%N))
                           | w_TempPath => (0%N, 1%N, [])
                           | w_Find _ => (inl 1%N, 1%N)
                           | _ => inl 1%N
                           end, s)
  end.

Definition no_elision := Elision false false false.
Definition count_acquired (l : list hevent) : nat := length (flat_map acquires l).

(** remove_all of a tree: two searches and the security descriptors of three files are acquired and given back. *)
Example C93_example_remove_all :
  let '(r, (_, l)) := hrun (recorded demo_handles) (hremove_all true no_elision Some 9 true (wpath (lit "C:\d"))) ((0%N, []), []) in
  r = WE (WRet 3%N 0%N) /\ count_acquired l = 5%nat /\ held_after true [RFile 77] l = Some [RFile 77].
Proof. vm_compute. repeat split; reflexivity. Qed.

(** An exception in the middle: resize_file cannot set the end of the file. *)
Example C93_example_throw :
  let '(r, (_, l)) := hrun (recorded demo_handles) (hresize_file true false (wpath (lit "C:\d\e\f")) 10) ((0%N, []), []) in
  r = WE (WThrow 112%N) /\ count_acquired l = 1%nat /\ held_after true [] l = Some [].
Proof. vm_compute. repeat split; reflexivity. Qed.

(** permissions: the descriptor and three entries are acquired before the list is refused. *)
Example C93_example_permissions :
  let '(r, (_, l)) := hrun (recorded demo_handles) (hpermissions true true (wpath (lit "C:\d\e\f")) 335 1) ((0%N, []), []) in
  r = WE (WRet tt 1337%N) /\ count_acquired l = 4%nat /\ held_after true [] l = Some [].
Proof. vm_compute. repeat split; reflexivity. Qed.

(** A recursive iterator two levels deep: it holds two searches; the next increment ends it. *)
Example C93_example_recursive :
  let '(r, (s, l)) := hrun (recorded demo_handles)
     (hbind (hrec_new no_elision Some 9 true (wpath (lit "C:\d")) false false) (fun it _ => hrec_increment true no_elision Some 9 true it)) ((0%N, []), []) in
  match r with
  | WE (WRet it 0%N) =>
      rec_owned it = [RFind 1; RFind 0] /\ rec_valid it /\ held_after true [] l = Some [RFind 1; RFind 0] /\
      (let '(r2, (_, l2)) := hrun (recorded demo_handles) (hrec_increment true no_elision Some 9 true it) (s, []) in
       match r2 with WE (WRet it2 0%N) => rec_owned it2 = [] /\ held_after true [RFind 1; RFind 0] l2 = Some [] | _ => False end)
  | _ => False
  end.
Proof.
  vm_compute. split; [reflexivity|split; [constructor; [discriminate|constructor; [discriminate|constructor]]|split; [reflexivity|split; reflexivity]]].
Qed.

(** The lost handle: the name "e" cannot be converted. *)
Example C93_example_conversion :
  let '(r, (_, l)) := hrun (recorded demo_handles)
     (hiter_new no_elision (fun t => if str_eqb t (lit "e") then None else Some t) 9 true (wpath (lit "C:\d")) false) ((0%N, []), []) in
  r = WExn /\ held_after true [] l = Some [RFind 0].
Proof. vm_compute. split; reflexivity. Qed.
