(** C94: what permissions() asks Windows to set. Library model: [WinHandleModel.v]; the meaning of the entries is in [WinAclProps.v]. *)
From Coq Require Import Ascii String Bool Arith NArith ZArith Lia List.
From Verif Require Import Str PathModel FlagsModel TimeModel FSProps3 WinPermsModel ArithProps WinAclModel WinAclProps WinStatModel WinOpsModel WinHandleModel WinHandles.
Import ListNotations.
Local Open Scope N_scope.

(** * Specification *)

(** The calls that changed a file. *)
Definition changes (e : hevent) : bool := match e with HEv (h_SetNamedSecurity _ _) (inr _) => true | _ => false end.
(** The calls that failed. *)
Definition refused (e : hevent) : bool :=
  match e with
  | HEv (h_Plain (w_Attributes _)) (inl _) | HEv (h_CreateFile _ _ _ _) (inl _) | HEv (h_AttributeTag _) (inl _) | HEv (h_DeviceIoControl _) (inl _)
  | HEv (h_NamedSecurity _) (inl _) | HEv (h_EffectiveRights _ _) (inl _) | HEv h_LocalAlloc (inl _) | HEv (h_SetEntries _ _ _) (inl _)
  | HEv (h_SetNamedSecurity _ _) (inl _) => true
  | _ => false
  end.

(** Answers of Windows: a call that fails has an error. *)
Definition has_reason (c : hcall) : hanswer c -> Prop :=
  match c with
  | h_NamedSecurity _ => fun r => r <> inl 0
  | h_LocalAlloc => fun r => r <> inl 0
  | h_SetEntries _ _ _ => fun r => r <> inl 0
  | h_SetNamedSecurity _ _ => fun r => r <> inl 0
  | _ => fun _ => True
  end.
Definition answers (ok : forall c, hanswer c -> Prop) {S} (h : hkernel S) : Prop := forall c s, ok c (fst (h c s)).

(** In the course of the calls [l] the file was changed once: it was given a list made of [entries] from its own descriptor, whose owner and group
    are the same or not. *)
Definition given (p : path) (same : bool) (entries : list ace) (l : list hevent) : Prop :=
  exists d blocks acl,
    filter changes l = [HEv (h_SetNamedSecurity (native p) acl) (inr tt)] /\
    In (HEv (h_SetEntries d blocks entries) (inr acl)) l /\ In (HEv (h_EqualSid d) same) l /\ In (HEv (h_NamedSecurity (native p)) (inr d)) l.

(** The entries are for the permissions [v]; the identifiers of owner and group are 0 and 1, or 0 and 0. *)
Definition entries_for (same : bool) (v : N) : list ace := explicit_entries 0 (if same then 0 else 1) v.

(** * Proof *)

Section Log.
Variable ok : forall c, hanswer c -> Prop.

(** Not in the specification: weakest precondition over the calls made. *)
Fixpoint wl {A} (p : hprog A) (l : list hevent) (Q : wend A -> list hevent -> Prop) : Prop :=
  match p with
  | HEnd r => Q r l
  | HSys c k => forall r, ok c r -> wl (k r) (l ++ [HEv c r]) Q
  end.
Lemma wl_run : forall A (p : hprog A) l Q, wl p l Q -> forall S (h : hkernel S) s, answers ok h ->
  Q (fst (hrun (recorded h) p (s, l))) (snd (snd (hrun (recorded h) p (s, l)))).
Proof.
  intros A p. induction p as [r|c k IH]; intros l Q H S h s Hh; cbn [hrun]; [exact H|]. unfold recorded at 1 3. cbn [fst snd].
  pose proof (Hh c s) as Hc. destruct (h c s) as [r s1]. apply IH; auto.
Qed.
Lemma wl_mono : forall A (p : hprog A) l (Q Q' : wend A -> list hevent -> Prop), wl p l Q -> (forall r l', Q r l' -> Q' r l') -> wl p l Q'.
Proof. intros A p. induction p as [r|c k IH]; intros l Q Q' H HQ; cbn in *; eauto. Qed.
Definition then_ {A B} (f : A -> N -> hprog B) (Q : wend B -> list hevent -> Prop) (r : wend A) (l : list hevent) : Prop :=
  match r with
  | WE (WRet a e) => wl (f a e) l Q
  | WE (WThrow c) => Q (WE (WThrow c)) l
  | WE WAssert => Q (WE WAssert) l
  | WExn => Q WExn l | WStop => Q WStop l | WFuel => Q WFuel l
  end.
Lemma wl_bind : forall A B (p : hprog A) (f : A -> N -> hprog B) l Q, wl p l (then_ f Q) -> wl (hbind p f) l Q.
Proof. intros A B p f. induction p as [r|c k IH]; intros l Q H; cbn in *; [destruct r as [[a e|c|]| | |]; exact H|]. intros r Hr. apply IH. auto. Qed.
Lemma wl_scope : forall A c (p : hprog A) l Q, wl p l (fun r l' => Q r l' /\ forall x, Q r (l' ++ [HEv c x])) -> wl (hscope c p) l Q.
Proof.
  intros A c p. induction p as [r|c' k IH]; intros l Q H; cbn [hscope wl] in *.
  - destruct (leaves r); cbn; [intros x _; apply H|apply H].
  - intros r Hr. apply IH. auto.
Qed.
End Log.

Lemma recorded_same : forall A (p : hprog A) S (h : hkernel S) s l,
  fst (hrun (recorded h) p (s, l)) = fst (hrun h p s) /\ fst (snd (hrun (recorded h) p (s, l))) = snd (hrun h p s).
Proof.
  intros A p. induction p as [r|c k IH]; intros S h s l; cbn [hrun]; [auto|]. unfold recorded at 1 3. cbn [fst snd]. destruct (h c s) as [r s1]. apply IH.
Qed.
Lemma hrun_bind : forall A B (p : hprog A) (f : A -> N -> hprog B) S (h : hkernel S) s,
  hrun h (hbind p f) s =
  match hrun h p s with
  | (WE (WRet a e), s1) => hrun h (f a e) s1
  | (WE (WThrow c), s1) => (WE (WThrow c), s1)
  | (WE WAssert, s1) => (WE WAssert, s1)
  | (WExn, s1) => (WExn, s1) | (WStop, s1) => (WStop, s1) | (WFuel, s1) => (WFuel, s1)
  end.
Proof.
  intros A B p f S h. induction p as [r|c k IH]; intros s; cbn [hbind hrun]; [destruct r as [[a e|c|]| | |]; reflexivity|].
  destruct (h c s) as [r s1]. apply IH.
Qed.

(** ** Reading: no change, and a value of at most nine bits or a call that failed *)

Definition quiet (l : list hevent) : Prop := filter changes l = [].
Lemma quiet_app : forall l e, quiet l -> changes e = false -> quiet (l ++ [e]).
Proof. intros l e H He. unfold quiet in *. rewrite filter_app, H. cbn. rewrite He. reflexivity. Qed.
Definition trouble (l : list hevent) : Prop := existsb refused l = true.
Lemma trouble_app : forall l e, trouble l \/ refused e = true -> trouble (l ++ [e]).
Proof. intros l e H. unfold trouble in *. rewrite existsb_app. cbn. rewrite orb_false_r. apply orb_true_iff. exact H. Qed.

Section Reading.
Variable dbg : bool.
Variable ok : forall c, hanswer c -> Prop.

Definition read_well {A} (good : A -> Prop) (r : wend A) (l : list hevent) : Prop :=
  quiet l /\ ((exists a, r = WE (WRet a 0) /\ good a) \/ trouble l).
Lemma well_after : forall A good (r : wend A) l e, changes e = false -> read_well good r l -> read_well good r (l ++ [e]).
Proof. intros A good r l e He [Hq Ht]. split; [apply quiet_app; auto|]. destruct Ht; auto. right. apply trouble_app. auto. Qed.
Lemma well_bad : forall A good (r : wend A) l e, quiet l -> changes e = false -> refused e = true -> read_well good r (l ++ [e]).
Proof. intros A good r l e Hq He Hr. split; [apply quiet_app; auto|]. right. apply trouble_app. auto. Qed.

Definition three (t : trustee) : Prop := In t [t_owner; t_group; t_others].
Lemma trunc_bit : forall x i, N.testbit (trunc width_perms x) i = true -> N.testbit x i = true.
Proof.
  intros x i H. unfold trunc in H. change (2 ^ width_perms) with (2 ^ 32) in H. destruct (N.lt_ge_cases i 32).
  - rewrite N.mod_pow2_bits_low in H; auto.
  - rewrite N.mod_pow2_bits_high in H; auto. discriminate.
Qed.
(** Permissions of owner, group and others only; without the read permissions if the file has the read-only attribute (C59). *)
Definition nine (ro : bool) (v : N) : Prop :=
  forall i, N.testbit v i = true -> exists t o, three t /\ i = perm_bit t o /\ (ro = true -> o <> o_read).
Lemma nine_or : forall ro a b, nine ro a -> nine ro b -> nine ro (op_or width_perms a b).
Proof. intros ro a b Ha Hb i H. apply trunc_bit in H. rewrite N.lor_spec in H. apply orb_true_iff in H. destruct H; auto. Qed.
Lemma nine_none : forall ro, nine ro 0.
Proof. intros ro i H. rewrite N.bits_0 in H. discriminate. Qed.
Definition read_only (attr : N) : bool := FlagTest attr FILE_ATTRIBUTE_READONLY.
Lemma trustee_nine : forall t m attr, three t -> exists p, trustee_permissions t m attr = Ok p /\ nine (read_only attr) p.
Proof.
  intros t m attr Ht. unfold trustee_permissions, read_only. set (dir := FlagTest attr FILE_ATTRIBUTE_DIRECTORY).
  destruct (C56_mapping m t (if dir then ft_directory else ft_regular) dir Ht) as (p & -> & _ & Hp).
  { destruct dir; [left; auto|right; split; [reflexivity|left; reflexivity]]. }
  cbn [bind]. destruct (FlagTest attr FILE_ATTRIBUTE_READONLY).
  - assert (Hv : exists v, posix_perm t o_read = Ok v /\ v = 2 ^ perm_bit t o_read).
    { cbn [In three] in Ht. destruct Ht as [<-|[<-|[<-|[]]]]; eexists; split; reflexivity. }
    destruct Hv as (v & -> & ->). cbn [bind]. eexists. split; [reflexivity|]. intros i H. unfold FlagClear in H. rewrite N.ldiff_spec in H.
    apply andb_true_iff in H. destruct H as [H1 H2]. destruct (Hp i H1) as [o ->]. exists t, o. split; [exact Ht|]. split; [reflexivity|].
    intros _ ->. rewrite N.pow2_bits_true in H2. discriminate.
  - exists p. split; [reflexivity|]. intros i H. destruct (Hp i H) as [o ->]. exists t, o. split; [exact Ht|]. split; [reflexivity|discriminate].
Qed.

Lemma wl_step : forall ro has d t attr prms k l, three t -> quiet l -> (ro = true -> read_only attr = true) -> nine ro prms ->
  (forall p l', nine ro p -> quiet l' -> wl ok (k p) l' (read_well (nine ro))) ->
  wl ok (hpermission_step dbg has d t attr prms k) l (read_well (nine ro)).
Proof.
  intros ro has d t attr prms k l Ht Hq Hro Hn Hk. cbn [hpermission_step wl]. intros [[ret last]|mask] _.
  - assert (H : forall r, read_well (nine ro) r (l ++ [HEv (h_EffectiveRights d t) (inl (ret, last))])) by (intros r; apply well_bad; auto).
    unfold GetTrusteePermissions. cbn [s_rights]. destruct (ret =? ERROR_INVALID_ACL).
    + cbn. apply H.
    + unfold wcapture. destruct (dbg && _); [apply H|]. destruct (last =? 0) eqn:E; [|apply H].
      eapply wl_mono; [apply Hk; [apply nine_or; auto; apply nine_none|apply quiet_app; auto]|]. auto.
  - unfold GetTrusteePermissions. cbn [s_rights]. destruct (trustee_nine t mask attr Ht) as (p & -> & Hp).
    change (0 =? 0) with true. cbv iota. apply Hk; [|apply quiet_app; auto]. apply nine_or; auto.
    intros i Hi. destruct (Hp i Hi) as (t' & o & H1 & H2 & H3). exists t', o. auto.
Qed.
Lemma wl_get_permissions : forall ro p attr l, quiet l -> (ro = true -> read_only attr = true) ->
  wl ok (hGetPermissions dbg true p attr) l (read_well (nine ro)).
Proof.
  intros ro p attr l Hq Hro. unfold hGetPermissions. cbn [wl]. intros [last|d] _.
  - unfold hfail, hcapture. destruct (dbg && _); apply well_bad; auto.
  - apply wl_scope. eapply wl_mono.
    2: { intros r l' H. exact (conj H (fun x => well_after _ _ r l' (HEv (h_LocalFree d) x) eq_refl H)). }
    assert (Hend : forall v l', nine ro v -> quiet l' -> wl ok (hret v 0) l' (read_well (nine ro))).
    { intros v l' Hv Hl. cbn. split; [exact Hl|]. left. eauto. }
    apply wl_step; auto; [cbn; auto|apply quiet_app; auto|apply nine_none|]. intros p1 l1 H1 Hq1. cbn [wl]. intros [|] _.
    + apply wl_step; auto; [cbn; auto|apply quiet_app; auto].
    + apply wl_step; auto; [cbn; auto|apply quiet_app; auto|]. intros p2 l2 H2 Hq2. apply wl_step; auto. cbn; auto.
Qed.

Definition good_status (ro : bool) (st : wstatus) : Prop := nine ro (snd st).
Lemma wl_with_permissions : forall ro p attr k l, quiet l -> (ro = true -> read_only attr = true) ->
  (forall x l', nine ro x -> quiet l' -> wl ok (k x) l' (read_well (good_status ro))) ->
  (forall x l', trouble l' -> quiet l' -> wl ok (k x) l' (read_well (good_status ro))) ->
  wl ok (hwith_permissions dbg true p attr k) l (read_well (good_status ro)).
Proof.
  intros ro p attr k l Hq Hro Hk Hk'. unfold hwith_permissions. apply wl_bind. eapply wl_mono; [apply (wl_get_permissions ro); auto|].
  intros r l' [Hq' [(a & -> & Ha)|Ht]]; [cbn; auto|].
  destruct r as [[a e|c|]| | |]; cbn; try (split; auto). destruct (e =? 0); [auto|]. cbn. split; auto.
Qed.

(** Answers that make [ro] true. *)
Definition marked (p : path) : Prop :=
  forall a, ok (h_Plain (w_Attributes (native p))) (inr a) -> read_only a = true /\ has_attr a FILE_ATTRIBUTE_REPARSE_POINT = false.

Lemma well_file : forall A B good p a s fl (bad : N -> hprog A) body (f : A -> N -> hprog B) l, quiet l ->
  (forall e l', quiet l' -> trouble l' -> wl ok (bad e) l' (then_ ok f (read_well good))) ->
  (forall h l', quiet l' -> (trouble l -> trouble l') -> wl ok (body h) l' (fun r l2 => then_ ok f (read_well good) r l2 /\ forall c x, changes (HEv c x) = false -> then_ ok f (read_well good) r (l2 ++ [HEv c x]))) ->
  wl ok (with_file dbg p a s fl bad body) l (then_ ok f (read_well good)).
Proof.
  intros A B good p a s fl bad body f l Hq Hb Hy. unfold with_file. cbn [wl]. intros [last|h] _.
  - assert (Hq' : quiet (l ++ [HEv (h_CreateFile (native p) a s fl) (inl last)])) by (apply quiet_app; auto).
    assert (Ht : trouble (l ++ [HEv (h_CreateFile (native p) a s fl) (inl last)])) by (apply trouble_app; auto).
    unfold hcapture. destruct (dbg && _); [cbn; split; auto|]. destruct (last =? 0).
    + eapply wl_mono; [apply Hy; auto|]. intros r l' [H _]. exact H.
    + apply Hb; auto.
  - apply wl_scope. eapply wl_mono; [apply Hy; [apply quiet_app; auto|intros H; apply trouble_app; auto]|]. intros r l' [H1 H2]. split; auto.
Qed.

Lemma wl_status : forall ro p l, quiet l -> (ro = true -> marked p) -> wl ok (hstatus dbg true p) l (read_well (good_status ro)).
Proof.
  intros ro p l Hq Hro. unfold hstatus. cbn [wl hanswer wanswer]. intros [last|attrs] Hok.
  { unfold hcapture. destruct (dbg && _); apply well_bad; auto. }
  assert (Hq1 : quiet (l ++ [HEv (h_Plain (w_Attributes (native p))) (inr attrs)])) by (apply quiet_app; auto).
  revert Hq1. generalize (l ++ [HEv (h_Plain (w_Attributes (native p))) (inr attrs)]). intros l1 Hq1. apply wl_bind.
  assert (Hend : forall attr l2, quiet l2 -> (ro = true -> read_only attr = true) ->
     wl ok (hwith_permissions dbg true p attr (fun prms => hret (directory_or_regular attr, prms) 0)) l2 (read_well (good_status ro))).
  { intros attr l2 H2 Hr. apply wl_with_permissions; auto; intros x l' Hx Hl; cbn; split; auto. left. eauto. }
  destruct (has_attr attrs FILE_ATTRIBUTE_REPARSE_POINT) eqn:Hr.
  - assert (Hn : ro = true -> False) by (intros H; destruct (Hro H attrs Hok); congruence).
    apply well_file; auto.
    + intros e l' H1 H2. cbn. split; auto.
    + intros h l' H1 _. cbn [wl]. intros [last|attrs'] _.
      * assert (Ht : trouble (l' ++ [HEv (h_AttributeTag h) (inl last)])) by (apply trouble_app; auto).
        assert (Hq2 : quiet (l' ++ [HEv (h_AttributeTag h) (inl last)])) by (apply quiet_app; auto).
        unfold hcapture. destruct (dbg && _); cbn; (split; [split; auto|intros c x Hc; apply well_after; [exact Hc|split; auto]]).
      * cbn. assert (Hq2 : quiet (l' ++ [HEv (h_AttributeTag h) (inr attrs')])) by (apply quiet_app; auto).
        split; [|intros c x Hc]; apply Hend; auto; try (intros H; destruct (Hn H)). apply quiet_app; auto.
  - cbn. apply Hend; auto. intros H. apply (Hro H attrs Hok).
Qed.
Lemma wl_symlink_status : forall ro p l, quiet l -> (ro = true -> marked p) -> wl ok (hsymlink_status dbg true p) l (read_well (good_status ro)).
Proof.
  intros ro p l Hq Hro. unfold hsymlink_status. cbn [wl hanswer wanswer]. intros [last|attr] Hok.
  { unfold hcapture. destruct (dbg && _); apply well_bad; auto. }
  assert (Hq1 : quiet (l ++ [HEv (h_Plain (w_Attributes (native p))) (inr attr)])) by (apply quiet_app; auto).
  revert Hq1. generalize (l ++ [HEv (h_Plain (w_Attributes (native p))) (inr attr)]). intros l1 Hq1.
  assert (Hk : forall x l', nine ro x \/ trouble l' -> quiet l' ->
     wl ok (if has_attr attr FILE_ATTRIBUTE_REPARSE_POINT
            then hbind (hIsReparsePointSymlink dbg true p) (fun l e => hret (if l then WT ft_symlink else WReparse, x) e)
            else hret (directory_or_regular attr, x) 0) l' (read_well (good_status ro))).
  { intros x l' Hx Hl. destruct (has_attr attr FILE_ATTRIBUTE_REPARSE_POINT).
    - apply wl_bind. unfold hIsReparsePointSymlink. apply well_file; auto.
      + intros e l2 H1 H2. cbn. split; auto.
      + intros h l2 H1 H2. cbn [wl]. intros [last|d] _.
        * assert (Ht : trouble (l2 ++ [HEv (h_DeviceIoControl h) (inl last)])) by (apply trouble_app; auto).
          assert (Hq2 : quiet (l2 ++ [HEv (h_DeviceIoControl h) (inl last)])) by (apply quiet_app; auto).
          unfold hfail, hcapture. destruct (dbg && _); cbn; (split; [split; auto|intros c y Hc; apply well_after; [exact Hc|split; auto]]).
        * assert (Hq2 : quiet (l2 ++ [HEv (h_DeviceIoControl h) (inr d)])) by (apply quiet_app; auto).
          assert (Hw : read_well (good_status ro) (WE (WRet (if (rp_tag d =? IO_REPARSE_TAG_SYMLINK) || (rp_tag d =? IO_REPARSE_TAG_MOUNT_POINT) then WT ft_symlink else WReparse, x) 0))
                         (l2 ++ [HEv (h_DeviceIoControl h) (inr d)])).
          { split; [exact Hq2|]. destruct Hx as [Hx|Hx]; [left; eauto|right; apply trouble_app; auto]. }
          cbn. split; [exact Hw|]. intros c y Hc. apply well_after; auto.
    - cbn. split; auto. destruct Hx; auto. left. eauto. }
  apply wl_with_permissions; auto. intros H. apply (Hro H attr Hok).
Qed.
Lemma trouble_grows : forall A (p : hprog A) l, trouble l -> wl ok p l (fun _ l' => trouble l').
Proof. intros A p. induction p as [r|c k IH]; intros l H; cbn; auto. intros r _. apply IH. apply trouble_app. auto. Qed.
End Reading.

(** ** Setting *)

Section Setting.
Variable dbg : bool.
Variable ok : forall c, hanswer c -> Prop.
Hypothesis reasons : forall c r, ok c r -> has_reason c r.

Definition has_set (p : path) (v : N) (r : wend unit) (l : list hevent) : Prop :=
  match r with
  | WE (WRet _ 0) => exists same, given p same (entries_for same v) l
  | _ => quiet l /\ trouble l
  end.
Lemma has_set_after : forall p v r l e, changes e = false -> has_set p v r l -> has_set p v r (l ++ [e]).
Proof.
  intros p v r l e He H. assert (Hq : quiet l /\ trouble l -> quiet (l ++ [e]) /\ trouble (l ++ [e])).
  { intros [H1 H2]. split; [apply quiet_app; auto|apply trouble_app; auto]. }
  destruct r as [[u [|x]|c|]| | |]; cbn in *; auto. destruct H as (same & d & blocks & acl & H1 & H2 & H3 & H4).
  exists same, d, blocks, acl. rewrite filter_app, H1. cbn. rewrite He. split; [reflexivity|]. rewrite !in_app_iff. auto.
Qed.
Lemma wl_after : forall p v c q l, (forall x, changes (HEv c x) = false) -> wl ok q l (has_set p v) -> wl ok (hscope c q) l (has_set p v).
Proof.
  intros p v c q l Hc H. apply wl_scope. eapply wl_mono; [exact H|]. intros r l' Hr. split; [exact Hr|]. intros x. apply has_set_after; auto.
Qed.
Lemma refused_set : forall p v e l, quiet l -> trouble l -> e <> 0 -> has_set p v (WE (WRet tt e)) l.
Proof. intros p v e l H1 H2 He. destruct e; [congruence|]. cbn. auto. Qed.

Lemma wl_make_aces : forall p v d same todo blocks k l, quiet l ->
  In (HEv (h_EqualSid d) same) l -> In (HEv (h_NamedSecurity (native p)) (inr d)) l ->
  (forall bs l', quiet l' -> In (HEv (h_EqualSid d) same) l' -> In (HEv (h_NamedSecurity (native p)) (inr d)) l' -> wl ok (k bs) l' (has_set p v)) ->
  wl ok (hmake_aces dbg true todo blocks k) l (has_set p v).
Proof.
  intros p v d same todo. induction todo as [|a todo IH]; intros blocks k l Hq H1 H2 Hk; cbn [hmake_aces]; [auto|].
  cbn [wl]. intros [last|b] Hok.
  - assert (He : last <> 0) by (intros ->; apply reasons in Hok; cbn in Hok; congruence).
    assert (Hq' : quiet (l ++ [HEv h_LocalAlloc (inl last)])) by (apply quiet_app; auto).
    assert (Ht : trouble (l ++ [HEv h_LocalAlloc (inl last)])) by (apply trouble_app; auto).
    unfold hfail, hcapture. apply N.eqb_neq in He. rewrite He, andb_false_r. apply refused_set; auto. apply N.eqb_neq. exact He.
  - apply wl_after; [reflexivity|]. apply IH; auto; [apply quiet_app; auto|apply in_or_app; auto|apply in_or_app; auto].
Qed.
Lemma wl_set_permissions : forall p v l, quiet l -> wl ok (hSetPermissions dbg true p v) l (has_set p v).
Proof.
  intros p v l Hq. unfold hSetPermissions. cbn [wl]. intros [code|d] Hok.
  - apply refused_set; [apply quiet_app; auto|apply trouble_app; auto|]. intros ->. apply reasons in Hok. cbn in Hok. congruence.
  - apply wl_after; [reflexivity|]. cbn [wl]. intros same _.
    set (l1 := (l ++ [HEv (h_NamedSecurity (native p)) (inr d)]) ++ [HEv (h_EqualSid d) same]).
    assert (Hq1 : quiet l1) by (unfold l1; repeat apply quiet_app; auto).
    assert (Hs : In (HEv (h_EqualSid d) same) l1) by (unfold l1; rewrite in_app_iff; right; left; reflexivity).
    assert (Hd : In (HEv (h_NamedSecurity (native p)) (inr d)) l1) by (unfold l1; rewrite !in_app_iff; left; right; left; reflexivity).
    clearbody l1. apply (wl_make_aces p v d same); auto. intros bs l2 Hq2 Hs2 Hd2. cbn [wl]. intros [code|acl] Hok2.
    + apply refused_set; [apply quiet_app; auto|apply trouble_app; auto|]. intros ->. apply reasons in Hok2. cbn in Hok2. congruence.
    + apply wl_after; [reflexivity|]. cbn [wl]. intros [code|[]] Hok3.
      * apply refused_set; [repeat apply quiet_app; auto|apply trouble_app; auto|]. intros ->. apply reasons in Hok3. cbn in Hok3. congruence.
      * cbn. exists same, d, bs, acl. unfold entries_for. rewrite !filter_app. unfold quiet in Hq2. rewrite Hq2. cbn. split; [reflexivity|].
        rewrite !in_app_iff. split; [left; right; left; reflexivity|auto].
Qed.

Lemma option_add : forall a nf, negb (op_and width_perm_options (popt_value po_add) (perm_opts a nf) =? 0) = match a with Add => true | _ => false end.
Proof. intros [] []; reflexivity. Qed.
Lemma option_remove : forall a nf, negb (op_and width_perm_options (popt_value po_remove) (perm_opts a nf) =? 0) = match a with Remove => true | _ => false end.
Proof. intros [] []; reflexivity. Qed.
Lemma option_replace : forall a nf, negb (op_and width_perm_options (popt_value po_replace) (perm_opts a nf) =? 0) = match a with Replace => true | _ => false end.
Proof. intros [] []; reflexivity. Qed.
Lemma option_nofollow : forall a nf, negb (op_and width_perm_options (popt_value po_nofollow) (perm_opts a nf) =? 0) = nf.
Proof. intros [] []; reflexivity. Qed.

Definition target (a : action) (old prms : N) : N :=
  let masked := op_and width_perms prms perms_mask in
  match a with
  | Replace => masked
  | Add => op_or width_perms masked old
  | Remove => op_and width_perms old (op_not width_perms masked)
  end.
Lemma target_bit : forall a old prms i, i < 12 -> N.testbit (target a old prms) i = new_bit a (N.testbit old i) (N.testbit prms i).
Proof.
  intros a old prms i Hi. unfold target.
  assert (H : forall x, N.testbit (op_and width_perms x perms_mask) i = N.testbit x i).
  { intros. unfold op_and. rewrite trunc32 by auto. unfold perms_mask. rewrite land_mask. apply N.ltb_lt in Hi. rewrite Hi. apply andb_true_r. }
  destruct a; cbn [new_bit].
  - apply H.
  - unfold op_or. rewrite trunc32 by auto. rewrite N.lor_spec, H. apply orb_comm.
  - unfold op_and at 1. rewrite trunc32 by auto. rewrite N.land_spec, not_bit, H; auto.
Qed.

Definition reader (nf : bool) (p : path) : hprog wstatus := if nf then hsymlink_status dbg true p else hstatus dbg true p.
Definition reads (a : action) (nf : bool) : bool := nf || match a with Replace => false | _ => true end.
Definition decide (a : action) (prms : N) (st : wstatus) (e : N) : hprog (N + N) :=
  if negb (e =? 0) then hret (inl e) 0
  else if dbg && (snd st =? perms_unknown) then HEnd (WE WAssert)
  else hret (inr (target a (snd st) prms)) 0.
Definition set_it (has : bool) (p : path) (r : N + N) (_ : N) : hprog unit :=
  match r with
  | inl e => hbad has tt e
  | inr prms' => hbind (hSetPermissions dbg true p prms') (fun _ e => if negb (e =? 0) then hbad has tt e else hret tt 0)
  end.
Lemma permissions_is : forall has p prms a nf, hpermissions dbg has p prms (perm_opts a nf) =
  hbind (if reads a nf then hbind (reader nf p) (decide a prms) else hret (inr (target a 0 prms)) 0) (set_it has p).
Proof.
  intros has p prms a nf. unfold hpermissions. cbv zeta. rewrite option_add, option_remove, option_replace, option_nofollow.
  replace (dbg && _) with false by (destruct dbg, a; reflexivity). destruct a, nf; reflexivity.
Qed.

Definition outcome (has : bool) (p : path) (v : N) (r : wend unit) (l : list hevent) : Prop :=
  match r with
  | WE (WRet _ 0) => exists same, given p same (entries_for same v) l
  | _ => quiet l /\ trouble l
  end.
Lemma wl_set_it : forall has p v l, quiet l -> wl ok (set_it has p (inr v) 0) l (outcome has p v).
Proof.
  intros has p v l Hq. cbn [set_it]. apply wl_bind. eapply wl_mono; [apply wl_set_permissions; exact Hq|].
  intros r l' H. destruct r as [[u [|x]|c|]| | |]; cbn in *; auto. destruct has; cbn; exact H.
Qed.
Lemma unknown_not_nine : forall ro v, nine ro v -> (v =? perms_unknown) = false.
Proof.
  intros ro v H. apply N.eqb_neq. intros ->. destruct (H 15 eq_refl) as (t & o & Ht & Hi & _). cbn [In three] in Ht.
  destruct Ht as [<-|[<-|[<-|[]]]]; destruct o; discriminate.
Qed.
Lemma wl_reader : forall ro nf p l, quiet l -> (ro = true -> marked ok p) -> wl ok (reader nf p) l (read_well (good_status ro)).
Proof. intros ro nf p l Hq Hm. unfold reader. destruct nf; [apply wl_symlink_status|apply wl_status]; auto. Qed.

(** The whole call: what is read is what status tells. *)
Lemma permissions_runs : forall has p prms a nf S (h : hkernel S) s ro, answers ok h -> (ro = true -> marked ok p) ->
  let '(r, (_, l)) := hrun (recorded h) (hpermissions dbg has p prms (perm_opts a nf)) (s, []) in
  match r with
  | WE (WRet _ 0) => exists v same, given p same (entries_for same v) l /\
      (reads a nf = false /\ v = target a 0 prms \/
       exists type old, fst (hrun h (reader nf p) s) = WE (WRet (type, old) 0) /\ v = target a old prms /\ (nine ro old \/ trouble l))
  | _ => quiet l /\ trouble l
  end.
Proof.
  intros has p prms a nf S h s ro Hh Hm. rewrite permissions_is, hrun_bind. destruct (reads a nf) eqn:Hr.
  - rewrite hrun_bind. pose proof (wl_run ok _ _ [] _ (wl_reader ro nf p [] eq_refl Hm) S h s Hh) as Hw.
    pose proof (recorded_same _ (reader nf p) S h s []) as [Hf _].
    destruct (hrun (recorded h) (reader nf p) (s, [])) as [r1 [s1 l1]]. cbn [fst snd] in *. destruct Hw as [Hq Hw].
    assert (Hbad : (forall x, r1 <> WE (WRet x 0)) -> quiet l1 /\ trouble l1).
    { intros Hx. destruct Hw as [(x & -> & _)|Ht]; [destruct (Hx x eq_refl)|auto]. }
    destruct r1 as [[st e|c|]| | |]; try (apply Hbad; discriminate).
    unfold decide. destruct (e =? 0) eqn:He; cbn [negb].
    + apply N.eqb_eq in He. subst e. destruct (dbg && (snd st =? perms_unknown)) eqn:Hd.
      * cbn. destruct Hw as [(x & Hx & Hn)|Ht]; [|auto]. exfalso. injection Hx as <-. apply (unknown_not_nine ro) in Hn. rewrite Hn, andb_false_r in Hd. discriminate.
      * cbn [hret hrun]. unfold hret. cbn [hrun]. pose proof (wl_run ok _ _ l1 _ (wl_set_it has p (target a (snd st) prms) l1 Hq) S h s1 Hh) as Hs.
        pose proof (trouble_grows ok _ (set_it has p (inr (target a (snd st) prms)) 0) l1) as Hg.
        assert (Hg' : trouble l1 -> trouble (snd (snd (hrun (recorded h) (set_it has p (inr (target a (snd st) prms)) 0) (s1, l1))))).
        { intros Ht. apply (wl_run ok _ _ l1 (fun _ l' => trouble l') (Hg Ht) S h s1 Hh). }
        destruct (hrun (recorded h) (set_it has p (inr (target a (snd st) prms)) 0) (s1, l1)) as [r2 [s2 l2]]. cbn [fst snd] in *.
        destruct r2 as [[u [|x]|c|]| | |]; cbn in Hs; auto. destruct Hs as [same Hs]. exists (target a (snd st) prms), same. split; [exact Hs|]. right.
        exists (fst st), (snd st). split; [rewrite <- Hf; destruct st; reflexivity|]. split; [reflexivity|].
        destruct Hw as [(x & Hx & Hn)|Ht]; [left; injection Hx as <-; exact Hn|auto].
    + assert (Hqt : quiet l1 /\ trouble l1) by (apply Hbad; intros x Hx; injection Hx as _ ->; discriminate).
      cbn. destruct has; cbn; [destruct e; [discriminate|]|]; exact Hqt.
  - unfold hret at 1. cbn [hrun]. pose proof (wl_run ok _ _ [] _ (wl_set_it has p (target a 0 prms) [] eq_refl) S h s Hh) as Hs.
    destruct (hrun (recorded h) (set_it has p (inr (target a 0 prms)) 0) (s, [])) as [r2 [s2 l2]]. cbn [fst snd] in *.
    destruct r2 as [[u [|x]|c|]| | |]; cbn in Hs; auto. destruct Hs as [same Hs]. exists (target a 0 prms), same. auto.
Qed.
End Setting.

(** * Theorems *)

(** A call that succeeds changed the file once, to the permissions asked for, computed from what status (with nofollow: symlink_status) tells
    before. Any other end leaves the file alone, and a call of the system had failed. *)
Theorem C94_permissions : forall dbg has p prms a nf S (h : hkernel S) s, answers has_reason h ->
  let '(r, (_, l)) := hrun (recorded h) (hpermissions dbg has p prms (perm_opts a nf)) (s, []) in
  match r with
  | WE (WRet _ 0) => exists v same, given p same (entries_for same v) l /\
      match a with
      | Replace => forall i, i < 12 -> N.testbit v i = N.testbit prms i
      | _ => exists type old,
          fst (hrun h (if nf then hsymlink_status dbg true p else hstatus dbg true p) s) = WE (WRet (type, old) 0) /\
          forall i, i < 12 -> N.testbit v i = new_bit a (N.testbit old i) (N.testbit prms i)
      end
  | _ => filter changes l = [] /\ existsb refused l = true
  end.
Proof.
  intros dbg has p prms a nf S h s Hh.
  pose proof (permissions_runs dbg has_reason (fun c r H => H) has p prms a nf S h s false Hh) as H.
  destruct (hrun (recorded h) (hpermissions dbg has p prms (perm_opts a nf)) (s, [])) as [r [s' l]].
  specialize (H (fun E => False_ind _ (diff_false_true E))). destruct r as [[u [|x]|c|]| | |]; auto.
  destruct H as (v & same & Hg & Hv). exists v, same. split; [exact Hg|].
  destruct Hv as [[Hr ->]|(type & old & Ho & -> & _)].
  - destruct a; [intros i Hi; apply (target_bit Replace 0 prms i Hi)|destruct nf; discriminate|destruct nf; discriminate].
  - destruct a; [intros i Hi; apply (target_bit Replace old prms i Hi)|exists type, old; split; [exact Ho|]; intros i Hi; apply target_bit; auto ..].
Qed.

(** A wrong number of actions: with assertions the program stops before any call; without them add wins over remove, which wins over replace,
    and none acts as replace. *)
Theorem C94_option_count_refuted : forall has p prms opts,
  let set n := N.testbit opts n in
  let action := if set 1 then Add else if set 2 then Remove else Replace in
  hpermissions false has p prms opts = hpermissions false has p prms (perm_opts action (set 3)) /\
  (Nat.add (Nat.b2n (set 0)) (Nat.add (Nat.b2n (set 1)) (Nat.b2n (set 2))) <> 1%nat -> hpermissions true has p prms opts = HEnd (WE WAssert)).
Proof.
  intros has p prms opts set action.
  assert (Hb : forall o n, popt_value o = 2 ^ n -> n < 32 -> negb (op_and width_perm_options (popt_value o) opts =? 0) = set n).
  { intros o n -> Hn. unfold set, op_and, trunc. destruct (N.testbit opts n) eqn:Hs.
    - apply negb_true_iff, N.eqb_neq. intros H0.
      assert (H1 : N.testbit (N.land (2 ^ n) opts mod 2 ^ width_perm_options) n = true).
      { change width_perm_options with 32. rewrite N.mod_pow2_bits_low by auto. rewrite N.land_spec, N.pow2_bits_true, Hs. reflexivity. }
      rewrite H0, N.bits_0 in H1. discriminate.
    - apply negb_false_iff, N.eqb_eq. replace (N.land (2 ^ n) opts) with 0; [reflexivity|]. symmetry. apply N.bits_inj. intros i.
      rewrite N.land_spec, N.pow2_bits_eqb, N.bits_0. destruct (n =? i) eqn:E; [apply N.eqb_eq in E; subst i; exact Hs|reflexivity]. }
  split.
  - unfold hpermissions. cbv zeta. rewrite option_add, option_remove, option_nofollow.
    rewrite (Hb po_add 1), (Hb po_remove 2), (Hb po_nofollow 3) by (reflexivity || lia). cbn [andb]. subst action. destruct (set 1), (set 2), (set 3); reflexivity.
  - intros Hc. unfold hpermissions. cbv zeta. rewrite (Hb po_add 1), (Hb po_remove 2), (Hb po_replace 0), (Hb po_nofollow 3) by (reflexivity || lia).
    destruct (set 0), (set 1), (set 2); cbn in Hc; try lia; reflexivity.
Qed.

(** What that means for others and for members of the group who are not the owner (C62). *)
Theorem C94_in_effect : forall dbg has p prms a nf S (h : hkernel S) s, answers has_reason h ->
  let '(r, (_, l)) := hrun (recorded h) (hpermissions dbg has p prms (perm_opts a nf)) (s, []) in
  match r with
  | WE (WRet _ 0) => exists old same entries, given p same entries l /\
      (a <> Replace -> exists type, fst (hrun h (if nf then hsymlink_status dbg true p else hstatus dbg true p) s) = WE (WRet (type, old) 0)) /\
      let group := if same then 0 else 1 in
      let asks t op := new_bit a (N.testbit old (perm_bit t op)) (N.testbit prms (perm_bit t op)) = true in
      forall order who op,
      let rights := effective_rights who (SetEntriesInAcl order entries) in
      (process who 0 group false false -> forall dir, grants rights (needed dir op) <-> asks t_others op) /\
      (process who 0 group false true -> grants rights (data_right op) <-> asks t_group op)
  | _ => filter changes l = []
  end.
Proof.
  intros dbg has p prms a nf S h s Hh. pose proof (C94_permissions dbg has p prms a nf S h s Hh) as H.
  destruct (hrun (recorded h) (hpermissions dbg has p prms (perm_opts a nf)) (s, [])) as [r [s' l]].
  destruct r as [[u [|x]|c|]| | |]; try (apply H). destruct H as (v & same & Hg & Hv).
  assert (Hx : exists old, (a <> Replace -> exists type, fst (hrun h (if nf then hsymlink_status dbg true p else hstatus dbg true p) s) = WE (WRet (type, old) 0)) /\
                 forall i, i < 12 -> N.testbit v i = new_bit a (N.testbit old i) (N.testbit prms i)).
  { destruct a; [exists 0; split; [congruence|exact Hv]|destruct Hv as (type & old & H1 & H2); exists old; eauto ..]. }
  destruct Hx as (old & Hold & Hbits). exists old, same, (entries_for same v). split; [exact Hg|]. split; [exact Hold|]. cbv zeta.
  intros order who op. split.
  - intros Hp dir. rewrite <- Hbits by (destruct op; reflexivity). apply C62_others. exact Hp.
  - intros Hp. rewrite <- Hbits by (destruct op; reflexivity). apply C62_members; [|exact Hp]. destruct same; [|discriminate].
    destruct Hp as (_ & H1 & H2). congruence.
Qed.

(** The case of a file with the read-only attribute. Let no call fail, and let [p] name a file with that attribute and no reparse point. *)
Definition attributes_of (c : hcall) : hanswer c -> option (str * N) :=
  match c as c return hanswer c -> option (str * N) with
  | h_Plain (w_Attributes t) => fun r => match r with inr a => Some (t, a) | inl _ => None end
  | _ => fun _ => None
  end.
Definition grants_everything_on (p : path) (c : hcall) (r : hanswer c) : Prop :=
  refused (HEv c r) = false /\
  forall a, attributes_of c r = Some (native p, a) -> FlagTest a FILE_ATTRIBUTE_READONLY = true /\ has_attr a FILE_ATTRIBUTE_REPARSE_POINT = false.

Lemma others_data : forall order owner group prms who op, process who owner group false false ->
  grants (rights_after order owner group prms who) (data_right op) <-> asked prms t_others op.
Proof.
  intros order owner group prms who op H. unfold asked. rewrite (rights_table _ _ _ _ _ _ _ H), <- FlagTest_grants.
  rewrite bits_of by (cbn; auto).
  destruct order, (owner =? group), op, (N.testbit prms 8), (N.testbit prms 7), (N.testbit prms 6), (N.testbit prms 5), (N.testbit prms 4),
    (N.testbit prms 3), (N.testbit prms 2), (N.testbit prms 1), (N.testbit prms 0); vm_compute; split; auto.
Qed.

(** Adding permissions succeeds and takes the permission to read from owner, group and others unless it is added. *)
Theorem C94_add_takes_away_refuted : forall dbg has p prms nf S (h : hkernel S) s, answers (grants_everything_on p) h ->
  (forall t, In t [t_owner; t_group; t_others] -> ~ asked prms t o_read) ->
  let '(r, (_, l)) := hrun (recorded h) (hpermissions dbg has p prms (perm_opts Add nf)) (s, []) in
  r = WE (WRet tt 0) /\ exists same entries, given p same entries l /\
    forall order who is_owner is_member, process who 0 (if same then 0 else 1) is_owner is_member ->
    ~ grants (effective_rights who (SetEntriesInAcl order entries)) (data_right o_read).
Proof.
  intros dbg has p prms nf S h s Hh Hn.
  assert (Hreason : forall c r, grants_everything_on p c r -> has_reason c r).
  { intros c r [H _]. destruct c; cbn; auto; intros ->; discriminate H. }
  assert (Hm : marked (grants_everything_on p) p) by (intros a [_ H]; apply H; reflexivity).
  pose proof (permissions_runs dbg (grants_everything_on p) Hreason has p prms Add nf S h s true Hh (fun _ => Hm)) as H.
  assert (Hw : forall A (q : hprog A) l, ~ trouble l -> wl (grants_everything_on p) q l (fun _ l' => ~ trouble l')).
  { intros A q. induction q as [r|c k IH]; intros l Hl; cbn; auto. intros r [Hr _]. apply IH. unfold trouble in *. rewrite existsb_app.
    intros Ht. apply orb_true_iff in Ht. destruct Ht as [Ht|Ht]; [auto|]. cbn [existsb] in Ht. rewrite Hr in Ht. discriminate. }
  pose proof (wl_run _ _ _ [] _ (Hw _ (hpermissions dbg has p prms (perm_opts Add nf)) [] diff_false_true) S h s Hh) as Ht.
  destruct (hrun (recorded h) (hpermissions dbg has p prms (perm_opts Add nf)) (s, [])) as [r [s' l]]. cbn [fst snd] in Ht.
  destruct r as [[[] [|x]|c|]| | |]; try (exfalso; apply Ht; apply H). split; [reflexivity|].
  destruct H as (v & same & Hg & Hv). exists same, (entries_for same v). split; [exact Hg|].
  destruct Hv as [[Hr _]|(type & old & _ & -> & [Ho|Hx])]; [destruct nf; discriminate| |contradiction].
  assert (Hread : forall t, In t [t_owner; t_group; t_others] -> ~ asked (target Add old prms) t o_read).
  { intros t Hi Ha. unfold asked in *. rewrite target_bit in Ha by (cbn [In] in Hi; destruct Hi as [<-|[<-|[<-|[]]]]; reflexivity).
    cbn [new_bit] in Ha. apply orb_true_iff in Ha. destruct Ha as [Ha|Ha]; [|apply (Hn t Hi Ha)].
    destruct (Ho _ Ha) as (t' & o & Ht' & Hbit & Hno). specialize (Hno eq_refl). cbn [In three] in Hi, Ht'.
    destruct Hi as [<-|[<-|[<-|[]]]], Ht' as [<-|[<-|[<-|[]]]], o; try discriminate Hbit; congruence. }
  intros order who [|] is_member Hp Hgr.
  - apply (C62_owner_exact _ _ _ _ _ _ _ Hp) in Hgr. apply (Hread t_owner); [cbn; auto|apply Hgr].
  - destruct is_member.
    + assert (Hd : 0 <> (if same then 0 else 1)) by (destruct same; [destruct Hp as (_ & H1 & H2); congruence|discriminate]).
      apply (Hread t_group); [cbn; auto|]. apply (C62_members order 0 (if same then 0 else 1) (target Add old prms) who o_read Hd Hp). exact Hgr.
    + apply (Hread t_others); [cbn; auto|]. apply (others_data order 0 (if same then 0 else 1) (target Add old prms) who o_read Hp). exact Hgr.
Qed.
Print Assumptions C94_permissions.
Print Assumptions C94_option_count_refuted.
Print Assumptions C94_in_effect.
Print Assumptions C94_add_takes_away_refuted.

(** * Examples *)

(** A system that refuses nothing: every file has the attributes [attr]; the owner has all rights, the others may read. *)
Definition demo_system (attr : N) : hkernel N := fun c s =>
  (match c as c return hanswer c with
   | h_CreateFile _ _ _ _ => inr s | h_CloseHandle _ => tt | h_Information _ => inl 6 | h_AttributeTag _ => inr attr
   | h_DeviceIoControl _ => inr (Reparse IO_REPARSE_TAG_SYMLINK 0 0 0 0 []) | h_GetFileTime _ => inl 6 | h_SetFileTime _ _ => inr tt
   | h_SetFilePointer _ _ => inr tt | h_SetEndOfFile _ => inr tt | h_GetFileType _ => (H_DISK, 0)
   | h_FindFirst _ => inl 2 | h_FindNext _ => inl 6 | h_FindClose _ => 0
   | h_NamedSecurity _ => inr s | h_EqualSid _ => false
   | h_EffectiveRights _ t => inr (match t with t_owner => 2032127 | _ => file_read_mask end)
   | h_LocalAlloc => inr s | h_LocalFree _ => tt | h_SetEntries _ _ _ => inr s | h_SetNamedSecurity _ _ => inr tt
   | h_Plain c => match c as c return wanswer c with
                  | w_Attributes _ => inr attr
                  | w_Info _ => WInfo (inl 1) (inl 1) (inl 1) (inl 1) (inl 1) (Security (inl 1) true (fun _ => inr 0))
                  | w_TempPath => (0, 1, [])
                  | w_Find _ => (inl 1, 1)
                  | _ => inl 1
                  end
   end, s + 1).
Lemma demo_reason : forall attr, answers has_reason (demo_system attr).
Proof. intros attr c s. destruct c; cbn; auto; discriminate. Qed.

Ltac at_place n := apply (nth_error_In _ n); vm_compute; reflexivity.
(** An ordinary file, 0744: adding the permission of the group to execute asks for 0754. *)
Example C94_example :
  let '(r, (_, l)) := hrun (recorded (demo_system 32)) (hpermissions true false (wpath (lit "C:\f")) 8 (perm_opts Add false)) (0, []) in
  answers has_reason (demo_system 32) /\ r = WE (WRet tt 0) /\ given (wpath (lit "C:\f")) false (entries_for false 492) l /\
  fst (hrun (demo_system 32) (hstatus true true (wpath (lit "C:\f"))) 0) = WE (WRet (WT ft_regular, 484) 0).
Proof.
  destruct (hrun _ _ _) as [r [s l]] eqn:E. split; [apply demo_reason|]. vm_compute in E. injection E as <- _ <-. split; [reflexivity|].
  split; [|vm_compute; reflexivity]. exists 7, [11; 10; 9], 12. split; [vm_compute; reflexivity|]. split; [at_place 12%nat|split; [at_place 8%nat|at_place 7%nat]].
Qed.

(** A failure: SetEntriesInAclW refuses. *)
Definition demo_refusing : hkernel N := fun c => match c as c return N -> hanswer c * N with h_SetEntries _ _ _ => fun s => (inl 1337, s) | c => demo_system 32 c end.
Example C94_example_refused :
  let '(r, (_, l)) := hrun (recorded demo_refusing) (hpermissions true false (wpath (lit "C:\f")) 8 (perm_opts Remove false)) (0, []) in
  answers has_reason demo_refusing /\ r = WE (WThrow 1337) /\ filter changes l = [].
Proof.
  destruct (hrun _ _ _) as [r [s l]] eqn:E. split; [intros c s0; destruct c; cbn; auto; discriminate|]. vm_compute in E. injection E as <- _ <-.
  split; vm_compute; reflexivity.
Qed.

(** The file 0744 with the read-only attribute: adding the permission of the group to execute asks for 0310. *)
Example C94_example_read_only :
  let '(r, (_, l)) := hrun (recorded (demo_system 33)) (hpermissions false true (wpath (lit "C:\f")) 8 (perm_opts Add false)) (0, []) in
  answers (grants_everything_on (wpath (lit "C:\f"))) (demo_system 33) /\
  (forall t, In t [t_owner; t_group; t_others] -> ~ asked 8 t o_read) /\
  r = WE (WRet tt 0) /\ given (wpath (lit "C:\f")) false (entries_for false 200) l /\
  ~ grants (effective_rights (fun x => match x with Everyone | Sid 0 => true | _ => false end) (SetEntriesInAcl refusals_first (entries_for false 200))) (data_right o_read).
Proof.
  destruct (hrun _ _ _) as [r [s l]] eqn:E. split.
  { intros c s'. destruct c as [| | | | | | | | | | | | | | | | | | | |c]; try (split; [reflexivity|discriminate]).
    assert (H1 : refused (HEv (h_Plain c) (fst (demo_system 33 (h_Plain c) s'))) = false) by (destruct c; reflexivity).
    assert (H2 : forall t a, attributes_of (h_Plain c) (fst (demo_system 33 (h_Plain c) s')) = Some (t, a) -> a = 33).
    { intros t a Ha. destruct c; cbn in Ha; congruence. }
    split; [exact H1|]. intros a Ha. apply H2 in Ha. subst a. split; reflexivity. }
  split; [intros t Ht; cbn [In] in Ht; destruct Ht as [<-|[<-|[<-|[]]]]; vm_compute; discriminate|].
  vm_compute in E. injection E as <- _ <-. split; [reflexivity|]. split.
  - exists 7, [10; 9], 11. split; [vm_compute; reflexivity|]. split; [at_place 11%nat|split; [at_place 8%nat|at_place 7%nat]].
  - rewrite <- FlagTest_grants. vm_compute. discriminate.
Qed.
