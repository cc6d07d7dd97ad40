(** The model of the Windows operations with calls taken together ([WinOpsModel.v]) allows every result the one with single calls
    ([WinHandleModel.v]) allows: what is proved about all results of the first holds for the second. *)
From Coq Require Import Ascii String Bool Arith NArith ZArith Lia List Eqdep_dec.
From Verif Require Import Str PathModel FlagsModel TimeModel WinPermsModel WinAclModel WinStatModel WinOpsModel WinHandleModel WinHandles.
Import ListNotations.

(** * Specification *)

(** The ends a program can have, over all answers of Windows. *)
Fixpoint hends {A} (p : hprog A) (r : wend A) : Prop :=
  match p with HEnd x => x = r | HSys c k => exists a, hends (k a) r end.
Fixpoint wends {A} (p : wprog A) (r : wend A) : Prop :=
  match p with WEnd x => x = r | WSys c k => exists a, wends (k a) r end.

(** Whatever the program with single calls does against a system, the other one does against some system. *)
Definition allows {A} (q : wprog A) (p : hprog A) : Prop :=
  forall S (h : hkernel S) s, exists T (k : wkernel T) t, fst (wrun k q t) = fst (hrun h p s).

(** * Proof *)

Lemma hends_run : forall A (p : hprog A) S (h : hkernel S) s, hends p (fst (hrun h p s)).
Proof.
  intros A p. induction p as [r|c k IH]; intros S h s; cbn; [reflexivity|]. destruct (h c s) as [a s1]. exists a. apply IH.
Qed.

Definition wcall_eq_dec : forall a b : wcall, {a = b} + {a <> b}.
Proof. repeat decide equality. Defined.
Definition any_answer (c : wcall) : wanswer c :=
  match c with
  | w_Info _ => WInfo (inl 1%N) (inl 1%N) (inl 1%N) (inl 1%N) (inl 1%N) (Security (inl 1%N) true (fun _ => inr 0%N))
  | w_TempPath => (0%N, 1%N, [])
  | w_Find _ => (inl 1%N, 1%N)
  | _ => inl 1%N
  end.
(** A system that gives prepared answers. *)
Definition script : wkernel (list {c : wcall & wanswer c}) := fun c l =>
  match l with
  | [] => (any_answer c, [])
  | existT _ c' a :: r => match wcall_eq_dec c' c with left e => (eq_rect c' wanswer a c e, r) | right _ => (any_answer c, r) end
  end.
Lemma wends_run : forall A (q : wprog A) r, wends q r -> exists l, fst (wrun script q l) = r.
Proof.
  intros A q. induction q as [x|c k IH]; intros r H; cbn in *; [exists []; exact H|]. destruct H as [a H]. destruct (IH a r H) as [l Hl].
  exists (existT _ c a :: l). cbn. destruct (wcall_eq_dec c c) as [e|n]; [|congruence].
  rewrite <- (eq_rect_eq_dec wcall_eq_dec wanswer a e). exact Hl.
Qed.

Definition sim {A} (p : hprog A) (q : wprog A) : Prop := forall r, hends p r -> wends q r.
Lemma sim_allows : forall A (p : hprog A) q, sim p q -> allows q p.
Proof. intros A p q H S h s. destruct (wends_run A q _ (H _ (hends_run A p S h s))) as [l Hl]. eauto. Qed.

Definition after {A B} (x : wend A) (here : A -> N -> wend B -> Prop) (r : wend B) : Prop :=
  match x with
  | WE (WRet a e) => here a e r
  | WE (WThrow c) => r = WE (WThrow c)
  | WE WAssert => r = WE WAssert
  | WExn => r = WExn | WStop => r = WStop | WFuel => r = WFuel
  end.
Lemma hends_bind : forall A B (p : hprog A) (f : A -> N -> hprog B) r, hends (hbind p f) r ->
  exists x, hends p x /\ after x (fun a e => hends (f a e)) r.
Proof.
  intros A B p f. induction p as [x|c k IH]; intros r H.
  - exists x. split; [reflexivity|]. destruct x as [[a e|c|]| | |]; cbn in *; auto.
  - cbn in H. destruct H as [a H]. destruct (IH a r H) as (x & Hx & Ha). exists x. split; [|exact Ha]. cbn. eauto.
Qed.
Lemma wends_bind : forall A B (q : wprog A) (g : A -> N -> wprog B) x r, wends q x -> after x (fun a e => wends (g a e)) r -> wends (wbind q g) r.
Proof.
  intros A B q g. induction q as [y|c k IH]; intros x r Hx Ha.
  - cbn in Hx. subst y. destruct x as [[a e|c|]| | |]; cbn in *; auto.
  - cbn in *. destruct Hx as [a Hx]. exists a. eauto.
Qed.
Lemma sim_bind : forall A B (p : hprog A) (f : A -> N -> hprog B) q g, sim p q -> (forall a e, sim (f a e) (g a e)) -> sim (hbind p f) (wbind q g).
Proof.
  intros A B p f q g Hp Hf r H. destruct (hends_bind _ _ _ _ _ H) as (x & Hx & Ha). apply wends_bind with (x := x); [apply Hp; exact Hx|].
  destruct x as [[a e|c|]| | |]; cbn in *; auto. apply Hf. exact Ha.
Qed.
Lemma hends_scope : forall A c (p : hprog A) r, hends (hscope c p) r -> hends p r.
Proof.
  intros A c p. induction p as [x|c' k IH]; intros r H.
  - cbn [hscope] in H. destruct (leaves x); cbn in *; [destruct H as [_ H]|]; exact H.
  - cbn in *. destruct H as [a H]. eauto.
Qed.
Lemma sim_end : forall A (r : wend A), sim (HEnd r) (WEnd r).
Proof. intros A r x H. exact H. Qed.
Lemma sim_lift : forall A B (x : out A) (f : A -> hprog B) g, (forall a, sim (f a) (g a)) -> sim (hlift x f) (wlift x g).
Proof. intros A B [] f g H; cbn; auto using sim_end. Qed.
Lemma sim_plain : forall A (q : wprog A), sim (hplain q) q.
Proof. intros A q. induction q as [r|c k IH]; intros x H; cbn in *; auto. destruct H as [a H]. exists a. apply IH. exact H. Qed.

Section Sim.
Variable dbg : bool.
Variable m : signed_mode.
Variable tps : Z.

(** FileDescriptor::Create: a code, or a handle that may be invalid in builds without assertions. *)
Lemma hends_file : forall A p a s f (bad : N -> hprog A) body r, hends (with_file dbg p a s f bad body) r ->
  (exists e, hends (hcapture dbg e bad) r) \/ (exists h, hends (body h) r).
Proof.
  intros A p a s f bad body r H. unfold with_file in H. cbn [hends hanswer] in H. destruct H as [[last|h] H].
  - unfold hcapture in *. destruct (dbg && _) eqn:Hd; [left; exists last; rewrite Hd; exact H|].
    destruct (last =? 0)%N eqn:Hl; [right; eauto|]. left. exists last. rewrite Hl, andb_false_r. exact H.
  - right. exists (Some h). apply hends_scope in H. exact H.
Qed.
Lemma hends_capture : forall A last (f : N -> wres A) r, hends (hcapture dbg last (fun e => HEnd (WE (f e)))) r -> r = WE (wcapture dbg last f).
Proof. intros A last f r H. unfold hcapture, wcapture in *. destruct (dbg && _); cbn in H; congruence. Qed.
Lemma hends_fail : forall A has (v : A) last r, hends (hfail dbg has v last) r -> r = WE (wcapture dbg last (wreport has v)).
Proof. intros A has v last r H. apply (hends_capture A last (wreport has v)). exact H. Qed.

Definition rights3 (a b c : (N * N) + N) (t : trustee) := match t with t_owner => a | t_group => b | _ => c end.
Lemma hends_step : forall has d t attr prms k r, hends (hpermission_step dbg has d t attr prms k) r ->
  exists x, match GetTrusteePermissions dbg (Security (inr tt) false (fun _ => x)) t attr with
            | WRet p e => if (e =? 0)%N then hends (k (op_or width_perms prms p)) r else r = WE (ProcessPermissionsFailure has e)
            | WThrow c => r = WE (WThrow c)
            | WAssert => r = WE WAssert
            end.
Proof.
  intros has d t attr prms k r H. unfold hpermission_step in H. cbn [hends hanswer] in H. destruct H as [x H]. exists x.
  destruct (GetTrusteePermissions _ _ _ _) as [p e|c|]; [destruct (e =? 0)%N|..]; cbn in H; congruence.
Qed.
Lemma trustee_only : forall sec x t attr, s_rights sec t = x -> GetTrusteePermissions dbg sec t attr = GetTrusteePermissions dbg (Security (inr tt) false (fun _ => x)) t attr.
Proof. intros sec x t attr H. unfold GetTrusteePermissions. cbn [s_rights]. rewrite H. reflexivity. Qed.
Lemma hends_get_permissions : forall p attr r, hends (hGetPermissions dbg true p attr) r -> exists sec, r = WE (GetPermissions dbg true sec attr).
Proof.
  intros p attr r H. unfold hGetPermissions in H. cbn [hends hanswer] in H. destruct H as [[last|d] H].
  { exists (Security (inl last) true (fun _ => inr 0%N)). apply hends_fail in H. exact H. }
  apply hends_scope in H. apply hends_step in H. destruct H as [x1 H].
  set (d0 := inr 0%N : (N * N) + N).
  destruct (GetTrusteePermissions dbg _ t_owner attr) as [p1 e1|c1|] eqn:H1.
  2:{ exists (Security (inr tt) true (rights3 x1 d0 d0)). subst r. unfold GetPermissions, permission_step. cbn [s_named].
      rewrite (trustee_only (Security (inr tt) true (rights3 x1 d0 d0)) x1 t_owner attr eq_refl), H1. reflexivity. }
  2:{ exists (Security (inr tt) true (rights3 x1 d0 d0)). subst r. unfold GetPermissions, permission_step. cbn [s_named].
      rewrite (trustee_only (Security (inr tt) true (rights3 x1 d0 d0)) x1 t_owner attr eq_refl), H1. reflexivity. }
  destruct (e1 =? 0)%N eqn:He1.
  2:{ exists (Security (inr tt) true (rights3 x1 d0 d0)). subst r. unfold GetPermissions, permission_step. cbn [s_named].
      rewrite (trustee_only (Security (inr tt) true (rights3 x1 d0 d0)) x1 t_owner attr eq_refl), H1, He1. reflexivity. }
  assert (Hothers : forall p2 x2 same, hends (hpermission_step dbg true d t_others attr p2 (fun p3 => hret p3 0%N)) r ->
            exists x3, r = WE (permission_step dbg true (Security (inr tt) same (rights3 x1 x2 x3)) t_others attr p2 (fun p3 => WRet p3 0%N))).
  { intros p2 x2 same Ho. apply hends_step in Ho. destruct Ho as [x3 Ho]. exists x3. unfold permission_step.
    rewrite (trustee_only (Security (inr tt) same (rights3 x1 x2 x3)) x3 t_others attr eq_refl).
    destruct (GetTrusteePermissions dbg _ t_others attr) as [p3 e3|c3|]; auto. destruct (e3 =? 0)%N; auto. }
  cbn [hends hanswer] in H. destruct H as [[|] H].
  - destruct (Hothers _ d0 true H) as [x3 ->]. exists (Security (inr tt) true (rights3 x1 d0 x3)). unfold GetPermissions. cbn [s_named s_same].
    unfold permission_step at 2. rewrite (trustee_only (Security (inr tt) true (rights3 x1 d0 x3)) x1 t_owner attr eq_refl), H1, He1. reflexivity.
  - apply hends_step in H. destruct H as [x2 H]. destruct (GetTrusteePermissions dbg _ t_group attr) as [p2 e2|c2|] eqn:H2.
    + destruct (e2 =? 0)%N eqn:He2.
      * destruct (Hothers _ x2 false H) as [x3 ->]. exists (Security (inr tt) false (rights3 x1 x2 x3)). unfold GetPermissions. cbn [s_named s_same].
        unfold permission_step at 2. rewrite (trustee_only (Security (inr tt) false (rights3 x1 x2 x3)) x1 t_owner attr eq_refl), H1, He1.
        unfold permission_step at 2. rewrite (trustee_only (Security (inr tt) false (rights3 x1 x2 x3)) x2 t_group attr eq_refl), H2, He2. reflexivity.
      * exists (Security (inr tt) false (rights3 x1 x2 d0)). subst r. unfold GetPermissions. cbn [s_named s_same].
        unfold permission_step at 1. rewrite (trustee_only (Security (inr tt) false (rights3 x1 x2 d0)) x1 t_owner attr eq_refl), H1, He1.
        unfold permission_step at 1. rewrite (trustee_only (Security (inr tt) false (rights3 x1 x2 d0)) x2 t_group attr eq_refl), H2, He2. reflexivity.
    + exists (Security (inr tt) false (rights3 x1 x2 d0)). subst r. unfold GetPermissions. cbn [s_named s_same].
      unfold permission_step at 1. rewrite (trustee_only (Security (inr tt) false (rights3 x1 x2 d0)) x1 t_owner attr eq_refl), H1, He1.
      unfold permission_step at 1. rewrite (trustee_only (Security (inr tt) false (rights3 x1 x2 d0)) x2 t_group attr eq_refl), H2. reflexivity.
    + exists (Security (inr tt) false (rights3 x1 x2 d0)). subst r. unfold GetPermissions. cbn [s_named s_same].
      unfold permission_step at 1. rewrite (trustee_only (Security (inr tt) false (rights3 x1 x2 d0)) x1 t_owner attr eq_refl), H1, He1.
      unfold permission_step at 1. rewrite (trustee_only (Security (inr tt) false (rights3 x1 x2 d0)) x2 t_group attr eq_refl), H2. reflexivity.
Qed.

Lemma hends_with_permissions : forall has p attr (k : N -> wres wstatus) r,
  hends (hwith_permissions dbg has p attr (fun x => HEnd (WE (k x)))) r ->
  exists sec, forall i, w_security i = sec -> r = WE (with_permissions dbg has i attr k).
Proof.
  intros has p attr k r H. unfold hwith_permissions in H. apply hends_bind in H. destruct H as (x & Hx & Ha).
  apply hends_get_permissions in Hx. destruct Hx as [sec ->]. exists sec. intros i <-. unfold with_permissions.
  destruct (GetPermissions dbg true (w_security i) attr) as [a e|c|]; cbn in Ha; try congruence. destruct (e =? 0)%N; cbn in Ha; congruence.
Qed.
Lemma hends_is_symlink : forall has p r, hends (hIsReparsePointSymlink dbg has p) r ->
  exists o t, forall i, w_open_link i = o -> w_tag i = t -> r = WE (IsReparsePointSymlink dbg has i).
Proof.
  intros has p r H. unfold hIsReparsePointSymlink in H. apply hends_file in H. destruct H as [[e H]|[h H]].
  - exists (inl e), (inl 0%N). intros i Ho _. unfold IsReparsePointSymlink. rewrite Ho. apply (hends_capture bool e (wreport has false)). exact H.
  - cbn [hends hanswer] in H. destruct H as [[last|d] H].
    + exists (inr tt), (inl last). intros i Ho Ht. unfold IsReparsePointSymlink. rewrite Ho, Ht. apply hends_fail in H. exact H.
    + exists (inr tt), (inr (rp_tag d)). intros i Ho Ht. unfold IsReparsePointSymlink. rewrite Ho, Ht. cbn in H. congruence.
Qed.

Definition no_info : N + unit := inl 1%N.
Lemma sim_status : forall has p, sim (hstatus dbg has p) (wstatus_of dbg has p).
Proof.
  intros has p r H. unfold hstatus in H. cbn [hends hanswer] in H. unfold wstatus_of. cbn [wends wanswer]. destruct H as [[last|attrs] H].
  - exists (WInfo (inl last) no_info (inl 1%N) no_info (inl 1%N) (Security (inl 1%N) true (fun _ => inr 0%N))).
    symmetry. apply (hends_capture wstatus last (ProcessStatusFailure has)). exact H.
  - apply hends_bind in H. destruct H as (x & Hx & Ha). destruct (has_attr attrs FILE_ATTRIBUTE_REPARSE_POINT) eqn:Hr.
    + apply hends_file in Hx. destruct Hx as [[e Hx]|[h Hx]].
      * exists (WInfo (inr attrs) (inl e) (inl 1%N) no_info (inl 1%N) (Security (inl 1%N) true (fun _ => inr 0%N))).
        unfold wstatus_impl. cbn [w_attrs w_open]. rewrite Hr. unfold hcapture, wcapture in *. destruct (dbg && _); cbn in Hx; subst x; cbn in Ha; congruence.
      * cbn [hends hanswer] in Hx. destruct Hx as [[last|attr'] Hx].
        -- exists (WInfo (inr attrs) (inr tt) (inl last) no_info (inl 1%N) (Security (inl 1%N) true (fun _ => inr 0%N))).
           unfold wstatus_impl. cbn [w_attrs w_open w_handle_attrs]. rewrite Hr. unfold hcapture, wcapture in *.
           destruct (dbg && _); cbn in Hx; subst x; cbn in Ha; congruence.
        -- cbn in Hx. subst x. cbn [after] in Ha. apply hends_with_permissions with (k := fun prms => WRet (directory_or_regular attr', prms) 0%N) in Ha.
           destruct Ha as [sec Ha]. exists (WInfo (inr attrs) (inr tt) (inr attr') no_info (inl 1%N) sec).
           unfold wstatus_impl. cbn [w_attrs w_open w_handle_attrs]. rewrite Hr. symmetry. apply Ha. reflexivity.
    + cbn in Hx. subst x. cbn [after] in Ha. apply hends_with_permissions with (k := fun prms => WRet (directory_or_regular attrs, prms) 0%N) in Ha.
      destruct Ha as [sec Ha]. exists (WInfo (inr attrs) no_info (inl 1%N) no_info (inl 1%N) sec).
      unfold wstatus_impl. cbn [w_attrs]. rewrite Hr. symmetry. apply Ha. reflexivity.
Qed.
Lemma sim_symlink_status : forall has p, sim (hsymlink_status dbg has p) (wsymlink_status_of dbg has p).
Proof.
  intros has p r H. unfold hsymlink_status in H. cbn [hends hanswer] in H. unfold wsymlink_status_of. cbn [wends wanswer]. destruct H as [[last|attr] H].
  - exists (WInfo (inl last) no_info (inl 1%N) no_info (inl 1%N) (Security (inl 1%N) true (fun _ => inr 0%N))).
    symmetry. apply (hends_capture wstatus last (ProcessStatusFailure has)). exact H.
  - destruct (has_attr attr FILE_ATTRIBUTE_REPARSE_POINT) eqn:Hr.
    + unfold hwith_permissions in H. apply hends_bind in H. destruct H as (x & Hx & Ha). apply hends_get_permissions in Hx. destruct Hx as [sec ->].
      destruct (GetPermissions dbg true sec attr) as [prms e|c|] eqn:Hg.
      * cbn [after] in Ha. destruct (e =? 0)%N eqn:He.
        -- apply hends_bind in Ha. destruct Ha as (y & Hy & Hb). apply hends_is_symlink in Hy. destruct Hy as (o & t & Hy).
           exists (WInfo (inr attr) no_info (inl 1%N) o t sec). unfold wsymlink_status_impl, with_permissions. cbn [w_attrs w_security].
           rewrite Hg, He, Hr. specialize (Hy (WInfo (inr attr) no_info (inl 1%N) o t sec) eq_refl eq_refl). subst y.
           destruct (IsReparsePointSymlink dbg has _) as [[|] e0|c|]; cbn in Hb; first [exact Hb | symmetry; exact Hb].
        -- cbn in Ha. exists (WInfo (inr attr) no_info (inl 1%N) no_info (inl 1%N) sec). unfold wsymlink_status_impl, with_permissions.
           cbn [w_attrs w_security]. rewrite Hg, He. congruence.
      * exists (WInfo (inr attr) no_info (inl 1%N) no_info (inl 1%N) sec). unfold wsymlink_status_impl, with_permissions.
        cbn [w_attrs w_security]. rewrite Hg. cbn in Ha. congruence.
      * exists (WInfo (inr attr) no_info (inl 1%N) no_info (inl 1%N) sec). unfold wsymlink_status_impl, with_permissions.
        cbn [w_attrs w_security]. rewrite Hg. cbn in Ha. congruence.
    + apply hends_with_permissions with (k := fun prms => WRet (directory_or_regular attr, prms) 0%N) in H. destruct H as [sec H].
      exists (WInfo (inr attr) no_info (inl 1%N) no_info (inl 1%N) sec). unfold wsymlink_status_impl. cbn [w_attrs]. rewrite Hr. symmetry.
      apply H. reflexivity.
Qed.

Lemma sim_read_symlink : forall has p, sim (hread_symlink dbg has p) (wread_symlink dbg has p).
Proof.
  intros has p r H. apply hends_file in H. unfold wread_symlink. cbn [wends wanswer]. destruct H as [[e H]|[h H]].
  - exists (inl e). apply (hends_capture path e (wreport has path_default)) in H. subst r. reflexivity.
  - cbn [hends hanswer] in H. destruct H as [[last|d] H].
    + exists (inl last). apply hends_fail in H. subst r. reflexivity.
    + exists (inr d). exact H.
Qed.
Lemma sim_hard_link_count : forall has p, sim (hhard_link_count dbg has p) (whard_link_count dbg has p).
Proof.
  intros has p r H. apply hends_file in H. unfold whard_link_count. cbn [wends wanswer]. destruct H as [[e H]|[h H]].
  - exists (inl e). apply (hends_capture N e (wreport has umax)) in H. subst r. reflexivity.
  - cbn [hends hanswer] in H. destruct H as [[last|[i a]] H].
    + exists (inl last). apply hends_fail in H. subst r. reflexivity.
    + exists (inr i). exact H.
Qed.
Lemma sim_last_write_time : forall has p, sim (hlast_write_time dbg m tps has p) (wlast_write_time dbg m tps has p).
Proof.
  intros has p r H. apply hends_file in H. unfold wlast_write_time. cbn [wends wanswer]. destruct H as [[e H]|[h H]].
  - exists (inl e). apply (hends_capture Z e (wreport has i64_min)) in H. subst r. reflexivity.
  - cbn [hends hanswer] in H. destruct H as [[last|q] H].
    + exists (inl last). apply hends_fail in H. subst r. reflexivity.
    + exists (inr q). destruct (FileTimeTypeFromWindowsFileTime m tps (Z.of_N q)); exact H.
Qed.
Lemma sim_resize_file : forall has p n, sim (hresize_file dbg has p n) (wresize_file dbg has p n).
Proof.
  intros has p n r H. apply hends_file in H. unfold wresize_file. cbn [wends wanswer]. destruct H as [[e H]|[h H]].
  - exists (inl e). apply (hends_capture unit e (wreport has tt)) in H. subst r. reflexivity.
  - exists (inr tt). cbn [wends wanswer]. cbn [hends hanswer] in H. destruct H as [[last|u] H].
    + exists (inl last). apply hends_fail in H. subst r. reflexivity.
    + cbn [hends hanswer] in H. destruct H as [[last|v] H].
      * exists (inl last). apply hends_fail in H. subst r. reflexivity.
      * exists (inr tt). exact H.
Qed.
Lemma sim_equivalent : forall has p q, sim (hequivalent dbg has p q) (wequivalent dbg has p q).
Proof.
  intros has p q r H. apply hends_file in H. unfold wequivalent. cbn [wends wanswer]. set (i := HInfo 0 0 0 0 0).
  destruct H as [[e H]|[h1 H]].
  { exists (inl e). apply (hends_capture bool e (wreport has false)) in H. subst r. reflexivity. }
  apply hends_file in H. destruct H as [[e H]|[h2 H]].
  { exists (inr i). cbn [wends wanswer]. exists (inl e). apply (hends_capture bool e (wreport has false)) in H. subst r. reflexivity. }
  assert (Hd : forall b, hret false 0%N = hret b 0%N :> hprog bool -> b = false) by (intros b Hb; injection Hb; auto).
  destruct h1 as [h1|], h2 as [h2|].
  - cbn [hends hanswer] in H. destruct H as [[last|[a x]] H].
    + exists (inl last). apply hends_fail in H. subst r. reflexivity.
    + exists (inr a). cbn [wends wanswer]. cbn [hends hanswer] in H. destruct H as [[last|[b y]] H].
      * exists (inl last). apply hends_fail in H. subst r. reflexivity.
      * exists (inr b). exact H.
  - exists (inr i). cbn [wends wanswer]. exists (inr (HInfo 1 0 0 0 0)). exact H.
  - exists (inr i). cbn [wends wanswer]. exists (inr (HInfo 1 0 0 0 0)). exact H.
  - exists (inl errc_not_supported). cbn in H. subst r. unfold wfail, wcapture. cbn. rewrite andb_false_r. reflexivity.
Qed.

Lemma sim_is_directory : forall p (f : bool -> N -> hprog unit) (g : bool -> N -> wprog unit), (forall d e, sim (f d e) (g d e)) ->
  sim (hbind (hstatus dbg true p) (fun st e => f (wis ft_directory st) e)) (wbind (wis_directory_ec dbg p) g).
Proof.
  intros p f g H r Hr. unfold wis_directory_ec. destruct (hends_bind _ _ _ _ _ Hr) as (x & Hx & Ha). apply sim_status in Hx.
  destruct x as [[st e|c|]| | |]; cbn [after] in Ha.
  - apply wends_bind with (x := WE (WRet (wis ft_directory st) e)); [|apply H; exact Ha]. apply wends_bind with (x := WE (WRet st e)); [exact Hx|reflexivity].
  - apply wends_bind with (x := WE (WThrow c)); [|exact Ha]. apply wends_bind with (x := WE (WThrow c)); [exact Hx|reflexivity].
  - apply wends_bind with (x := WE WAssert); [|exact Ha]. apply wends_bind with (x := WE WAssert); [exact Hx|reflexivity].
  - apply wends_bind with (x := WExn); [|exact Ha]. apply wends_bind with (x := WExn); [exact Hx|reflexivity].
  - apply wends_bind with (x := WStop); [|exact Ha]. apply wends_bind with (x := WStop); [exact Hx|reflexivity].
  - apply wends_bind with (x := WFuel); [|exact Ha]. apply wends_bind with (x := WFuel); [exact Hx|reflexivity].
Qed.
Lemma sim_copy_symlink : forall has p q, sim (hcopy_symlink dbg has p q) (wcopy_symlink dbg has p q).
Proof.
  intros has p q. unfold hcopy_symlink, wcopy_symlink. apply sim_bind; [apply sim_read_symlink|]. intros real e. destruct (negb _); [apply sim_end|].
  cbv zeta.
  apply (sim_is_directory (wpath (native real))
           (fun d e2 => if negb (e2 =? 0)%N then hbad has tt e2
                        else hplain (if d then wcreate_directory_symlink dbg has (wpath (native real)) q else wcreate_symlink dbg has (wpath (native real)) q))).
  intros d e2. destruct (negb _); [apply sim_end|]. destruct d; apply sim_plain.
Qed.
Lemma sim_copy_file : forall has p q o, sim (hcopy_file dbg m tps has p q o) (wcopy_file dbg m tps has p q o).
Proof.
  intros has p q o. unfold hcopy_file, wcopy_file. apply sim_bind; [apply sim_status|]. intros st e1. destruct (negb _); [apply sim_end|].
  destruct (negb _); [apply sim_end|]. apply sim_bind; [apply sim_status|]. intros st2 e2. destruct (negb _); [apply sim_end|]. cbv zeta.
  destruct (_ && _); [apply sim_end|]. apply sim_bind; [destruct (wexists _); [apply sim_equivalent|apply sim_end]|]. intros same e3.
  destruct same; [apply sim_end|]. destruct (_ && _); [apply sim_end|].
  assert (Hc : sim (HSys (h_Plain (w_CopyFile (native p) (native q) false)) (fun r : N + unit => match r with inr _ => hret true 0%N | inl e => hfail dbg has false e end))
                   (WSys (w_CopyFile (native p) (native q) false) (fun r : N + unit => match r with inr _ => wret true 0%N | inl e => wfail dbg has false e end))).
  { intros r H. cbn [hends hanswer wanswer] in H. cbn [wends wanswer]. destruct H as [[e|u] H]; [exists (inl e)|exists (inr u); exact H].
    apply hends_fail in H. subst r. reflexivity. }
  destruct (_ && _).
  - apply sim_bind; [apply sim_last_write_time|]. intros t1 e4. destruct (negb _); [apply sim_end|]. apply sim_bind; [apply sim_last_write_time|].
    intros t2 e5. destruct (negb _); [apply sim_end|]. destruct (_ <=? _)%Z; [exact Hc|apply sim_end].
  - destruct (_ || _); [exact Hc|apply sim_end].
Qed.
End Sim.

(** * Theorem *)

Theorem C93_same_results : forall (dbg : bool) (m : signed_mode) (tps : Z) has p q size o,
  allows (wstatus_of dbg has p) (hstatus dbg has p) /\ allows (wsymlink_status_of dbg has p) (hsymlink_status dbg has p) /\
  allows (wread_symlink dbg has p) (hread_symlink dbg has p) /\ allows (wequivalent dbg has p q) (hequivalent dbg has p q) /\
  allows (whard_link_count dbg has p) (hhard_link_count dbg has p) /\ allows (wlast_write_time dbg m tps has p) (hlast_write_time dbg m tps has p) /\
  allows (wresize_file dbg has p size) (hresize_file dbg has p size) /\ allows (wcopy_symlink dbg has p q) (hcopy_symlink dbg has p q) /\
  allows (wcopy_file dbg m tps has p q o) (hcopy_file dbg m tps has p q o).
Proof.
  intros dbg m tps has p q size o. repeat match goal with |- _ /\ _ => split end; apply sim_allows.
  - apply sim_status.
  - apply sim_symlink_status.
  - apply sim_read_symlink.
  - apply sim_equivalent.
  - apply sim_hard_link_count.
  - apply sim_last_write_time.
  - apply sim_resize_file.
  - apply sim_copy_symlink.
  - apply sim_copy_file.
Qed.
Print Assumptions C93_same_results.

(** What holds for every result of the one model holds for every result of the other. *)
Theorem C93_transfer : forall A (q : wprog A) (p : hprog A) (P : wend A -> Prop), allows q p ->
  (forall T (k : wkernel T) t, P (fst (wrun k q t))) -> forall S (h : hkernel S) s, P (fst (hrun h p s)).
Proof. intros A q p P H HP S h s. destruct (H S h s) as (T & k & t & Ht). rewrite <- Ht. apply HP. Qed.
Print Assumptions C93_transfer.

(** A case: with single calls, resize_file opens the file, moves the pointer and fails to set the end. Prepared answers give the
    same exception in the other model. *)
Example C93_example_same :
  fst (hrun demo_handles (hresize_file true false (wpath (lit "C:\d\e\f")) 10) (0%N, [])) = WE (WThrow 112%N) /\
  exists l, fst (wrun script (wresize_file true false (wpath (lit "C:\d\e\f")) 10) l) = WE (WThrow 112%N) /\ l <> [].
Proof.
  split; [vm_compute; reflexivity|].
  pose proof (hends_run unit (hresize_file true false (wpath (lit "C:\d\e\f")) 10) demo_state demo_handles (0%N, [])) as H.
  apply sim_resize_file in H. apply wends_run in H. destruct H as [l Hl]. exists l.
  assert (Hr : fst (hrun demo_handles (hresize_file true false (wpath (lit "C:\d\e\f")) 10) (0%N, [])) = WE (WThrow 112%N)) by (vm_compute; reflexivity).
  rewrite Hr in Hl. split; [exact Hl|]. intros ->. revert Hl. vm_compute. discriminate.
Qed.
