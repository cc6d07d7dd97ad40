(** C63: status on Windows. C64: directory streams on Windows. C65: refreshed directory entries on Windows.
    Everything is proved for every sequence of answers of the system. *)
From Coq Require Import Ascii String Bool NArith Arith List Lia.
From Verif Require Import Str PathModel FlagsModel WinPermsModel StrProofs ArithProps WinStatModel.
Import ListNotations.
Local Open Scope N_scope.

Lemma has_attr_bit : forall a i, has_attr a (2 ^ i) = N.testbit a i.
Proof.
  intros a i. unfold has_attr. destruct (N.testbit a i) eqn:H.
  - destruct (N.eqb_spec (N.land a (2 ^ i)) 0) as [E|]; [|reflexivity].
    assert (K : N.testbit (N.land a (2 ^ i)) i = true) by (rewrite N.land_spec, H, N.pow2_bits_true; reflexivity).
    rewrite E, N.bits_0 in K. discriminate.
  - replace (N.land a (2 ^ i)) with 0; [reflexivity|]. apply N.bits_inj. intros j. rewrite N.land_spec, N.bits_0, N.pow2_bits_eqb.
    destruct (N.eqb_spec i j) as [<-|]; [rewrite H|rewrite andb_false_r]; reflexivity.
Qed.

(** * Specification *)

(** Attributes: bit 4 FILE_ATTRIBUTE_DIRECTORY, bit 10 FILE_ATTRIBUTE_REPARSE_POINT. *)
Definition is_dir (attr : N) : bool := N.testbit attr 4.
Definition is_reparse (attr : N) : bool := N.testbit attr 10.
Definition link_tag (tag : N) : Prop := tag = 2684354572 \/ tag = 2684354563.   (* symlink, mount point *)

(** The codes by which Windows says that there is no such file. *)
Definition says_missing (e : N) : Prop := In e [2; 3; 15; 21; 53; 87; 123; 161].

(** Type of a file from its attributes, links followed. *)
Definition type_followed (attr : N) : wtype := if is_dir attr then WT ft_directory else WT ft_regular.

(** The access control list can be read. *)
Definition readable (sec : security) : Prop :=
  s_named sec = inr tt /\ forall t, In t [t_owner; t_group; t_others] -> exists m, s_rights sec t = inr m.

(** Bit 0 FILE_ATTRIBUTE_READONLY. *)
Definition is_read_only (attr : N) : bool := N.testbit attr 0.
Definition trustees : list trustee := [t_owner; t_group; t_others].

(** The permissions told of a file with attributes [attr]: those whose rights the system grants to the owner, the group and others, and no others;
    without the read permissions if it is read-only (C59), and without those of the group if the group is the owner. *)
Definition told_permissions (sec : security) (attr prms : N) : Prop :=
  (forall t mask o, In t trustees -> s_rights sec t = inr mask ->
     (N.testbit prms (perm_bit t o) = true <->
      (t = t_group -> s_same sec = false) /\ (o = o_read -> is_read_only attr = false) /\ grants mask (needed (is_dir attr) o))) /\
  (forall b, N.testbit prms b = true -> exists t o, In t trustees /\ b = perm_bit t o).

Lemma dir_attr : forall a, has_attr a FILE_ATTRIBUTE_DIRECTORY = is_dir a.
Proof. intros a. exact (has_attr_bit a 4). Qed.
Lemma reparse_attr : forall a, has_attr a FILE_ATTRIBUTE_REPARSE_POINT = is_reparse a.
Proof. intros a. exact (has_attr_bit a 10). Qed.

Lemma missing_spec : forall e, IsNotFoundError e = true <-> says_missing e.
Proof.
  intros e. unfold IsNotFoundError, says_missing. rewrite !orb_true_iff, !N.eqb_eq. cbn [In].
  unfold ERROR_FILE_NOT_FOUND, ERROR_PATH_NOT_FOUND, ERROR_INVALID_NAME, ERROR_INVALID_DRIVE, ERROR_NOT_READY, ERROR_INVALID_PARAMETER, ERROR_BAD_PATHNAME, ERROR_BAD_NETPATH.
  intuition congruence.
Qed.

(** * C63 status *)

Lemma flag_attr : forall a i, FlagTest a (2 ^ i) = N.testbit a i.
Proof.
  intros a i. rewrite <- has_attr_bit. unfold FlagTest, has_attr. rewrite (N.land_comm a). destruct (N.testbit a i) eqn:H.
  - replace (N.land (2 ^ i) a) with (2 ^ i).
    + rewrite N.eqb_refl. symmetry. apply negb_true_iff, N.eqb_neq, N.pow_nonzero. discriminate.
    + apply N.bits_inj. intros j. rewrite N.land_spec, N.pow2_bits_eqb. destruct (N.eqb_spec i j) as [<-|]; [rewrite H|]; reflexivity.
  - replace (N.land (2 ^ i) a) with 0.
    + apply N.eqb_neq. intros E. symmetry in E. revert E. apply N.pow_nonzero. discriminate.
    + apply N.bits_inj. intros j. rewrite N.land_spec, N.pow2_bits_eqb, N.bits_0. destruct (N.eqb_spec i j) as [<-|]; [rewrite H|]; reflexivity.
Qed.

Lemma trustee_told : forall t m attr, In t trustees -> exists p, trustee_permissions t m attr = Ok p /\
  (forall o, N.testbit p (perm_bit t o) = true <-> (o = o_read -> is_read_only attr = false) /\ grants m (needed (is_dir attr) o)) /\
  (forall b, N.testbit p b = true -> exists o, b = perm_bit t o).
Proof.
  intros t m attr Ht. unfold trustee_permissions. change (FlagTest attr FILE_ATTRIBUTE_DIRECTORY) with (FlagTest attr (2 ^ 4)).
  change (FlagTest attr FILE_ATTRIBUTE_READONLY) with (FlagTest attr (2 ^ 0)). rewrite !flag_attr. fold (is_dir attr). fold (is_read_only attr).
  destruct (C56_mapping m t (if is_dir attr then ft_directory else ft_regular) (is_dir attr) Ht) as (p & -> & H1 & H2).
  { destruct (is_dir attr); [left; auto|right; split; [reflexivity|left; reflexivity]]. }
  cbn [bind]. destruct (is_read_only attr).
  - assert (Hv : posix_perm t o_read = Ok (2 ^ perm_bit t o_read)) by (cbn [In trustees] in Ht; destruct Ht as [<-|[<-|[<-|[]]]]; reflexivity).
    rewrite Hv. cbn [bind]. eexists. split; [reflexivity|]. unfold FlagClear. split.
    + intros o. rewrite N.ldiff_spec, N.pow2_bits_eqb, andb_true_iff, H1, negb_true_iff, N.eqb_neq. split.
      * intros [G N]. split; [intros ->; contradiction|exact G].
      * intros [N G]. split; [exact G|]. intros E. destruct o; [discriminate (N eq_refl)|destruct t; discriminate E..].
    + intros b. rewrite N.ldiff_spec, andb_true_iff. intros [G _]. auto.
  - eexists. split; [reflexivity|]. split; [|exact H2]. intros o. rewrite H1. tauto.
Qed.

Lemma or_bit : forall a b i, N.testbit (op_or width_perms a b) i = true -> N.testbit a i = true \/ N.testbit b i = true.
Proof.
  intros a b i H. unfold op_or, trunc in H. change (2 ^ width_perms) with (2 ^ 32) in H. destruct (N.lt_ge_cases i 32).
  - rewrite N.mod_pow2_bits_low, N.lor_spec in H by auto. apply orb_true_iff. exact H.
  - rewrite N.mod_pow2_bits_high in H by auto. discriminate.
Qed.
Lemma or_perm : forall a b t o, N.testbit (op_or width_perms a b) (perm_bit t o) = N.testbit a (perm_bit t o) || N.testbit b (perm_bit t o).
Proof. intros. unfold op_or. rewrite trunc_bit, N.lor_spec; [reflexivity|]. destruct t, o; reflexivity. Qed.
Lemma perm_bit_apart : forall t u o o', In t trustees -> In u trustees -> perm_bit t o = perm_bit u o' -> t = u /\ o = o'.
Proof. intros t u o o' Ht Hu. cbn [In trustees] in Ht, Hu. destruct Ht as [<-|[<-|[<-|[]]]], Hu as [<-|[<-|[<-|[]]]], o, o'; cbn; intros H; try discriminate H; auto. Qed.

Lemma permissions_told : forall dbg has sec attr, readable sec -> exists p, GetPermissions dbg has sec attr = WRet p 0 /\ told_permissions sec attr p.
Proof.
  intros dbg has sec attr (Hn & Hr). unfold GetPermissions. rewrite Hn.
  assert (S : forall t, In t trustees -> exists p m, GetTrusteePermissions dbg sec t attr = WRet p 0 /\ s_rights sec t = inr m /\
    (forall o, N.testbit p (perm_bit t o) = true <-> (o = o_read -> is_read_only attr = false) /\ grants m (needed (is_dir attr) o)) /\
    (forall b, N.testbit p b = true -> exists o, b = perm_bit t o)).
  { intros t Ht. unfold GetTrusteePermissions. destruct (Hr t Ht) as (m & ->). destruct (trustee_told t m attr Ht) as (p & -> & H). exists p, m. auto. }
  assert (T1 : In t_owner trustees) by (cbn; auto). assert (T2 : In t_group trustees) by (cbn; auto). assert (T3 : In t_others trustees) by (cbn; auto).
  destruct (S _ T1) as (p1 & m1 & E1 & R1 & A1 & B1). destruct (S _ T2) as (p2 & m2 & E2 & R2 & A2 & B2). destruct (S _ T3) as (p3 & m3 & E3 & R3 & A3 & B3).
  assert (Z : forall t p, In t trustees -> (forall b, N.testbit p b = true -> exists o, b = perm_bit t o) ->
    forall u o, In u trustees -> u <> t -> N.testbit p (perm_bit u o) = false).
  { intros t p Ht B u o Hu N. apply not_true_iff_false. intros H. destruct (B _ H) as [o' H']. apply perm_bit_apart in H'; auto. destruct H'. contradiction. }
  unfold permission_step. rewrite E1, E2, E3. change (0 =? 0) with true. cbv iota beta zeta. destruct (s_same sec) eqn:Es; (eexists; split; [reflexivity|]; split;
    [intros t mask o Ht Hm; rewrite !or_perm; change (N.testbit perms_none (perm_bit t o)) with false; cbn [orb]
    |intros b H; repeat (apply or_bit in H; destruct H as [H|H]); try (rewrite N.bits_0 in H; discriminate H);
     [apply B1 in H|..]; try apply B2 in H; try apply B3 in H; destruct H as [o ->]; eauto]).
  all: cbn [In trustees] in Ht; destruct Ht as [<-|[<-|[<-|[]]]]; rewrite ?(Z _ p1 T1 B1 t_group), ?(Z _ p1 T1 B1 t_others), ?(Z _ p2 T2 B2 t_owner), ?(Z _ p2 T2 B2 t_others),
    ?(Z _ p3 T3 B3 t_owner), ?(Z _ p3 T3 B3 t_group) by (auto; discriminate); rewrite ?orb_false_r; cbn [orb].
  all: repeat match goal with H : s_rights ?x ?t = inr _, H' : s_rights ?x ?t = inr _ |- _ => rewrite H in H'; injection H' as -> end.
  all: rewrite ?A1, ?A2, ?A3; rewrite ?Es; intuition (congruence || discriminate).
Qed.

Lemma readable_permissions : forall dbg has sec attr, readable sec -> exists p, GetPermissions dbg has sec attr = WRet p 0.
Proof. intros dbg has sec attr H. destruct (permissions_told dbg has sec attr H) as (p & E & _). eauto. Qed.

(** When every question is answered, both overloads of status tell a directory from a file by the attributes of
    the file, or of the target for a link, without an error; the permissions are those the access control list grants. *)
Theorem C63_types : forall dbg has i attr target, w_attrs i = inr attr -> readable (w_security i) ->
  (if is_reparse attr then w_open i = inr tt /\ w_handle_attrs i = inr target else target = attr) ->
  exists prms, wstatus_impl dbg has i = WRet (type_followed target, prms) 0 /\ told_permissions (w_security i) target prms.
Proof.
  intros dbg has i attr target Ha Hs Hl. unfold wstatus_impl. rewrite Ha, reparse_attr. unfold with_permissions, directory_or_regular.
  destruct (is_reparse attr).
  - destruct Hl as [-> ->]. destruct (permissions_told dbg true _ target Hs) as (p & -> & T). cbn. exists p. rewrite dir_attr. auto.
  - subst target. destruct (permissions_told dbg true _ attr Hs) as (p & -> & T). cbn. exists p. rewrite dir_attr. auto.
Qed.

(** symlink_status tells links and other reparse points apart as well. *)
Theorem C63_link_types : forall dbg has i attr tag, w_attrs i = inr attr -> readable (w_security i) ->
  w_open_link i = inr tt -> w_tag i = inr tag ->
  exists type prms, wsymlink_status_impl dbg has i = WRet (type, prms) 0 /\ told_permissions (w_security i) attr prms /\
    (is_reparse attr = true -> link_tag tag -> type = WT ft_symlink) /\
    (is_reparse attr = true -> ~ link_tag tag -> type = WReparse) /\
    (is_reparse attr = false -> type = type_followed attr).
Proof.
  intros dbg has i attr tag Ha Hs Ho Ht. unfold wsymlink_status_impl. rewrite Ha. unfold with_permissions.
  destruct (permissions_told dbg true _ attr Hs) as (p & -> & T). change (0 =? 0) with true. cbv beta iota.
  rewrite reparse_attr. unfold IsReparsePointSymlink. rewrite Ho, Ht.
  destruct (is_reparse attr).
  - destruct ((tag =? IO_REPARSE_TAG_SYMLINK) || (tag =? IO_REPARSE_TAG_MOUNT_POINT))%bool eqn:E.
    + do 2 eexists. split; [reflexivity|]. split; [exact T|]. repeat split; auto; try discriminate.
      intros _ Hn. destruct Hn. apply orb_prop in E. unfold link_tag. destruct E as [E|E]; apply N.eqb_eq in E; auto.
    + do 2 eexists. split; [reflexivity|]. split; [exact T|]. repeat split; auto; try discriminate.
      intros _ [-> | ->]; discriminate.
  - do 2 eexists. split; [reflexivity|]. split; [exact T|]. unfold directory_or_regular. rewrite dir_attr. repeat split; auto; discriminate.
Qed.

(** What the caller of the error_code overload is told about failure [e] of the system: missing files are not_found, files in
    use are unknown, everything else is none. *)
Definition told (e : N) (type : wtype) (code : N) : Prop :=
  (says_missing e -> type = WT ft_not_found /\ code = e) /\
  (e = 32 -> type = WT ft_unknown /\ code = e) /\
  (~ says_missing e -> e <> 32 -> type = WT ft_none /\ code = (if e =? 5 then 13 else e)).

Lemma failure_told : forall e, e <> 0 -> exists st code, ProcessStatusFailure true e = WRet st code /\ told e (fst st) code.
Proof.
  intros e He. unfold ProcessStatusFailure. destruct (N.eqb_spec e 0) as [|_]; [contradiction|].
  destruct (IsNotFoundError e) eqn:Em.
  - apply missing_spec in Em. do 2 eexists. split; [reflexivity|]. unfold told. cbn [fst]. split; [auto|]. split.
    + intros ->. unfold says_missing in Em. cbn in Em. intuition discriminate.
    + intros K. destruct (K Em).
  - assert (Hm : ~ says_missing e) by (rewrite <- missing_spec, Em; discriminate).
    unfold ERROR_SHARING_VIOLATION, ERROR_ACCESS_DENIED. destruct (N.eqb_spec e 32) as [->|H32].
    + do 2 eexists. split; [reflexivity|]. unfold told. cbn [fst]. split; [intros K; destruct (Hm K)|]. split; [auto|].
      intros _ K. destruct (K eq_refl).
    + do 2 eexists. split; [reflexivity|]. unfold told. cbn [fst]. split; [intros K; destruct (Hm K)|].
      split; [intros K; destruct (H32 K)|auto].
Qed.

(** Every failure to reach the file is told to the caller who passes an error_code. *)
Theorem C63_codes_partial : forall dbg i e, e <> 0 ->
  (w_attrs i = inl e \/
   exists attr, w_attrs i = inr attr /\ is_reparse attr = true /\
     (w_open i = inl e \/ w_open i = inr tt /\ w_handle_attrs i = inl e)) ->
  exists st code, wstatus_impl dbg true i = WRet st code /\ told e (fst st) code.
Proof.
  intros dbg i e He H. destruct (failure_told e He) as (st & code & Hp & Ht). exists st, code. split; [|exact Ht].
  assert (Hc : wcapture dbg e (ProcessStatusFailure true) = WRet st code).
  { unfold wcapture. apply N.eqb_neq in He. rewrite He, andb_false_r. exact Hp. }
  unfold wstatus_impl. destruct H as [-> | (attr & -> & Hr & [-> | [-> ->]])]; [exact Hc| |];
    rewrite reparse_attr, Hr; exact Hc.
Qed.

Lemma no_throw : forall has e c, ProcessStatusFailure has e <> WThrow c.
Proof.
  intros has e c. unfold ProcessStatusFailure.
  destruct (e =? 0), (IsNotFoundError e), (e =? ERROR_SHARING_VIOLATION), has; discriminate.
Qed.

Lemma capture_no_throw : forall dbg has e c, wcapture dbg e (ProcessStatusFailure has) <> WThrow c.
Proof. intros. unfold wcapture. destruct (dbg && (e =? 0))%bool; [discriminate|apply no_throw]. Qed.

Lemma get_no_throw : forall dbg sec attr c, GetPermissions dbg true sec attr <> WThrow c.
Proof.
  intros dbg sec attr c. unfold GetPermissions. destruct (s_named sec) as [last|].
  { unfold wcapture. destruct (dbg && (last =? 0))%bool; discriminate. }
  assert (S : forall t p k, (forall q, k q <> WThrow c) -> permission_step dbg true sec t attr p k <> WThrow c).
  { intros t p k Hk. unfold permission_step, GetTrusteePermissions. destruct (s_rights sec t) as [[ret last]|m].
    - destruct (ret =? ERROR_INVALID_ACL); [discriminate|]. unfold wcapture.
      destruct (dbg && (last =? 0))%bool; [discriminate|]. destruct (last =? 0); [apply Hk|].
      unfold ProcessPermissionsFailure. destruct (IsNotFoundError last), (last =? ERROR_SHARING_VIOLATION); discriminate.
    - destruct (trustee_permissions t m attr); try discriminate. apply Hk. }
  apply S. intros q. assert (O : forall p, permission_step dbg true sec t_others attr p (fun p3 => WRet p3 0) <> WThrow c).
  { intros p. apply S. discriminate. }
  destruct (s_same sec); [apply O|apply S; exact O].
Qed.

(** status(p) never throws, whatever fails. *)
Theorem C63_never_throws_refuted : forall dbg i code, wstatus_impl dbg false i <> WThrow code.
Proof.
  intros dbg i c. unfold wstatus_impl.
  assert (W : forall attr st, with_permissions dbg false i attr st = WThrow c -> exists p, st p = WThrow c).
  { intros attr st. unfold with_permissions. destruct (GetPermissions dbg true (w_security i) attr) eqn:E.
    - destruct (ec =? 0); [eauto|]. intros H. destruct (no_throw _ _ _ H).
    - intros H. injection H as ->. destruct (get_no_throw _ _ _ _ E).
    - discriminate. }
  destruct (w_attrs i) as [last|attr]; [apply capture_no_throw|].
  assert (F : forall a, with_permissions dbg false i a (fun prms => WRet (directory_or_regular a, prms) 0) <> WThrow c).
  { intros a H. apply W in H. destruct H; discriminate. }
  destruct (has_attr attr FILE_ATTRIBUTE_REPARSE_POINT); [|apply F].
  destruct (w_open i); [apply capture_no_throw|]. destruct (w_handle_attrs i); [apply capture_no_throw|apply F].
Qed.

(** So a failure that the other overload reports comes back as type none (file_type::none is not an existing
    file, hence exists(p) is false and is_directory(p) is false). *)
Theorem C63_silent_refuted : forall dbg i e, e <> 0 -> ~ says_missing e -> e <> 32 -> w_attrs i = inl e ->
  wstatus_impl dbg false i = WRet (WT ft_none, perms_unknown) 0 /\
  wsymlink_status_impl dbg false i = WRet (WT ft_none, perms_unknown) 0.
Proof.
  intros dbg i e He Hm H32 Ha. unfold wstatus_impl, wsymlink_status_impl. rewrite Ha.
  assert (E : wcapture dbg e (ProcessStatusFailure false) = WRet (WT ft_none, perms_unknown) 0).
  { unfold wcapture, ProcessStatusFailure. apply N.eqb_neq in He. rewrite He, andb_false_r.
    rewrite <- missing_spec in Hm. apply not_true_iff_false in Hm. rewrite Hm.
    unfold ERROR_SHARING_VIOLATION. apply N.eqb_neq in H32. rewrite H32. reflexivity. }
  auto.
Qed.

(** The two overloads give the same status. *)
Theorem C63_same_status : forall dbg i st code, wstatus_impl dbg true i = WRet st code -> wstatus_impl dbg false i = WRet st 0.
Proof.
  intros dbg i st code.
  assert (P : forall e, ProcessStatusFailure true e = WRet st code -> ProcessStatusFailure false e = WRet st 0).
  { intros e. unfold ProcessStatusFailure. destruct (e =? 0), (IsNotFoundError e), (e =? ERROR_SHARING_VIOLATION);
      intros H; injection H as <- _; reflexivity. }
  assert (C : forall e, wcapture dbg e (ProcessStatusFailure true) = WRet st code -> wcapture dbg e (ProcessStatusFailure false) = WRet st 0).
  { intros e. unfold wcapture. destruct (dbg && (e =? 0))%bool; [discriminate|apply P]. }
  assert (W : forall a, with_permissions dbg true i a (fun prms => WRet (directory_or_regular a, prms) 0) = WRet st code ->
                        with_permissions dbg false i a (fun prms => WRet (directory_or_regular a, prms) 0) = WRet st 0).
  { intros a. unfold with_permissions. destruct (GetPermissions dbg true (w_security i) a); try discriminate.
    destruct (ec =? 0); [|apply P]. intros H. injection H as <- _. reflexivity. }
  unfold wstatus_impl. destruct (w_attrs i); [apply C|]. destruct (has_attr n FILE_ATTRIBUTE_REPARSE_POINT); [|apply W].
  destruct (w_open i); [apply C|]. destruct (w_handle_attrs i); [apply C|apply W].
Qed.

(** An existing, visible file has no status when its access control list contains an inherited refusal (the case
    GetEffectiveRightsFromAcl answers with ERROR_INVALID_ACL): type none, permission_denied. *)
Theorem C63_inherited_refusal_refuted : forall dbg i attr last, w_attrs i = inr attr -> is_reparse attr = false ->
  s_named (w_security i) = inr tt -> s_rights (w_security i) t_owner = inl (1336, last) ->
  wstatus_impl dbg true i = WRet (WT ft_none, perms_unknown) 13 /\
  wstatus_impl dbg false i = WRet (WT ft_none, perms_unknown) 0.
Proof.
  intros dbg i attr last Ha Hr Hn Ho.
  assert (E : wstatus_impl dbg true i = WRet (WT ft_none, perms_unknown) 13).
  { unfold wstatus_impl. rewrite Ha, reparse_attr, Hr. unfold with_permissions, GetPermissions. rewrite Hn.
    unfold permission_step, GetTrusteePermissions. rewrite Ho. reflexivity. }
  split; [exact E|]. exact (C63_same_status _ _ _ _ E).
Qed.

Definition plain_security : security := Security (inr tt) false (fun _ => inr 2032127).
Example C63_example :
  let dir := WInfo (inr 16) (inl 5) (inl 5) (inl 5) (inl 5) plain_security in
  let junction := WInfo (inr 1040) (inr tt) (inr 16) (inr tt) (inr 2684354563) plain_security in
  let denied := WInfo (inl 5) (inl 5) (inl 5) (inl 5) (inl 5) plain_security in
  let refusal := WInfo (inr 32) (inl 5) (inl 5) (inl 5) (inl 5) (Security (inr tt) false (fun _ => inl (1336, 0))) in
  readable plain_security /\
  wstatus_impl true true dir = WRet (WT ft_directory, 511) 0 /\
  wsymlink_status_impl true true junction = WRet (WT ft_symlink, 511) 0 /\
  wstatus_impl true false junction = WRet (WT ft_directory, 511) 0 /\
  wstatus_impl true true denied = WRet (WT ft_none, 65535) 13 /\ wstatus_impl true false denied = WRet (WT ft_none, 65535) 0 /\
  wstatus_impl true true refusal = WRet (WT ft_none, 65535) 13.
Proof.
  cbv zeta. split; [split; [reflexivity|]; intros t _; exists 2032127; reflexivity|].
  repeat split; vm_compute; reflexivity.
Qed.

(** * C64 directory streams *)

Definition dot_names (d : find_data) : bool :=
  match fd_name d with
  | ["."%char] => true
  | ["."%char; "."%char] => true
  | _ => false
  end.

Lemma dots_spec : forall d, is_dots d = dot_names d.
Proof.
  intros d. unfold is_dots, dot_names. apply eq_true_iff_eq. rewrite orb_true_iff, !str_eqb_spec.
  destruct (fd_name d) as [|c [|c' [|c'' r]]]; cbn [lit list_ascii_of_string].
  - split; [intros [H|H]; discriminate|discriminate].
  - split.
    + intros [H|H]; [injection H as ->; reflexivity|discriminate].
    + intros H. left. destruct c as [[] [] [] [] [] [] [] []]; try discriminate H; reflexivity.
  - split.
    + intros [H|H]; [discriminate|injection H as -> ->; reflexivity].
    + intros H. right. destruct c as [[] [] [] [] [] [] [] []]; try discriminate H;
        destruct c' as [[] [] [] [] [] [] [] []]; try discriminate H; reflexivity.
  - split; [intros [H|H]; discriminate|].
    intros H. destruct c as [[] [] [] [] [] [] [] []]; try discriminate H;
        destruct c' as [[] [] [] [] [] [] [] []]; discriminate H.
Qed.

(** What a directory delivers: everything listed but "." and "..". *)
Definition listed (l : list find_data) : list find_data := filter (fun d => negb (dot_names d)) l.

Lemma next_listed : forall l, match next_data l with
  | None => listed l = []
  | Some (d, r) => listed l = d :: listed r /\ (length r < length l)%nat
  end.
Proof.
  induction l as [|d l IH]; [reflexivity|]. cbn [next_data]. rewrite dots_spec. unfold listed in *. cbn [filter].
  destruct (dot_names d); cbn [negb].
  - destruct (next_data l) as [[d' r]|]; [|exact IH]. destruct IH as [-> H]. split; [reflexivity|cbn; lia].
  - split; [reflexivity|cbn; lia].
Qed.

(** The symlink flag of the entries in the order of delivery. *)
Fixpoint flags (before : bool) (l : list find_data) : list went :=
  match l with
  | [] => []
  | d :: r => fill_entry before d :: flags (before || wtype_is ft_symlink (find_type d)) r
  end.

Lemma loop_spec : forall last n e rest, (length rest < n)%nat ->
  wstream_loop last n (WOpen e rest) = Some (e :: flags (we_symlink e) (listed rest), if last =? 18 then 0 else last).
Proof.
  intros last n. induction n as [|n IH]; intros e rest Hn; [lia|]. cbn [wstream_loop]. unfold wstream_advance.
  pose proof (next_listed rest) as Hl. destruct (next_data rest) as [[d r]|].
  - destruct Hl as [-> Hr]. change (0 =? 0) with true. cbv beta iota. rewrite IH by lia. reflexivity.
  - rewrite Hl. cbn [flags]. unfold ERROR_NO_MORE_FILES. destruct (last =? 18).
    + change (0 =? 0) with true. cbv beta iota. destruct n; reflexivity.
    + destruct (N.eqb_spec last 0) as [->|]; [destruct n; reflexivity|reflexivity].
Qed.

Lemma wdirectory_spec : forall last after_close n skip d r, (length r < n)%nat -> listed (d :: r) <> [] ->
  wdirectory last after_close n skip (inr (d, r)) = Some (flags false (listed (d :: r)), if last =? 18 then 0 else last).
Proof.
  intros last after_close n skip d r Hn Hne. unfold wdirectory, wstream_open.
  pose proof (next_listed (d :: r)) as Hl. destruct (next_data (d :: r)) as [[d' r']|]; [|contradiction].
  destruct Hl as [-> Hr]. change (0 =? 0) with true. cbv beta iota. cbn [length] in Hr. rewrite loop_spec by lia. reflexivity.
Qed.

Lemma flags_names : forall l b, map we_name (flags b l) = map fd_name l.
Proof. induction l as [|d l IH]; intros b; [reflexivity|]. cbn. rewrite IH. reflexivity. Qed.

(** Every entry but "." and ".." is delivered once, in the order of the system; the end of the list is no error and any other
    failure of FindNextFileW is reported after the entries delivered before it. FindClose is taken to leave GetLastError alone. *)
Theorem C64_iterates : forall last after_close n skip d r, (length r < n)%nat -> after_close last = last -> last <> 5 ->
  exists es, wdirectory last after_close n skip (inr (d, r)) = Some (es, if last =? 18 then 0 else last) /\
    map we_name es = map fd_name (listed (d :: r)).
Proof.
  intros last after_close n skip d r Hn Hc H5. destruct (listed (d :: r)) as [|d' l'] eqn:El.
  - exists []. split; [|reflexivity]. unfold wdirectory, wstream_open.
    pose proof (next_listed (d :: r)) as Hl. destruct (next_data (d :: r)) as [[x y]|].
    { destruct Hl as [Hl _]. rewrite El in Hl. discriminate. }
    rewrite Hc. unfold ERROR_ACCESS_DENIED, ERROR_NO_MORE_FILES. apply N.eqb_neq in H5. rewrite H5.
    destruct (last =? 18).
    + change (0 =? 0) with true. cbv beta iota. destruct n; reflexivity.
    + destruct (N.eqb_spec last 0) as [->|]; [destruct n; reflexivity|reflexivity].
  - exists (flags false (listed (d :: r))). split.
    + apply wdirectory_spec; auto. rewrite El. discriminate.
    + rewrite <- El. apply flags_names.
Qed.

(** What symlink_status says of such a file (C63_link_types). *)
Definition type_of_link (attr tag : N) (t : wtype) : Prop :=
  (is_reparse attr = true -> link_tag tag -> t = WT ft_symlink) /\
  (is_reparse attr = true -> ~ link_tag tag -> t = WReparse) /\
  (is_reparse attr = false -> t = type_followed attr).

Lemma flags_types : forall l b,
  Forall2 (fun e x => is_dir (fd_attrs x) = false \/ is_reparse (fd_attrs x) = false -> type_of_link (fd_attrs x) (fd_tag x) (we_type e))
    (flags b l) l.
Proof.
  induction l as [|x l IH]; intros b; constructor; [|apply IH].
  intros H. cbn [fill_entry we_type]. unfold find_type, type_of_link. rewrite dir_attr, reparse_attr. unfold type_followed.
  destruct (is_dir (fd_attrs x)), (is_reparse (fd_attrs x)).
  - destruct H; discriminate.
  - repeat split; auto; discriminate.
  - unfold IO_REPARSE_TAG_SYMLINK, IO_REPARSE_TAG_MOUNT_POINT, link_tag.
    destruct (N.eqb_spec (fd_tag x) 2684354572), (N.eqb_spec (fd_tag x) 2684354563); cbn [orb];
      repeat split; auto; try discriminate; try tauto.
  - repeat split; auto; discriminate.
Qed.

(** The type delivered is that of symlink_status except for directories that are reparse points. *)
Theorem C64_types_partial : forall last after_close n skip d r es code, (length r < n)%nat -> listed (d :: r) <> [] ->
  wdirectory last after_close n skip (inr (d, r)) = Some (es, code) ->
  Forall2 (fun e x => is_dir (fd_attrs x) = false \/ is_reparse (fd_attrs x) = false -> type_of_link (fd_attrs x) (fd_tag x) (we_type e))
    es (listed (d :: r)).
Proof.
  intros last after_close n skip d r es code Hn Hne H. rewrite wdirectory_spec in H by auto. injection H as <- _. apply flags_types.
Qed.

(** A link to a directory or a junction (both attributes) is delivered as a directory and, if no link to a file came
    before, entered by recursive_directory_iterator although follow_directory_symlink is not given. *)
Theorem C64_directory_link_refuted : forall d, is_dir (fd_attrs d) = true ->
  find_type d = WT ft_directory /\ wrecurses (fill_entry false d) = true.
Proof.
  intros d Hd. assert (E : find_type d = WT ft_directory) by (unfold find_type; rewrite dir_attr, Hd; reflexivity).
  split; [exact E|]. unfold wrecurses, fill_entry. cbn [we_symlink we_type]. rewrite E. reflexivity.
Qed.

Lemma flags_hidden : forall a e b s l, flags s l = a ++ e :: b -> we_type e = WT ft_symlink ->
  Forall (fun x => wrecurses x = false) b.
Proof.
  assert (T : forall l, Forall (fun x => wrecurses x = false) (flags true l)).
  { induction l as [|x l IH]; constructor; [reflexivity|exact IH]. }
  induction a as [|y a IH]; intros e b s l Hes He; (destruct l as [|x l]; [discriminate|]); cbn [flags app] in Hes.
  - injection Hes as Hx Hb. rewrite <- Hx in He. cbn [fill_entry we_type] in He. rewrite He in Hb. cbn in Hb.
    rewrite orb_true_r in Hb. rewrite <- Hb. apply T.
  - injection Hes as _ Hb. exact (IH e b _ l Hb He).
Qed.

(** After a link to a file no directory is entered any more. *)
Theorem C64_hidden_refuted : forall last after_close n skip d r es code a e b, (length r < n)%nat -> listed (d :: r) <> [] ->
  wdirectory last after_close n skip (inr (d, r)) = Some (es, code) -> es = a ++ e :: b ->
  we_type e = WT ft_symlink -> Forall (fun x => wrecurses x = false) b.
Proof.
  intros last after_close n skip d r es code a e b Hn Hne H Hes He. rewrite wdirectory_spec in H by auto. injection H as <- _.
  exact (flags_hidden _ _ _ _ _ Hes He).
Qed.

(** When FindFirstFileW fails the iterator is the end iterator and the failure is reported, access denied as permission_denied or, with
    skip_permission_denied, not at all. *)
Theorem C64_open_fails : forall last after_close n skip e, e <> 18 ->
  wdirectory last after_close n skip (inl e) = Some ([], if e =? 5 then if skip then 0 else 13 else e).
Proof.
  intros last after_close n skip e H. unfold wdirectory, wstream_open, ERROR_ACCESS_DENIED, ERROR_NO_MORE_FILES.
  destruct (N.eqb_spec e 5) as [->|H5].
  - destruct skip; [destruct n|]; reflexivity.
  - apply N.eqb_neq in H. rewrite H. destruct (N.eqb_spec e 0) as [->|]; [destruct n; reflexivity|reflexivity].
Qed.

Definition fd (n : string) (a t : N) : find_data := FindData (lit n) a t.
Example C64_example : let l := [fd ".." 16 0; fd "a" 32 0; fd "j" 1040 2684354563; fd "s" 1024 2684354572; fd "z" 16 0] in
  listed (fd "." 16 0 :: l) <> [] /\
  exists es, wdirectory 18 (fun e => e) 9 false (inr (fd "." 16 0, l)) = Some (es, 0) /\
    map we_name es = [lit "a"; lit "j"; lit "s"; lit "z"] /\
    map we_type es = [WT ft_regular; WT ft_directory; WT ft_symlink; WT ft_directory] /\ map wrecurses es = [false; true; false; false].
Proof. cbv zeta. split; [discriminate|]. eexists. split; [vm_compute; reflexivity|]. repeat split; reflexivity. Qed.

(** * C65 refreshed entries *)

(** The system answers every question about the path. *)
Definition answered (i : einfo) (nlink size link_attr target_attr : N) : Prop :=
  e_open_link i = inr tt /\ e_link_info i = inr (size, link_attr) /\ e_open i = inr tt /\ e_info i = inr nlink /\
  e_handle_attrs i = inr target_attr /\ readable (e_security i).

Lemma cap : forall {A} (k : N -> wres A) dbg e, e <> 0 -> wcapture dbg e k = k e.
Proof. intros A k dbg e H. unfold wcapture. apply N.eqb_neq in H. rewrite H, andb_false_r. reflexivity. Qed.

(** Directories: refresh succeeds and the entry has type, number of links and permissions of the directory. *)
Theorem C65_directory_partial : forall dbg i attr nlink size la ta, e_attrs i = inr attr -> is_dir attr = true -> is_reparse attr = false ->
  answered i nlink size la ta ->
  exists d, wrefresh dbg i = (d, WRet tt 0) /\
    wd_type d = WT ft_directory /\ wd_nlink d = nlink /\ told_permissions (e_security i) ta (wd_perms d) /\ snd (wGetFileType dbg i d) = WRet (WT ft_directory) 0.
Proof.
  intros dbg i attr nlink size la ta Ha Hd Hr (Hol & Hli & Ho & Hi & Hh & Hs).
  destruct (permissions_told dbg true _ ta Hs) as (p & Hp & T).
  unfold wrefresh, wUpdateBasic. rewrite Ha, reparse_attr, Hr, dir_attr, Hd. cbn.
  unfold wUpdateExtra. cbn. rewrite Ho, Hi. cbn. unfold wUpdatePermissions. cbn. rewrite Ho, Hh, Hp. cbn.
  destruct dbg; (eexists; split; [reflexivity|]; split; [reflexivity|]; split; [reflexivity|]; split; [exact T|reflexivity]).
Qed.

(** Regular files: refresh fails an assertion, or reports whatever GetLastError happens to be, or
    leaves an entry of unknown type. It never succeeds with type regular. *)
Theorem C65_regular_refuted : forall dbg i attr nlink size la ta, e_attrs i = inr attr -> is_dir attr = false -> is_reparse attr = false ->
  answered i nlink size la ta -> e_type i = H_DISK ->
  (dbg = true -> e_type_last i = 0 -> snd (wrefresh dbg i) = WAssert) /\
  (e_type_last i <> 0 -> snd (wrefresh dbg i) = WRet tt (e_type_last i)) /\
  (dbg = false -> e_type_last i = 0 ->
     snd (wrefresh dbg i) = WRet tt 0 /\ snd (wGetFileType dbg i (fst (wrefresh dbg i))) = WRet (WT ft_unknown) 0).
Proof.
  intros dbg i attr nlink size la ta Ha Hd Hr (Hol & Hli & Ho & Hi & Hh & Hs) Ht.
  destruct (readable_permissions dbg true _ ta Hs) as (p & Hp).
  unfold wrefresh, wUpdateBasic. rewrite Ha, reparse_attr, Hr, dir_attr, Hd. cbn. rewrite Hol, Hli, Ht.
  repeat split.
  - intros -> E. rewrite E. reflexivity.
  - intros E. apply N.eqb_neq in E. rewrite E, andb_false_r. cbn. rewrite E. reflexivity.
  - subst dbg. rewrite H0. cbn. unfold wUpdateExtra. cbn. rewrite Ho, Hi. cbn. unfold wUpdatePermissions. cbn. rewrite Ho, Hh, Hp. reflexivity.
  - subst dbg. rewrite H0. cbn. unfold wUpdateExtra. cbn. rewrite Ho, Hi. cbn. unfold wUpdatePermissions. cbn. rewrite Ho, Hh, Hp. reflexivity.
Qed.

(** No size but 2^64-1 is in the cache of a path that is no reparse point. *)
Definition no_size (d : wdata) : Prop := wd_symlink d = false /\ wd_size d = umax.

Lemma basic_no_size : forall dbg has follow i attr d, e_attrs i = inr attr -> is_reparse attr = false -> no_size d ->
  no_size (fst (wUpdateBasic dbg has follow i d)).
Proof.
  intros dbg has follow i attr d Ha Hr (Hs & Hz). unfold wUpdateBasic. rewrite Ha, reparse_attr, Hr.
  set (d2 := if has_attr attr FILE_ATTRIBUTE_DIRECTORY then set_type (WT ft_directory) d else d).
  assert (K : no_size d2) by (unfold d2; destruct (has_attr attr FILE_ATTRIBUTE_DIRECTORY); split; assumption).
  clearbody d2. destruct K as (Ks & Kz).
  assert (S : forall t, no_size (set_cache WBasic (if wd_symlink (set_type t d2) then set_type_resolved (set_type t d2) else set_type t d2))).
  { intros t. cbn. rewrite Ks. split; assumption. }
  assert (S2 : forall t t', no_size (set_cache WBasic (if wd_symlink (set_type t (set_type t' d2)) then set_type_resolved (set_type t (set_type t' d2)) else set_type t (set_type t' d2)))).
  { intros t t'. cbn. rewrite Ks. split; assumption. }
  assert (Z : forall t, no_size (set_type t d2)) by (intros t; split; assumption).
  assert (Z0 : no_size d2) by (split; assumption).
  assert (Z1 : no_size (set_cache WBasic d2)) by (split; assumption).
  destruct (wtype_is ft_none (wd_type d2) || wtype_is ft_symlink (wd_type d2) && follow)%bool; [|exact Z1].
  destruct (e_open_link i); [exact Z0|]. destruct (e_link_info i); [exact Z0|].
  destruct (has_attr attr FILE_ATTRIBUTE_DIRECTORY); [apply S|].
  destruct (e_type i); [apply S|apply S| |].
  - destruct (dbg && (e_type_last i =? 0))%bool; [apply Z|]. destruct (negb (e_type_last i =? 0)); [apply Z|apply S2].
  - destruct (dbg && (e_type_last i =? 0))%bool; [apply Z0|]. destruct (negb (e_type_last i =? 0)); [apply Z0|apply S].
Qed.

Lemma extra_no_size : forall dbg has follow i d, no_size d -> no_size (fst (wUpdateExtra dbg has follow i d)).
Proof.
  intros dbg has follow i d (Hs & Hz). unfold wUpdateExtra.
  assert (G : no_size (fst (match e_open i with
      | inl last => fail_with dbg has d last
      | inr _ => match e_info i with
          | inl last => fail_with dbg has d last
          | inr nlink =>
              let d1 := set_nlink nlink d in
              if wd_symlink d1 then
                match e_open_link i with
                | inl last => fail_with dbg has d1 last
                | inr _ => match e_link_info i with
                    | inl last => fail_with dbg has d1 last
                    | inr (size, attr) =>
                        if has_attr attr FILE_ATTRIBUTE_DIRECTORY then (d1, wreport has tt errc_is_a_directory)
                        else (set_cache WExtra (set_size size d1), WRet tt 0)
                    end
                end
              else (set_cache WExtra d1, WRet tt 0)
          end
      end))).
  { destruct (e_open i); [split; assumption|]. destruct (e_info i); [split; assumption|]. cbn. rewrite Hs. split; assumption. }
  destruct (wd_cache d), dbg; (exact G || (split; assumption)).
Qed.

Lemma perms_no_size : forall dbg has follow i d, no_size d -> no_size (fst (wUpdatePermissions dbg has follow i d)).
Proof.
  intros dbg has follow i d (Hs & Hz). unfold wUpdatePermissions.
  assert (D : no_size d) by (split; assumption).
  assert (G : no_size (fst (match e_open i with
      | inl last => fail_with dbg has d last
      | inr _ => match e_handle_attrs i with
          | inl last => fail_with dbg has d last
          | inr attr =>
              match GetPermissions dbg true (e_security i) attr with
              | WRet p e => let d1 := set_perms p d in
                            if e =? 0 then (set_cache WFull d1, WRet tt 0) else (d1, wreport has tt e)
              | WThrow c => (d, WThrow c)
              | WAssert => (d, WAssert)
              end
          end
      end))).
  { destruct (e_open i); [exact D|]. destruct (e_handle_attrs i); [exact D|].
    destruct (GetPermissions dbg true (e_security i) n); try exact D. cbn. destruct (ec =? 0); split; assumption. }
  destruct (wd_cache d), dbg; (exact G || exact D).
Qed.

(** An entry as any sequence of refreshes and queries leaves it. *)
Inductive entry_state (dbg : bool) (i : einfo) : wdata -> Prop :=
| es_refreshed : entry_state dbg i (fst (wrefresh dbg i))
| es_type : forall d, entry_state dbg i d -> entry_state dbg i (fst (wGetFileType dbg i d))
| es_size : forall d, entry_state dbg i d -> entry_state dbg i (fst (wGetSize dbg i d)).

Lemma get_size_no_size : forall dbg i attr d, e_attrs i = inr attr -> is_reparse attr = false -> no_size d ->
  no_size (fst (wGetSize dbg i d)) /\ (forall v e, snd (wGetSize dbg i d) = WRet v e -> v = umax).
Proof.
  intros dbg i attr d Ha Hr Hd. unfold wGetSize.
  set (u := match wd_cache d with WEmpty => _ | _ => _ end).
  assert (K : no_size (fst u)).
  { unfold u. destruct (wd_cache d).
    - pose proof (basic_no_size dbg false true i attr d Ha Hr Hd) as B.
      destruct (snd (wUpdateBasic dbg false true i d)); [|exact B|exact B].
      destruct (_ && _)%bool; [exact B|apply extra_no_size; exact B].
    - apply extra_no_size; exact Hd.
    - destruct (wd_extra_resolved d); [exact Hd|apply extra_no_size; exact Hd].
    - exact Hd. }
  clearbody u. destruct (snd u); (split; [exact K|]); intros v e H; try discriminate.
  injection H as <- _. exact (proj2 K).
Qed.

Lemma states_no_size : forall dbg i attr d, e_attrs i = inr attr -> is_reparse attr = false -> entry_state dbg i d -> no_size d.
Proof.
  intros dbg i attr d Ha Hr H. induction H.
  - unfold wrefresh, then_.
    pose proof (basic_no_size dbg true true i attr wdata_reset Ha Hr ltac:(split; reflexivity)) as B.
    destruct (snd (wUpdateBasic dbg true true i wdata_reset)); try exact B. destruct (ec =? 0); [|exact B].
    pose proof (extra_no_size dbg true true i _ B) as E. destruct (snd (wUpdateExtra _ _ _ _ _)); try exact E.
    destruct (ec0 =? 0); [|exact E]. apply perms_no_size. exact E.
  - unfold wGetFileType.
    set (u := match wd_cache d with WEmpty => _ | _ => _ end).
    assert (K : no_size (fst u)).
    { unfold u. destruct (wd_cache d); try exact IHentry_state; [|destruct (wd_type_resolved d); [exact IHentry_state|]];
        apply (basic_no_size dbg false true i attr d Ha Hr IHentry_state). }
    destruct (snd u); exact K.
  - apply (get_size_no_size dbg i attr d Ha Hr IHentry_state).
Qed.

(** file_size() of an entry never gives the size of a file: whatever was refreshed and asked before, it is 2^64-1
    whenever it returns. *)
Theorem C65_size_refuted : forall dbg i attr d v e, e_attrs i = inr attr -> is_reparse attr = false -> entry_state dbg i d ->
  snd (wGetSize dbg i d) = WRet v e -> v = 18446744073709551615.
Proof.
  intros dbg i attr d v e Ha Hr Hd H.
  exact (proj2 (get_size_no_size dbg i attr d Ha Hr (states_no_size _ _ _ _ Ha Hr Hd)) v e H).
Qed.

(** A link to a file has type reparse_file after a refresh, never the type of its target, and the size of the
    link itself. *)
Theorem C65_link_refuted : forall dbg i attr nlink size la ta, e_attrs i = inr attr -> is_dir attr = false -> is_reparse attr = true ->
  e_reparse i = WRet true 0 -> answered i nlink size la ta -> is_dir la = false ->
  exists d, wrefresh dbg i = (d, WRet tt 0) /\ wd_symlink d = true /\ wd_size d = size /\ snd (wGetFileType dbg i d) = WRet WReparse 0.
Proof.
  intros dbg i attr nlink size la ta Ha Hd Hr Hl (Hol & Hli & Ho & Hi & Hh & Hs) Hla.
  destruct (readable_permissions dbg true _ ta Hs) as (p & Hp).
  unfold wrefresh, wUpdateBasic. rewrite Ha, reparse_attr, Hr, dir_attr, Hd, Hl. cbn. rewrite Hol, Hli. cbn.
  unfold wUpdateExtra. cbn. rewrite Ho, Hi. cbn. rewrite Hol, Hli, dir_attr, Hla. cbn.
  unfold wUpdatePermissions. cbn. rewrite Ho, Hh, Hp. cbn. destruct dbg; eexists; repeat split; reflexivity.
Qed.

(** A link to a directory cannot be refreshed: the error is is_a_directory. *)
Theorem C65_directory_link_refuted : forall dbg i attr nlink size la ta, e_attrs i = inr attr -> is_dir attr = true -> is_reparse attr = true ->
  e_reparse i = WRet true 0 -> answered i nlink size la ta -> is_dir la = true ->
  snd (wrefresh dbg i) = WRet tt 21.
Proof.
  intros dbg i attr nlink size la ta Ha Hd Hr Hl (Hol & Hli & Ho & Hi & Hh & Hs) Hla.
  unfold wrefresh, wUpdateBasic. rewrite Ha, reparse_attr, Hr, dir_attr, Hd, Hl. cbn.
  unfold wUpdateExtra. cbn. rewrite Ho, Hi. cbn. rewrite Hol, Hli, dir_attr, Hla. destruct dbg; reflexivity.
Qed.

Definition file_info (attr : N) (link : bool) (last : N) : einfo :=
  EInfo (inr attr) (WRet link 0) (inr tt) (inr (5, attr)) H_DISK last (inr tt) (inr 1) plain_security (inr attr).
Example C65_example :
  answered (file_info 32 false 0) 1 5 32 32 /\
  snd (wrefresh true (file_info 32 false 0)) = WAssert /\
  snd (wrefresh false (file_info 32 false 87)) = WRet tt 87 /\
  snd (wGetFileType false (file_info 32 false 0) (fst (wrefresh false (file_info 32 false 0)))) = WRet (WT ft_unknown) 0 /\
  snd (wGetSize false (file_info 32 false 0) (fst (wrefresh false (file_info 32 false 0)))) = WRet umax 0 /\
  snd (wGetFileType true (file_info 16 false 0) (fst (wrefresh true (file_info 16 false 0)))) = WRet (WT ft_directory) 0 /\
  snd (wrefresh true (file_info 1040 true 0)) = WRet tt 21 /\
  snd (wGetFileType true (file_info 1056 true 0) (fst (wrefresh true (file_info 1056 true 0)))) = WRet WReparse 0.
Proof.
  split.
  - do 5 (split; [reflexivity|]). split; [reflexivity|]. intros t _. exists 2032127. reflexivity.
  - repeat split; vm_compute; reflexivity.
Qed.

Print Assumptions C63_types.
Print Assumptions C63_link_types.
Print Assumptions C63_codes_partial.
Print Assumptions C63_never_throws_refuted.
Print Assumptions C63_silent_refuted.
Print Assumptions C63_same_status.
Print Assumptions C63_inherited_refusal_refuted.
Print Assumptions C64_iterates.
Print Assumptions C64_types_partial.
Print Assumptions C64_directory_link_refuted.
Print Assumptions C64_hidden_refuted.
Print Assumptions C64_open_fails.
Print Assumptions C65_directory_partial.
Print Assumptions C65_regular_refuted.
Print Assumptions C65_size_refuted.
Print Assumptions C65_link_refuted.
Print Assumptions C65_directory_link_refuted.
