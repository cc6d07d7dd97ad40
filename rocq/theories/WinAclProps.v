(** C62: on Windows the permissions set with permissions() are those in effect, and those read back. *)
From Coq Require Import Bool NArith List Lia.
From Verif Require Import PathModel FlagsModel WinPermsModel ArithProps WinAclModel.
Import ListNotations.
Local Open Scope N_scope.

(** * Specification *)

(** The permission of [t] for [o] in a value of perms (rwxrwxrwx). *)
Definition asked (prms : N) (t : trustee) (o : operation) : Prop := N.testbit prms (perm_bit t o) = true.

(** The right without which nothing can be read, written or executed: FILE_READ_DATA, FILE_WRITE_DATA
    and FILE_EXECUTE, which are FILE_LIST_DIRECTORY, FILE_ADD_FILE and FILE_TRAVERSE on a directory. *)
Definition data_right (o : operation) : N := match o with o_read => 1 | o_write => 2 | o_exec => 32 end.

(** The rights a process has on a file whose permissions were set to [prms]. *)
Definition rights_after (order : acl_order) (owner group prms : N) (who : sid_ref -> bool) : N :=
  effective_rights who (SetEntriesInAcl order (explicit_entries owner group prms)).

(** Which identifiers stand for a process: everybody is in Everyone. *)
Definition process (who : sid_ref -> bool) (owner group : N) (is_owner is_member : bool) : Prop :=
  who Everyone = true /\ who (Sid owner) = is_owner /\ who (Sid group) = is_member.

(** * Reduction to a finite table *)

(** [explicit_entries] with the nine permissions as Booleans. *)
Definition entries9 (same : bool) (owner group : sid_ref) (rr rw rx gr gw gx er ew ex : bool) : list ace :=
  let aces := emplace_front Everyone (access_of er ew ex) GRANT_ACCESS [] in
  let aces :=
    if same then aces
    else
      emplace_front group (access_of (negb gr && er) (negb gw && ew) (negb gx && ex)) DENY_ACCESS
        (emplace_front group (access_of (gr && negb er) (gw && negb ew) (gx && negb ex)) GRANT_ACCESS aces) in
  let aces :=
    emplace_front owner (access_of (negb rr && (gr || er)) (negb rw && (gw || ew)) (negb rx && (gx || ex))) DENY_ACCESS
      (emplace_front owner (access_of (rr && negb (gr || er)) (rw && negb (gw || ew)) (rx && negb (gx || ex))) GRANT_ACCESS aces) in
  match aces with
  | [] => emplace_front Everyone GENERIC_ALL DENY_ACCESS []
  | _ => aces
  end.

Lemma FlagTest_bit : forall p i, FlagTest p (2 ^ i) = N.testbit p i.
Proof.
  intros p i. apply eq_true_iff_eq. rewrite FlagTest_grants. unfold grants. split.
  - intros H. apply H. apply N.pow2_bits_true.
  - intros H j Hj. rewrite N.pow2_bits_eqb in Hj. apply N.eqb_eq in Hj. subst j. exact H.
Qed.

Lemma entries_are : forall owner group p, explicit_entries owner group p =
  entries9 (owner =? group) (Sid owner) (Sid group)
    (N.testbit p 8) (N.testbit p 7) (N.testbit p 6) (N.testbit p 5) (N.testbit p 4) (N.testbit p 3)
    (N.testbit p 2) (N.testbit p 1) (N.testbit p 0).
Proof.
  intros owner group p.
  rewrite <- !FlagTest_bit. reflexivity.
Qed.

Definition rename (f : sid_ref -> sid_ref) (a : ace) : ace := Ace (f (ace_who a)) (ace_access a) (ace_mode a).

Lemma emplace_rename : forall f w a m l,
  emplace_front (f w) a m (map (rename f) l) = map (rename f) (emplace_front w a m l).
Proof. intros. unfold emplace_front. destruct (a =? 0); reflexivity. Qed.

Lemma check_rename : forall f who l g d, check who (map (rename f) l) g d = check (fun s => who (f s)) l g d.
Proof.
  intros f who l. induction l as [|a l IH]; intros g d; [reflexivity|].
  cbn [map check rename ace_who ace_mode ace_access].
  destruct (who (f (ace_who a))), (ace_mode a); apply IH.
Qed.

Lemma order_rename : forall f o l, SetEntriesInAcl o (map (rename f) l) = map (rename f) (SetEntriesInAcl o l).
Proof.
  intros f [] l; [reflexivity|]. cbn [SetEntriesInAcl]. rewrite map_app.
  assert (H : forall P, (forall a, P (rename f a) = P a) -> filter P (map (rename f) l) = map (rename f) (filter P l)).
  { intros P HP. induction l as [|a l IH]; [reflexivity|]. cbn [map filter]. rewrite HP, IH. destruct (P a); reflexivity. }
  rewrite !H; auto.
Qed.

Lemma check_ext : forall who who' l g d, (forall a, In a l -> who (ace_who a) = who' (ace_who a)) ->
  check who l g d = check who' l g d.
Proof.
  intros who who' l. induction l as [|a l IH]; intros g d H; [reflexivity|].
  cbn [check]. rewrite (H a (or_introl eq_refl)).
  assert (H' : forall b, In b l -> who (ace_who b) = who' (ace_who b)) by (intros b Hb; apply H; right; exact Hb).
  destruct (who' (ace_who a)), (ace_mode a); apply IH; exact H'.
Qed.

(** Owner 1 and group 2 stand for any two identifiers. *)
Definition roles (a b : bool) (s : sid_ref) : bool :=
  match s with Everyone => true | Sid 1 => a | Sid _ => b end.

Definition table (o : acl_order) (same a b rr rw rx gr gw gx er ew ex : bool) : N :=
  effective_rights (roles a b) (SetEntriesInAcl o (entries9 same (Sid 1) (Sid 2) rr rw rx gr gw gx er ew ex)).

Lemma entries_rename : forall f same owner group rr rw rx gr gw gx er ew ex, f Everyone = Everyone ->
  entries9 same (f owner) (f group) rr rw rx gr gw gx er ew ex =
  map (rename f) (entries9 same owner group rr rw rx gr gw gx er ew ex).
Proof.
  intros f same owner group rr rw rx gr gw gx er ew ex H. unfold entries9.
  assert (HE : forall a m, emplace_front Everyone a m [] = map (rename f) (emplace_front Everyone a m [])).
  { intros a m. rewrite <- emplace_rename, H. reflexivity. }
  set (e := emplace_front Everyone (access_of er ew ex) GRANT_ACCESS []).
  set (d := emplace_front Everyone GENERIC_ALL DENY_ACCESS []).
  assert (He : e = map (rename f) e) by apply HE. assert (Hd : d = map (rename f) d) by apply HE.
  assert (K : forall L L', L = map (rename f) L' ->
    match L with [] => d | _ => L end = map (rename f) match L' with [] => d | _ => L' end).
  { intros L L' ->. destruct L'; [exact Hd|reflexivity]. }
  clearbody e d. cbv zeta. apply K. destruct same; rewrite He at 1; rewrite !emplace_rename; reflexivity.
Qed.

Lemma entries_who : forall same rr rw rx gr gw gx er ew ex a,
  In a (entries9 same (Sid 1) (Sid 2) rr rw rx gr gw gx er ew ex) ->
  ace_who a = Everyone \/ ace_who a = Sid 1 \/ ace_who a = Sid 2.
Proof.
  intros same rr rw rx gr gw gx er ew ex a.
  assert (E : forall w ac m l, In a (emplace_front w ac m l) -> ace_who a = w \/ In a l).
  { intros w ac m l. unfold emplace_front. destruct (ac =? 0); [auto|]. intros [<-|]; auto. }
  unfold entries9. cbv zeta. set (L := emplace_front (Sid 1) _ DENY_ACCESS _). intros H.
  assert (H1 : In a L \/ In a (emplace_front Everyone GENERIC_ALL DENY_ACCESS [])) by (destruct L; auto).
  destruct H1 as [H1|H1].
  - unfold L in H1. apply E in H1. destruct H1 as [->|H1]; [auto|]. apply E in H1. destruct H1 as [->|H1]; [auto|].
    destruct same.
    + apply E in H1. destruct H1 as [->|[]]; auto.
    + repeat (apply E in H1; destruct H1 as [->|H1]; [auto|]). destruct H1.
  - apply E in H1. destruct H1 as [->|[]]; auto.
Qed.

Lemma order_in : forall o l a, In a (SetEntriesInAcl o l) -> In a l.
Proof.
  intros [] l a H; [exact H|]. cbn [SetEntriesInAcl] in H. apply in_app_or in H.
  destruct H as [H|H]; apply filter_In in H; tauto.
Qed.

Lemma rights_table : forall o owner group p who a b, process who owner group a b ->
  rights_after o owner group p who =
  table o (owner =? group) a b
    (N.testbit p 8) (N.testbit p 7) (N.testbit p 6) (N.testbit p 5) (N.testbit p 4) (N.testbit p 3)
    (N.testbit p 2) (N.testbit p 1) (N.testbit p 0).
Proof.
  intros o owner group p who a b (HE & HO & HG).
  unfold rights_after, table, effective_rights. rewrite entries_are.
  set (f := fun s => match s with Everyone => Everyone | Sid 1 => Sid owner | Sid _ => Sid group end).
  change (Sid owner) with (f (Sid 1)). change (Sid group) with (f (Sid 2)).
  rewrite entries_rename by reflexivity. rewrite order_rename, check_rename.
  apply check_ext. intros x Hx. apply order_in, entries_who in Hx.
  destruct Hx as [-> | [-> | ->]]; cbn; auto.
Qed.

(** All Booleans. *)
Definition both (P : bool -> bool) : bool := P true && P false.
Lemma both_spec : forall P, both P = true -> forall b, P b = true.
Proof. intros P H b. apply andb_prop in H. destruct b; tauto. Qed.

Definition all9 (P : bool -> bool -> bool -> bool -> bool -> bool -> bool -> bool -> bool -> bool) : bool :=
  both (fun a => both (fun b => both (fun c => both (fun d => both (fun e => both (fun f => both (fun g => both (fun h =>
  both (fun i => P a b c d e f g h i))))))))).
Lemma all9_spec : forall P, all9 P = true -> forall a b c d e f g h i, P a b c d e f g h i = true.
Proof.
  intros P H a b c d e f g h i. unfold all9 in H.
  apply both_spec with (b := a) in H. apply both_spec with (b := b) in H. apply both_spec with (b := c) in H.
  apply both_spec with (b := d) in H. apply both_spec with (b := e) in H. apply both_spec with (b := f) in H.
  apply both_spec with (b := g) in H. apply both_spec with (b := h) in H. apply both_spec with (b := i) in H. exact H.
Qed.

(** Permission [o] among three Booleans. *)
Definition pick (o : operation) (r w x : bool) : bool := match o with o_read => r | o_write => w | o_exec => x end.

Lemma bits_of : forall p t o, In t [t_owner; t_group; t_others] -> N.testbit p (perm_bit t o) =
  match t with
  | t_owner => pick o (N.testbit p 8) (N.testbit p 7) (N.testbit p 6)
  | t_group => pick o (N.testbit p 5) (N.testbit p 4) (N.testbit p 3)
  | _ => pick o (N.testbit p 2) (N.testbit p 1) (N.testbit p 0)
  end.
Proof. intros p t o H. cbn [In] in H. destruct H as [<-|[<-|[<-|[]]]], o; reflexivity. Qed.

Definition imp (a b : bool) : bool := negb a || b.
Lemma imp_spec : forall a b, imp a b = true -> a = true -> b = true.
Proof. intros [] []; auto. Qed.

(** * Theorems *)

(** A process that is neither the owner nor in the group has exactly what is asked for others. *)
Lemma others_table : forall o same dir op rr rw rx gr gw gx er ew ex,
  FlagTest (table o same false false rr rw rx gr gw gx er ew ex) (needed dir op) = pick op er ew ex.
Proof.
  intros o same dir op.
  assert (H : all9 (fun rr rw rx gr gw gx er ew ex =>
    Bool.eqb (FlagTest (table o same false false rr rw rx gr gw gx er ew ex) (needed dir op)) (pick op er ew ex)) = true).
  { destruct o, same, dir, op; vm_compute; reflexivity. }
  intros. apply eqb_prop. exact (all9_spec _ H rr rw rx gr gw gx er ew ex).
Qed.

Theorem C62_others : forall order owner group prms who dir op, process who owner group false false ->
  grants (rights_after order owner group prms who) (needed dir op) <-> asked prms t_others op.
Proof.
  intros order owner group prms who dir op H. unfold asked. rewrite (rights_table _ _ _ _ _ _ _ H), <- FlagTest_grants, others_table.
  rewrite bits_of by (cbn; auto). reflexivity.
Qed.

(** A member of the group who is not the owner can read, write and execute exactly what is asked for the
    group. The full set of rights of an operation is there only if nothing is refused to the group:
    the entry that refuses one operation also refuses SYNCHRONIZE and READ_CONTROL. *)
Lemma member_table : forall o dir op rr rw rx gr gw gx er ew ex,
  FlagTest (table o false false true rr rw rx gr gw gx er ew ex) (data_right op) = pick op gr gw gx /\
  FlagTest (table o false false true rr rw rx gr gw gx er ew ex) (needed dir op) =
    (pick op gr gw gx && (imp er gr && imp ew gw && imp ex gx))%bool.
Proof.
  intros o dir op.
  assert (H : all9 (fun rr rw rx gr gw gx er ew ex =>
    let t := table o false false true rr rw rx gr gw gx er ew ex in
    Bool.eqb (FlagTest t (data_right op)) (pick op gr gw gx) &&
    Bool.eqb (FlagTest t (needed dir op)) (pick op gr gw gx && (imp er gr && imp ew gw && imp ex gx))) = true).
  { destruct o, dir, op; vm_compute; reflexivity. }
  intros. pose proof (all9_spec _ H rr rw rx gr gw gx er ew ex) as K. cbv zeta in K. apply andb_prop in K.
  destruct K as [K1 K2]. split; apply eqb_prop; assumption.
Qed.

Theorem C62_members : forall order owner group prms who op, owner <> group -> process who owner group false true ->
  grants (rights_after order owner group prms who) (data_right op) <-> asked prms t_group op.
Proof.
  intros order owner group prms who op Hd H. unfold asked. rewrite (rights_table _ _ _ _ _ _ _ H), <- FlagTest_grants.
  apply N.eqb_neq in Hd. rewrite Hd. rewrite (proj1 (member_table order false op _ _ _ _ _ _ _ _ _)).
  rewrite bits_of by (cbn; auto). reflexivity.
Qed.

Theorem C62_members_full : forall order owner group prms who dir op, owner <> group -> process who owner group false true ->
  grants (rights_after order owner group prms who) (needed dir op) <->
  asked prms t_group op /\ (forall x, asked prms t_others x -> asked prms t_group x).
Proof.
  intros order owner group prms who dir op Hd H. unfold asked. rewrite (rights_table _ _ _ _ _ _ _ H), <- FlagTest_grants.
  apply N.eqb_neq in Hd. rewrite Hd. rewrite (proj2 (member_table order dir op _ _ _ _ _ _ _ _ _)).
  rewrite bits_of by (cbn; auto). rewrite !andb_true_iff. split.
  - intros (H0 & (H1 & H2) & H3). split; auto. intros x. rewrite !bits_of by (cbn; auto).
    destruct x; cbn [pick]; apply imp_spec; auto.
  - intros (H0 & Hx). split; auto.
    pose proof (Hx o_read) as Kr. pose proof (Hx o_write) as Kw. pose proof (Hx o_exec) as Kx.
    rewrite !bits_of in Kr, Kw, Kx by (cbn; auto). cbn [pick] in *. unfold imp.
    repeat split; [destruct (N.testbit prms 2)|destruct (N.testbit prms 1)|destruct (N.testbit prms 0)]; cbn; auto.
Qed.

(** The owner: what they can do depends on whether they belong to the group. An owner in the group is
    refused what is asked for owner and others but not for the group; an owner outside the group
    (or with the same identifier as the group) is not granted what is asked for owner and
    group but not for others. *)
Lemma owner_table : forall o same b op rr rw rx gr gw gx er ew ex,
  FlagTest (table o same true b rr rw rx gr gw gx er ew ex) (data_right op) =
    (pick op rr rw rx && (if b && negb same then pick op gr gw gx || negb (pick op er ew ex)
                          else pick op er ew ex || negb (pick op gr gw gx)))%bool.
Proof.
  intros o same b op.
  assert (H : all9 (fun rr rw rx gr gw gx er ew ex =>
    Bool.eqb (FlagTest (table o same true b rr rw rx gr gw gx er ew ex) (data_right op))
     (pick op rr rw rx && (if b && negb same then pick op gr gw gx || negb (pick op er ew ex)
                          else pick op er ew ex || negb (pick op gr gw gx)))) = true).
  { destruct o, same, b, op; vm_compute; reflexivity. }
  intros. apply eqb_prop. exact (all9_spec _ H rr rw rx gr gw gx er ew ex).
Qed.

Theorem C62_owner_exact : forall order owner group prms who member op, process who owner group true member ->
  grants (rights_after order owner group prms who) (data_right op) <->
  asked prms t_owner op /\
  (if member && negb (owner =? group)
   then asked prms t_group op \/ ~ asked prms t_others op
   else asked prms t_others op \/ ~ asked prms t_group op).
Proof.
  intros order owner group prms who member op H. unfold asked. rewrite (rights_table _ _ _ _ _ _ _ H), <- FlagTest_grants.
  rewrite owner_table. rewrite !bits_of by (cbn; auto).
  destruct (member && negb (owner =? group)); rewrite andb_true_iff, orb_true_iff, negb_true_iff, not_true_iff_false; reflexivity.
Qed.

(** With permissions that decrease from owner to group to others (as in 0755 or 0640) and an owner who
    belongs to the group, or that decrease from owner to others to group and an owner who does not, the
    owner has every right of exactly the operations asked for the owner. *)
Lemma owner_full_table : forall o same b dir op rr rw rx gr gw gx er ew ex,
  (if b && negb same
   then imp er gr && imp ew gw && imp ex gx && (imp gr rr && imp gw rw && imp gx rx)
   else imp gr er && imp gw ew && imp gx ex && (imp er rr && imp ew rw && imp ex rx))%bool = true ->
  FlagTest (table o same true b rr rw rx gr gw gx er ew ex) (needed dir op) = pick op rr rw rx.
Proof.
  intros o same b dir op.
  assert (H : all9 (fun rr rw rx gr gw gx er ew ex =>
    imp (if b && negb same
         then imp er gr && imp ew gw && imp ex gx && (imp gr rr && imp gw rw && imp gx rx)
         else imp gr er && imp gw ew && imp gx ex && (imp er rr && imp ew rw && imp ex rx))
     (Bool.eqb (FlagTest (table o same true b rr rw rx gr gw gx er ew ex) (needed dir op)) (pick op rr rw rx))) = true).
  { destruct o, same, b, dir, op; vm_compute; reflexivity. }
  intros rr rw rx gr gw gx er ew ex HP. apply eqb_prop.
  exact (imp_spec _ _ (all9_spec _ H rr rw rx gr gw gx er ew ex) HP).
Qed.

Definition within (prms : N) (t t' : trustee) : Prop := forall x, asked prms t x -> asked prms t' x.

Lemma within_imp : forall p t t', within p t t' ->
  forall x, imp (N.testbit p (perm_bit t x)) (N.testbit p (perm_bit t' x)) = true.
Proof. intros p t t' W x. specialize (W x). unfold asked in W. unfold imp. destruct (N.testbit p (perm_bit t x)); cbn; auto. Qed.

Theorem C62_owner_partial : forall order owner group prms who member dir op, process who owner group true member ->
  (if member && negb (owner =? group)
   then within prms t_others t_group /\ within prms t_group t_owner
   else within prms t_group t_others /\ within prms t_others t_owner) ->
  grants (rights_after order owner group prms who) (needed dir op) <-> asked prms t_owner op.
Proof.
  intros order owner group prms who member dir op H W. unfold asked. rewrite (rights_table _ _ _ _ _ _ _ H), <- FlagTest_grants.
  rewrite owner_full_table.
  - rewrite bits_of by (cbn; auto). reflexivity.
  - destruct (member && negb (owner =? group)); destruct W as [W1 W2];
      pose proof (within_imp _ _ _ W1) as V1;
      pose proof (within_imp _ _ _ W2) as V2;
      pose proof (V1 o_read) as A; pose proof (V1 o_write) as B; pose proof (V1 o_exec) as C;
      pose proof (V2 o_read) as D; pose proof (V2 o_write) as E; pose proof (V2 o_exec) as F;
      rewrite !bits_of in A, B, C, D, E, F by (cbn; auto); cbn [pick] in *; rewrite A, B, C, D, E, F; reflexivity.
Qed.

(** ** Where it fails *)

(** An owner outside the group never gets what is asked for owner and group but not for others. *)
Theorem C62_owner_outside_refuted : forall order owner group prms who op, process who owner group true false ->
  asked prms t_owner op -> asked prms t_group op -> ~ asked prms t_others op ->
  ~ grants (rights_after order owner group prms who) (data_right op).
Proof. intros order owner group prms who op H H1 H2 H3 G. apply (C62_owner_exact _ _ _ _ _ _ _ H) in G. cbn [andb] in G. tauto. Qed.

(** An owner in the group is refused what is asked for owner and others but not for the group. *)
Theorem C62_owner_member_refuted : forall order owner group prms who op, owner <> group -> process who owner group true true ->
  asked prms t_owner op -> asked prms t_others op -> ~ asked prms t_group op ->
  ~ grants (rights_after order owner group prms who) (data_right op).
Proof.
  intros order owner group prms who op Hd H H1 H2 H3 G. apply (C62_owner_exact _ _ _ _ _ _ _ H) in G.
  apply N.eqb_neq in Hd. rewrite Hd in G. cbn [andb negb] in G. tauto.
Qed.

(** When owner and group have the same identifier, permissions that are equal for both and empty for
    others take every right from everybody: 0770 leaves a file nobody can open. *)
Lemma same_table : forall o a b rr rw rx, table o true a b rr rw rx rr rw rx false false false = 0.
Proof. intros o a b rr rw rx. destruct o, a, b, rr, rw, rx; vm_compute; reflexivity. Qed.

Theorem C62_same_identifier_refuted : forall order owner prms who a, process who owner owner a a ->
  (forall x, asked prms t_owner x <-> asked prms t_group x) -> (forall x, ~ asked prms t_others x) ->
  rights_after order owner owner prms who = 0.
Proof.
  intros order owner prms who a H Hog Ho. rewrite (rights_table _ _ _ _ _ _ _ H), N.eqb_refl.
  assert (E : forall x, N.testbit prms (perm_bit t_others x) = false) by (intros x; apply not_true_iff_false, Ho).
  assert (O : forall x, N.testbit prms (perm_bit t_owner x) = N.testbit prms (perm_bit t_group x)) by (intros x; apply eq_true_iff_eq, Hog).
  pose proof (E o_read) as E1. pose proof (E o_write) as E2. pose proof (E o_exec) as E3.
  pose proof (O o_read) as O1. pose proof (O o_write) as O2. pose proof (O o_exec) as O3.
  cbn in E1, E2, E3, O1, O2, O3. rewrite E1, E2, E3, O1, O2, O3. apply same_table.
Qed.

(** ** Reading back *)

Definition value9 (rr rw rx gr gw gx er ew ex : bool) : N :=
  fold_left (fun n (b : bool) => 2 * n + (if b then 1 else 0)) [rr; rw; rx; gr; gw; gx; er; ew; ex] 0.

Lemma value9_bits : forall p, p < 512 ->
  value9 (N.testbit p 8) (N.testbit p 7) (N.testbit p 6) (N.testbit p 5) (N.testbit p 4) (N.testbit p 3)
    (N.testbit p 2) (N.testbit p 1) (N.testbit p 0) = p.
Proof.
  intros p Hp. apply N.bits_inj. intros i. destruct (N.lt_ge_cases i 9) as [Hi|Hi].
  - assert (Hall : all9 (fun a b c d e f g h k => forallb (fun i => Bool.eqb (N.testbit (value9 a b c d e f g h k) i)
        (nth (N.to_nat i) [k; h; g; f; e; d; c; b; a] false)) [0; 1; 2; 3; 4; 5; 6; 7; 8]) = true) by (vm_compute; reflexivity).
    pose proof (all9_spec _ Hall (N.testbit p 8) (N.testbit p 7) (N.testbit p 6) (N.testbit p 5) (N.testbit p 4) (N.testbit p 3)
      (N.testbit p 2) (N.testbit p 1) (N.testbit p 0)) as H.
    rewrite forallb_forall in H.
    assert (Hin : In i [0; 1; 2; 3; 4; 5; 6; 7; 8]) by (cbn [In]; lia).
    specialize (H i Hin). apply eqb_prop in H. rewrite H.
    cbn [In] in Hin. decompose [or] Hin; subst; try reflexivity; contradiction.
  - rewrite (N.bits_above_log2 p i).
    + rewrite N.bits_above_log2; auto.
      assert (Hv : all9 (fun a b c d e f g h k => N.log2 (value9 a b c d e f g h k) <? 9) = true) by (vm_compute; reflexivity).
      pose proof (all9_spec _ Hv (N.testbit p 8) (N.testbit p 7) (N.testbit p 6) (N.testbit p 5) (N.testbit p 4) (N.testbit p 3)
        (N.testbit p 2) (N.testbit p 1) (N.testbit p 0)) as H. apply N.ltb_lt in H. lia.
    + destruct (N.eq_dec p 0) as [->|Hz]; [cbn; lia|].
      apply N.lt_le_trans with 9; auto. apply N.log2_lt_pow2; [lia|exact Hp].
Qed.

(** [trustee_permissions] for an attribute without the read-only bit. *)
Definition back (dir : bool) (t : trustee) (mask : N) : out N :=
  MapAccessMaskToPerms mask t (if dir then ft_directory else ft_regular).

Definition back9 (o : acl_order) (dir : bool) (rr rw rx gr gw gx er ew ex : bool) : out N :=
  do a <- back dir t_owner (table o false true true rr rw rx gr gw gx er ew ex) ;;
  do b <- back dir t_group (table o false false true rr rw rx gr gw gx er ew ex) ;;
  do c <- back dir t_others (table o false false false rr rw rx gr gw gx er ew ex) ;;
  Ok (op_or width_perms (op_or width_perms (op_or width_perms perms_none a) b) c).

Definition out_is (r : out N) (v : N) : bool := match r with Ok x => x =? v | _ => false end.

Lemma back_table : forall o dir rr rw rx gr gw gx er ew ex,
  (imp er gr && imp ew gw && imp ex gx && (imp gr rr && imp gw rw && imp gx rx))%bool = true ->
  back9 o dir rr rw rx gr gw gx er ew ex = Ok (value9 rr rw rx gr gw gx er ew ex).
Proof.
  intros o dir.
  assert (H : all9 (fun rr rw rx gr gw gx er ew ex =>
    imp (imp er gr && imp ew gw && imp ex gx && (imp gr rr && imp gw rw && imp gx rx))
        (out_is (back9 o dir rr rw rx gr gw gx er ew ex) (value9 rr rw rx gr gw gx er ew ex))) = true).
  { destruct o, dir; vm_compute; reflexivity. }
  intros rr rw rx gr gw gx er ew ex HP.
  pose proof (imp_spec _ _ (all9_spec _ H rr rw rx gr gw gx er ew ex) HP) as K.
  unfold out_is in K. destruct (back9 o dir rr rw rx gr gw gx er ew ex) as [v| | |]; try discriminate.
  apply N.eqb_eq in K. rewrite K. reflexivity.
Qed.

(** Permissions that decrease from owner to group to others are read back as they were set, for files
    and directories, when owner and group are different and the owner belongs to the group. *)
Theorem C62_read_back_partial : forall order owner group prms attr, owner <> group -> prms < 512 ->
  within prms t_others t_group -> within prms t_group t_owner -> FlagTest attr FILE_ATTRIBUTE_READONLY = false ->
  read_permissions owner group true (SetEntriesInAcl order (explicit_entries owner group prms)) attr = Ok prms.
Proof.
  intros order owner group prms attr Hd Hp W1 W2 Ha.
  assert (Hd' := Hd). apply N.eqb_neq in Hd.
  assert (P1 : process (as_owner owner group true) owner group true true).
  { repeat split; cbn; rewrite ?N.eqb_refl, ?orb_true_r; reflexivity. }
  assert (P2 : process (as_group group) owner group false true).
  { repeat split; cbn; [exact Hd|apply N.eqb_refl]. }
  assert (P3 : process as_everyone owner group false false) by (repeat split).
  pose proof (rights_table order owner group prms _ _ _ P1) as R1.
  pose proof (rights_table order owner group prms _ _ _ P2) as R2.
  pose proof (rights_table order owner group prms _ _ _ P3) as R3.
  unfold rights_after in R1, R2, R3. unfold read_permissions. rewrite R1, R2, R3, Hd.
  assert (T : forall t m, trustee_permissions t m attr = back (FlagTest attr FILE_ATTRIBUTE_DIRECTORY) t m).
  { intros t m. unfold trustee_permissions, back. rewrite Ha. destruct (MapAccessMaskToPerms _ _ _); reflexivity. }
  rewrite !T. transitivity (Ok (value9 (N.testbit prms 8) (N.testbit prms 7) (N.testbit prms 6) (N.testbit prms 5)
    (N.testbit prms 4) (N.testbit prms 3) (N.testbit prms 2) (N.testbit prms 1) (N.testbit prms 0)));
    [|f_equal; apply value9_bits; exact Hp].
  rewrite <- (back_table order (FlagTest attr FILE_ATTRIBUTE_DIRECTORY)).
  - unfold back9. destruct (back _ t_owner _); auto. cbn [bind]. destruct (back _ t_group _); reflexivity.
  - pose proof (within_imp _ _ _ W1) as V1.
    pose proof (within_imp _ _ _ W2) as V2.
    pose proof (V1 o_read) as A; pose proof (V1 o_write) as B; pose proof (V1 o_exec) as C;
    pose proof (V2 o_read) as D; pose proof (V2 o_write) as E; pose proof (V2 o_exec) as F.
    rewrite !bits_of in A, B, C, D, E, F by (cbn; auto). cbn [pick] in *. rewrite A, B, C, D, E, F. reflexivity.
Qed.

(** Otherwise not: 0770 is read back as 0 when owner and group have the same identifier, 0640 as 0240 when the owner
    is not in the group, and 0026 as 0006 because the group is refused SYNCHRONIZE together with reading. *)
Theorem C62_read_back_refuted : forall order,
  read_permissions 1 1 true (SetEntriesInAcl order (explicit_entries 1 1 504)) 0 = Ok 0 /\
  read_permissions 1 2 false (SetEntriesInAcl order (explicit_entries 1 2 416)) 0 = Ok 160 /\
  read_permissions 1 2 true (SetEntriesInAcl order (explicit_entries 1 2 22)) 0 = Ok 6.
Proof. intros []; vm_compute; auto. Qed.

(** Owner 1 in group 2, permissions 0640 and the processes of owner, member and others. *)
Example C62_example :
  process (as_owner 1 2 true) 1 2 true true /\ process (as_group 2) 1 2 false true /\ process as_everyone 1 2 false false /\
  within 416 t_others t_group /\ within 416 t_group t_owner /\ asked 416 t_owner o_write /\ asked 416 t_group o_read /\
  ~ asked 416 t_others o_read /\
  explicit_entries 1 2 416 = [Ace (Sid 1) 1073807424 GRANT_ACCESS; Ace (Sid 2) 2147483648 GRANT_ACCESS] /\
  explicit_entries 1 2 4 = [Ace (Sid 1) 2147483648 DENY_ACCESS; Ace (Sid 2) 2147483648 DENY_ACCESS; Ace Everyone 2147483648 GRANT_ACCESS].
Proof.
  unfold process, within, asked. repeat split; try reflexivity.
  - intros []; vm_compute; intros; congruence.
  - intros []; vm_compute; intros; congruence.
  - vm_compute. discriminate.
Qed.

Example C62_refuted_example : (* 0640, owner outside; 0604, owner in the group; 0770, one identifier *)
  process (as_owner 1 2 false) 1 2 true false /\ asked 416 t_owner o_read /\ asked 416 t_group o_read /\ ~ asked 416 t_others o_read /\
  process (as_owner 1 2 true) 1 2 true true /\ asked 388 t_owner o_read /\ asked 388 t_others o_read /\ ~ asked 388 t_group o_read /\
  process (as_owner 1 1 false) 1 1 true true /\ (forall x, asked 504 t_owner x <-> asked 504 t_group x) /\ (forall x, ~ asked 504 t_others x).
Proof.
  unfold process, asked. repeat split; try reflexivity; try (vm_compute; discriminate);
    try (intros _; destruct x; reflexivity).
  intros []; vm_compute; discriminate.
Qed.

Print Assumptions C62_others.
Print Assumptions C62_members.
Print Assumptions C62_members_full.
Print Assumptions C62_owner_exact.
Print Assumptions C62_owner_partial.
Print Assumptions C62_owner_outside_refuted.
Print Assumptions C62_owner_member_refuted.
Print Assumptions C62_same_identifier_refuted.
Print Assumptions C62_read_back_partial.
Print Assumptions C62_read_back_refuted.
