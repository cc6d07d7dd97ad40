(** C84: copying a tree on Windows.
    Sources: src/fs_ops.cpp:176-296 with ASAP_WINDOWS defined. *)
From Coq Require Import Ascii String Bool Arith NArith ZArith Lia List.
From Verif Require Import Str PathModel PathSpec StrProofs PathProofs PathOps WinPathProps WinPlace WinPermsModel FlagsModel TimeModel WinStatModel WinStatProps WinOpsModel WinOpsProps WinRemoveAll WinCopy.
From Verif Require WinRemoveTree.
Import ListNotations.
Local Open Scope N_scope.

(** * Specification *)

(** What is at a place: a file with its content, or a directory. *)
Inductive item (C : Type) := File (c : C) | Folder.
Arguments File {C}. Arguments Folder {C}.

(** What is [ns] further in the directory [q]. *)
Notation place := WinRemoveTree.place.   (* fold_left entry_text ns q *)

(** A system with files and directories and no links, on which nobody else works and that refuses nothing. [view s q] is what the text
    [q] names in the state [s]. Each text names a thing of its own: other spellings are left out. *)
Record disk {S C} (h : wkernel S) (view : S -> str -> option (item C)) : Prop := {
  dk_info : forall s q, exists i, h (w_Info q) s = (i, s) /\
    match view s q with
    | None => w_attrs i = inl 2
    | Some x => readable (w_security i) /\ exists attr, w_attrs i = inr attr /\ is_reparse attr = false /\
                  is_dir attr = match x with Folder => true | File _ => false end
    end;
  dk_identity : forall s p q, p <> q -> view s p = Some Folder -> view s q = Some Folder ->
    exists i j, h (w_FileInfo p) s = (inr i, s) /\ h (w_FileInfo q) s = (inr j, s) /\ hi_index i <> hi_index j;
  dk_find : forall s q, view s q = Some Folder -> exists d l, h (w_Find q) s = ((inr (d, l), 18), s) /\
    NoDup (map fd_name (listed (d :: l))) /\
    forall n, In n (map fd_name (listed (d :: l))) <-> entry_name n /\ view s (entry_text q n) <> None;
  dk_create : forall s tmpl q n, entry_name n -> view s q = Some Folder -> view s tmpl = Some Folder -> view s (entry_text q n) = None ->
    exists s', h (w_CreateDirectoryEx tmpl (entry_text q n)) s = (inr tt, s') /\
      view s' (entry_text q n) = Some Folder /\ forall t, t <> entry_text q n -> view s' t = view s t;
  dk_copy : forall s p c q n, entry_name n -> view s q = Some Folder -> view s p = Some (File c) -> view s (entry_text q n) = None ->
    exists s', h (w_CopyFile p (entry_text q n) false) s = (inr tt, s') /\
      view s' (entry_text q n) = Some (File c) /\ forall t, t <> entry_text q n -> view s' t = view s t }.

(** A tree: what has an entry is a directory. *)
Definition whole {C} (v : str -> option (item C)) (a : str) : Prop :=
  forall ns n, Forall entry_name (ns ++ [n]) -> v (place a (ns ++ [n])) <> None -> v (place a ns) = Some Folder.

(** Nothing is in [b]. *)
Definition vacant {C} (v : str -> option (item C)) (b : str) : Prop :=
  forall n ns, Forall entry_name (n :: ns) -> v (place b (n :: ns)) = None.

(** [b] is a new name in a directory. *)
Definition fresh {C} (v : str -> option (item C)) (b : str) : Prop :=
  v b = None /\ exists d n, entry_name n /\ b = entry_text d n /\ v d = Some Folder.

(** Nothing in [a] is in [b]. *)
Definition apart (a b : str) : Prop := forall ns ms, Forall entry_name ns -> Forall entry_name ms -> place a ns <> place b ms.

(** What becomes of a thing. The option 64 is directories_only. *)
Definition copied {C} (o : N) (x : option (item C)) : option (item C) :=
  match x with
  | Some (File c) => if N.testbit o 6 then None else Some (File c)
  | _ => x
  end.

(** * Proofs *)

Lemma set_bits : forall o,
  wset co_recursive o = N.testbit o 3 /\ wset co_copy_symlinks o = N.testbit o 4 /\ wset co_skip_symlinks o = N.testbit o 5 /\
  wset co_directories_only o = N.testbit o 6 /\ wset co_create_symlinks o = N.testbit o 7 /\ wset co_create_hard_links o = N.testbit o 8.
Proof.
  assert (K : forall i o, (i < 16)%N -> negb (op_and width_copy_options o (2 ^ i) =? 0) = N.testbit o i).
  { intros i o Hi. rewrite <- has_attr_bit. unfold has_attr, op_and, trunc. do 2 f_equal.
    apply N.mod_small.
    destruct (N.eq_dec (N.land o (2 ^ i)) 0) as [->|Hn]; [reflexivity|].
    apply N.log2_lt_pow2; [lia|]. eapply N.le_lt_trans; [apply N.log2_land|]. rewrite N.log2_pow2 by lia. unfold width_copy_options. lia. }
  intros o. unfold wset, is_set. cbn [copt_value]. rewrite <- !(K _ o) by lia. auto 10.
Qed.

Ltac types := repeat match goal with |- context [file_type_eqb ?a ?b] => let v := eval vm_compute in (file_type_eqb a b) in change (file_type_eqb a b) with v end.

Section Tree.
Variable dbg : bool.
Variable E : elision.
Variable m : signed_mode.
Variable ac : N -> N.
Variable tps : Z.
Context {S C : Type} (h : wkernel S) (view : S -> str -> option (item C)).
Hypothesis Hd : disk h view.
Hypothesis Hac : ac 18 = 18.

Definition status_of (link : bool) (p : path) : wprog wstatus := if link then wsymlink_status_of dbg true p else wstatus_of dbg true p.

Lemma stat_run : forall link q s, native (wpath q) = q -> exists st e, wrun h (status_of link (wpath q)) s = (WE (WRet st e), s) /\
  match view s q with
  | None => fst st = WT ft_not_found
  | Some (File _) => fst st = WT ft_regular /\ e = 0
  | Some Folder => fst st = WT ft_directory /\ e = 0
  end.
Proof.
  intros link q s Hq. destruct (dk_info h view Hd s q) as (i & Hi & Hv). unfold status_of, wsymlink_status_of, wstatus_of. rewrite Hq.
  destruct (view s q) as [x|].
  - destruct Hv as (Hr & attr & Ha & Hrp & Hdir). destruct (readable_permissions dbg true (w_security i) attr Hr) as [pr Hpr].
    destruct link; cbn [wrun]; rewrite Hi; [unfold wsymlink_status_impl|unfold wstatus_impl]; rewrite Ha, reparse_attr, Hrp; unfold with_permissions; rewrite Hpr;
      change (0 =? 0) with true; cbv iota; unfold directory_or_regular; rewrite dir_attr, Hdir; destruct x; do 2 eexists; (split; [reflexivity|split; reflexivity]).
  - destruct link; cbn [wrun]; rewrite Hi; [unfold wsymlink_status_impl|unfold wstatus_impl]; rewrite Hv; (rewrite cap by discriminate); do 2 eexists; split; reflexivity.
Qed.

Lemma copy_file_run : forall has o p c q n s, native (wpath p) = p -> native (wpath (entry_text q n)) = entry_text q n ->
  entry_name n -> view s q = Some Folder -> view s p = Some (File c) -> view s (entry_text q n) = None ->
  exists s', wrun h (wcopy_file dbg m tps has (wpath p) (wpath (entry_text q n)) o) s = (WE (WRet true 0), s') /\
    view s' (entry_text q n) = Some (File c) /\ forall t, t <> entry_text q n -> view s' t = view s t.
Proof.
  intros has o p c q n s Hp Hq Hn Hv1 Hv2 Hv3. unfold wcopy_file.
  destruct (stat_run false p s Hp) as (st1 & e1 & R1 & K1). rewrite Hv2 in K1. destruct K1 as [K1 ->]. cbn [status_of] in R1.
  rewrite (WinRemoveTree.wrun_bind _ _ _ _ _ _ _ _ _ _ R1). change (negb (0 =? 0)) with false. cbv iota. replace (wis ft_regular st1) with true by (unfold wis; rewrite K1; reflexivity). cbn [negb].
  destruct (stat_run false (entry_text q n) s Hq) as (st2 & e2 & R2 & K2). rewrite Hv3 in K2. cbn [status_of] in R2.
  rewrite (WinRemoveTree.wrun_bind _ _ _ _ _ _ _ _ _ _ R2). cbv zeta.
  replace (wknown st2) with true by (unfold wknown; rewrite K2; reflexivity). replace (wexists (fst st2)) with false by (rewrite K2; reflexivity). cbn [negb andb orb wbind wret wrun].
  rewrite Hp, Hq. destruct (dk_copy h view Hd s p c q n Hn Hv1 Hv2 Hv3) as (s' & Hc & Hc1 & Hc2). rewrite Hc. exists s'. split; [reflexivity|auto].
Qed.

Variable has : bool.
Variable o : N.
Hypothesis Hrec : o = 0 \/ N.testbit o 3 = true.
Hypothesis Hsym : N.testbit o 7 = false.
Hypothesis Hhard : N.testbit o 8 = false.

Lemma copy_run : forall n a b s, stable a -> stable b -> view s a <> None -> whole (view s) a -> vacant (view s) b -> apart a b ->
  (fresh (view s) b \/ view s a = Some Folder /\ view s b = Some Folder) ->
  (forall ns, Forall entry_name ns -> view s (place a ns) <> None -> (length ns < n)%nat) ->
  exists s', wrun h (wcopy dbg E m ac tps n has (wpath a) (wpath b) o) s = (WE (WRet tt 0), s') /\
    (forall ns, Forall entry_name ns -> view s' (place b ns) = copied o (view s (place a ns))) /\
    (forall t, ~ below b t -> view s' t = view s t).
Proof.
  intros n. induction n as [|n IH]; intros a b s Ha Hb Hva Hw Hvac Hap Hto Hdepth.
  { specialize (Hdepth [] (Forall_nil _) Hva). lia. }
  destruct (set_bits o) as (B3 & B4 & B5 & B6 & B7 & B8). rewrite Hsym in B7. rewrite Hhard in B8.
  pose proof Ha as [Hane Hast]. pose proof Hb as [Hbne Hbst]. change (split_components Windows a) with (wpath a) in Hast. change (split_components Windows b) with (wpath b) in Hbst.
  cbn [wcopy]. cbv zeta. rewrite B7, B8. cbn [orb].
  destruct (stat_run (wset co_skip_symlinks o || wset co_copy_symlinks o) a s Hast) as (st1 & e1 & R1 & K1). unfold status_of in R1.
  destruct (stat_run (wset co_skip_symlinks o) b s Hbst) as (st2 & e2 & R2 & K2). unfold status_of in R2.
  rewrite (WinRemoveTree.wrun_bind _ _ _ _ _ _ _ _ _ _ R1).
  destruct (view s a) as [[c|]|] eqn:Eva; [| |contradiction].
  - (* a file *)
    destruct Hto as [(Hvb & d & x & Hx & -> & Hvd)|[K _]]; [|discriminate]. rewrite Hvb in K2. destruct K1 as [K1 ->].
    change (negb (0 =? 0)) with false. cbv iota. rewrite (WinRemoveTree.wrun_bind _ _ _ _ _ _ _ _ _ _ R2).
    destruct st1 as [ty1 pr1], st2 as [ty2 pr2]. cbn [fst] in K1, K2. subst ty1 ty2.
    unfold wknown, wis_other, wis, wexists. cbn [fst wtype_is]. types. cbn [negb andb orb wbind wret].
    change (negb (0 =? 0)) with false. cbv iota. rewrite B6.
    assert (Hnone : forall y ns, Forall entry_name (y :: ns) -> view s (place a (y :: ns)) = None).
    { intros y ns Hf. destruct (view s (place a (y :: ns))) eqn:Ev; [exfalso|reflexivity]. revert Hf Ev. generalize i. clear i.
      induction ns as [|z ns IHn] using rev_ind; intros i Hf Ev.
      - pose proof (Hw [] y Hf) as K. cbn [app] in K. rewrite Ev in K. specialize (K ltac:(discriminate)). cbn in K. rewrite Eva in K. discriminate.
      - pose proof (Hw (y :: ns) z) as K. cbn [app] in K. specialize (K Hf). rewrite Ev in K. specialize (K ltac:(discriminate)).
        apply (IHn Folder); [|exact K]. change (y :: ns ++ [z]) with ((y :: ns) ++ [z]) in Hf. apply Forall_app in Hf. apply Hf. }
    destruct (N.testbit o 6) eqn:E6.
    + exists s. split; [reflexivity|]. split; [|auto]. intros [|y ns] Hf.
      * cbn [WinRemoveTree.place fold_left]. rewrite Eva. cbn [copied]. rewrite E6. exact Hvb.
      * rewrite (Hvac y ns Hf), (Hnone y ns Hf). reflexivity.
    + destruct (copy_file_run has o a c d x s Hast Hbst Hx Hvd Eva Hvb) as (s' & R & V1 & V2).
      rewrite (WinRemoveTree.wrun_bind _ _ _ _ _ _ _ _ _ _ R). exists s'. split; [reflexivity|]. split.
      * intros [|y ns] Hf.
        { cbn [WinRemoveTree.place fold_left]. rewrite Eva. cbn [copied]. rewrite E6. exact V1. }
        { rewrite V2, (Hvac y ns Hf), (Hnone y ns Hf); [reflexivity|]. intros K. apply (WinRemoveTree.place_inj (entry_text d x) (y :: ns) []) in K; [discriminate|exact Hbne|exact Hf|constructor]. }
      * intros t Ht. apply V2. intros ->. apply Ht. constructor.
  - (* a directory *)
    destruct K1 as [K1 ->]. change (negb (0 =? 0)) with false. cbv iota. rewrite (WinRemoveTree.wrun_bind _ _ _ _ _ _ _ _ _ _ R2).
    assert (Hcreate : exists s1, view s1 b = Some Folder /\ (forall t, t <> b -> view s1 t = view s t) /\
      forall f : bool -> N -> wprog unit, wrun h
        (if negb (wknown st2) then wbad has tt e2
         else if negb (wexists (fst st1)) || wis_other st1 || wis_other st2 || wis ft_directory st1 && wis ft_regular st2 then wbad has tt errc_function_not_supported
         else wbind (if wexists (fst st1) && wexists (fst st2) then wequivalent dbg true (wpath a) (wpath b) else wret false 0) (fun same e3 =>
           if negb (e3 =? 0) then wbad has tt e3 else if same then wbad has tt errc_function_not_supported
           else wbind (if negb (wexists (fst st2)) then wcreate_directory_like dbg has (wpath b) (wpath a) else wret true 0) f)) s = wrun h (f true 0) s1).
    { unfold wknown, wis_other, wis, wexists. rewrite K1. destruct Hto as [(Hvb & d & x & Hx & Heq & Hvd)|[_ Hvb]]; rewrite Hvb in K2.
      - destruct (dk_create h view Hd s a d x Hx Hvd Eva) as (s1 & Hc & Hc1 & Hc2); [rewrite <- Heq; exact Hvb|]. rewrite <- Heq in Hc, Hc1, Hc2.
        exists s1. split; [exact Hc1|]. split; [exact Hc2|]. intros f. rewrite K2. cbn [wtype_is]. types. cbn [negb andb orb wbind wret].
        change (negb (0 =? 0)) with false. cbv iota. unfold wcreate_directory_like. rewrite Hast, Hbst. cbn [wbind wrun]. rewrite Hc. reflexivity.
      - destruct K2 as [K2 _]. exists s. split; [exact Hvb|]. split; [auto|]. intros f. rewrite K2. cbn [wtype_is]. types. cbn [negb andb orb].
        assert (Hab : a <> b) by exact (Hap [] [] (Forall_nil _) (Forall_nil _)).
        destruct (dk_identity h view Hd s a b Hab Eva Hvb) as (i & j & Hi & Hj & Hij). unfold wequivalent. rewrite Hast, Hbst. cbn [wbind wrun]. rewrite Hi. cbn [wbind wrun]. rewrite Hj. cbn [wbind].
        apply N.eqb_neq in Hij. rewrite Hij, ?andb_false_r. cbn [andb]. reflexivity. }
    destruct Hcreate as (s1 & Hb1 & Hsame & Hcreate).
    replace (wis ft_symlink st1) with false by (unfold wis; rewrite K1; reflexivity). replace (wis ft_regular st1) with false by (unfold wis; rewrite K1; reflexivity).
    assert (D1 : wis ft_directory st1 = true) by (unfold wis; rewrite K1; reflexivity). rewrite D1. setoid_rewrite D1 in Hcreate. cbn [andb] in Hcreate. cbn [andb]. rewrite B3.
    replace (N.testbit o 3 || (o =? 0)) with true by (destruct Hrec as [->| ->]; [rewrite orb_true_r|]; reflexivity).
    rewrite Hcreate. change (negb (0 =? 0)) with false. cbv iota. cbn [wrun]. rewrite Hast.
    assert (Hva1 : forall ns, Forall entry_name ns -> view s1 (place a ns) = view s (place a ns)).
    { intros ns Hns. apply Hsame. exact (Hap ns [] Hns (Forall_nil _)). }
    assert (Ea1 : view s1 a = Some Folder) by (rewrite <- Eva; exact (Hva1 [] (Forall_nil _))).
    destruct (dk_find h view Hd s1 a Ea1) as (d & l & Hf & Hnd & Hlist). rewrite Hf.
    destruct (C64_iterates 18 ac (Datatypes.S (listing_bound (inr (d, l)))) false d l) as (es & Hes & Hnames); [cbn; lia|exact Hac|discriminate|].
    unfold wlisting. cbn [fst snd]. change (18 =? 18) with true in Hes. cbv iota in Hes.
    destruct (wstream_open 18 ac false (inr (d, l))) as [st ec] eqn:Eo.
    assert (Hec : ec = 0).
    { unfold wdirectory in Hes. rewrite Eo in Hes. destruct (N.eqb_spec ec 0) as [K|K]; [exact K|]. injection Hes as _ K2'. congruence. }
    subst ec. change (negb (0 =? 0)) with false. cbv iota. rewrite Hes. clear Hes Eo st.
    (* the loop *)
    assert (L : forall es s2, NoDup (map we_name es) -> (forall x, In x (map we_name es) -> entry_name x /\ view s (entry_text a x) <> None) ->
      (forall t, ~ below b t -> view s2 t = view s t) -> view s2 b = Some Folder ->
      (forall x, In x (map we_name es) -> forall ns, Forall entry_name ns -> view s2 (place b (x :: ns)) = None) ->
      exists s3, wrun h (wcopy_entries E (fun p q => wcopy dbg E m ac tps n has p q o) (wpath a) (wpath b) es) s2 = (WE (WRet tt 0), s3) /\
        (forall t, ~ below b t -> view s3 t = view s t) /\ view s3 b = Some Folder /\
        (forall x, In x (map we_name es) -> forall ns, Forall entry_name ns -> view s3 (place b (x :: ns)) = copied o (view s (place a (x :: ns)))) /\
        (forall x, entry_name x -> ~ In x (map we_name es) -> forall ns, Forall entry_name ns -> view s3 (place b (x :: ns)) = view s2 (place b (x :: ns)))).
    { clear es Hnames. induction es as [|e es IHe]; intros s2 Hn2 Hin Hout Hb2 Hno.
      - exists s2. split; [reflexivity|]. split; [exact Hout|]. split; [exact Hb2|]. split; [intros x []|]. auto.
      - cbn [map] in Hn2, Hin, Hno. inversion Hn2 as [|? ? Hx Hn3]; subst. destruct (Hin (we_name e) (or_introl eq_refl)) as [Hex Hev]. pose proof Hex as [Hxp _].
        assert (Hnb : forall ns, Forall entry_name ns -> ~ below b (place a ns)).
        { intros ns Hns K. apply WinRemoveTree.below_place in K. destruct K as (ms & Hms & K). exact (Hap ns ms Hns Hms K). }
        destruct (IH (entry_text a (we_name e)) (entry_text b (we_name e)) s2) as (s3 & R & V1 & V2).
        + apply stable_entry; assumption.
        + apply stable_entry; assumption.
        + rewrite Hout; [exact Hev|]. exact (Hnb [we_name e] (Forall_cons _ Hex (Forall_nil _))).
        + intros ns x Hf'. assert (Hf1 : Forall entry_name (we_name e :: ns)) by (constructor; [exact Hex|]; apply Forall_app in Hf'; apply Hf').
          change (place (entry_text a (we_name e)) (ns ++ [x])) with (place a (we_name e :: ns ++ [x])). change (place (entry_text a (we_name e)) ns) with (place a (we_name e :: ns)).
          rewrite !Hout by (apply Hnb; constructor; auto; apply Forall_app in Hf'; apply Hf'). intros K. apply (Hw (we_name e :: ns) x); [constructor; assumption|exact K].
        + intros x ns Hf'. exact (Hno (we_name e) (or_introl eq_refl) (x :: ns) Hf').
        + intros ns ms H1 H2. apply (Hap (we_name e :: ns) (we_name e :: ms)); constructor; assumption.
        + left. split; [exact (Hno (we_name e) (or_introl eq_refl) [] (Forall_nil _))|]. exists b, (we_name e). auto.
        + intros ns Hns Hv. assert (Datatypes.S (length ns) < Datatypes.S n)%nat; [|lia]. apply (Hdepth (we_name e :: ns)); [constructor; assumption|].
          rewrite <- Hout; [exact Hv|]. apply Hnb. constructor; assumption.
        + assert (Hsib : forall x ns, entry_name x -> Forall entry_name ns -> x <> we_name e -> ~ below (entry_text b (we_name e)) (place b (x :: ns))).
          { intros x ns H1 H2 H3 K. apply WinRemoveTree.below_place in K. destruct K as (ms & Hms & K). change (place (entry_text b (we_name e)) ms) with (place b (we_name e :: ms)) in K.
            apply WinRemoveTree.place_inj in K; [|exact Hbne|constructor; assumption|constructor; assumption]. congruence. }
          assert (Hself : ~ below (entry_text b (we_name e)) b).
          { intros K. apply WinRemoveTree.below_place in K. destruct K as (ms & Hms & K). change (WinRemoveTree.place (entry_text b (we_name e)) ms) with (WinRemoveTree.place b (we_name e :: ms)) in K.
            symmetry in K. apply (WinRemoveTree.place_inj b (we_name e :: ms) []) in K; [discriminate|exact Hbne|constructor; assumption|constructor]. }
          destruct (IHe s3) as (s4 & R' & W1 & W2 & W3 & W4).
          * exact Hn3.
          * intros x Hix. apply Hin. right. exact Hix.
          * intros t Ht. rewrite V2; [apply Hout; exact Ht|]. intros K. apply Ht. eapply WinRemoveTree.below_trans; [|exact K]. constructor; [constructor|exact Hex].
          * rewrite V2 by exact Hself. exact Hb2.
          * intros x Hix ns Hns. rewrite V2; [apply Hno; [right; exact Hix|exact Hns]|]. apply Hsib; [apply Hin; right; exact Hix|exact Hns|]. intros ->. contradiction.
          * exists s4. split; [|split; [exact W1|split; [exact W2|split]]].
            { cbn [wcopy_entries]. unfold wpath at 1 2. rewrite div_name by assumption. cbn [wlift]. change (split_components Windows (entry_text a (we_name e))) with (wpath (entry_text a (we_name e))).
              rewrite (entry_filename a (we_name e) Ha Hxp). cbn [wlift].
              change (wpath b) with (split_components Windows b). rewrite div_name by assumption. cbn [wlift]. change (split_components Windows (entry_text b (we_name e))) with (wpath (entry_text b (we_name e))). change (split_components Windows b) with (wpath b).
              rewrite (WinRemoveTree.wrun_bind _ _ _ _ _ _ _ _ _ _ R). change (negb (0 =? 0)) with false. cbv iota. exact R'. }
            { intros x [<-|Hix] ns Hns.
              - rewrite W4 by assumption. change (place b (we_name e :: ns)) with (place (entry_text b (we_name e)) ns). rewrite V1 by exact Hns. f_equal.
                apply Hout. apply (Hnb (we_name e :: ns)). constructor; assumption.
              - apply W3; assumption. }
            { intros x Hex' Hix ns Hns. rewrite W4; [|exact Hex'|intros K; apply Hix; right; exact K|exact Hns]. apply V2. apply Hsib; [exact Hex'|exact Hns|].
              intros ->. apply Hix. left. reflexivity. } }
    destruct (L es s1) as (s3 & R & W1 & W2 & W3 & W4).
    + rewrite Hnames. exact Hnd.
    + intros x. rewrite Hnames. intros K. apply Hlist in K. destruct K as [K1' K2']. split; [exact K1'|]. rewrite (Hva1 [x] (Forall_cons _ K1' (Forall_nil _)) : view s1 (entry_text a x) = view s (entry_text a x)) in K2'. exact K2'.
    + intros t Ht. apply Hsame. intros ->. apply Ht. constructor.
    + exact Hb1.
    + intros x Hx ns Hns. assert (Hex : entry_name x) by (rewrite Hnames in Hx; apply Hlist in Hx; apply Hx).
      rewrite Hsame; [apply Hvac; constructor; assumption|]. intros K. apply (WinRemoveTree.place_inj b (x :: ns) []) in K; [discriminate|exact Hbne|constructor; assumption|constructor].
    + exists s3. split; [exact R|]. split; [|exact W1]. intros [|x ns] Hns.
      * cbn [WinRemoveTree.place fold_left]. rewrite Eva. exact W2.
      * inversion Hns as [|? ? Hex Hns']; subst. destruct (in_dec (list_eq_dec ascii_dec) x (map we_name es)) as [Hi|Hi]; [apply W3; assumption|].
        rewrite W4 by assumption. assert (Hnot : view s (entry_text a x) = None).
        { destruct (view s (entry_text a x)) eqn:Ev; [|reflexivity]. exfalso. apply Hi. rewrite Hnames. apply Hlist. split; [exact Hex|].
          rewrite (Hva1 [x] (Forall_cons _ Hex (Forall_nil _)) : view s1 (entry_text a x) = view s (entry_text a x)), Ev. discriminate. }
        assert (Hnone : view s (place a (x :: ns)) = None).
        { destruct (view s (place a (x :: ns))) eqn:Ev; [exfalso|reflexivity]. revert Hns Hns' Ev. generalize i. clear i. induction ns as [|z ns IHn] using rev_ind; intros i Hf1 Hf2 Ev.
          - cbn [WinRemoveTree.place fold_left] in Ev. congruence.
          - pose proof (Hw (x :: ns) z) as K. cbn [app] in K. specialize (K Hf1). rewrite Ev in K. specialize (K ltac:(discriminate)). apply Forall_app in Hf2.
            apply (IHn Folder); [constructor; [exact Hex|apply Hf2]|apply Hf2|exact K]. }
        rewrite Hnone. rewrite Hsame; [apply Hvac; exact Hns|]. intros K. apply (WinRemoveTree.place_inj b (x :: ns) []) in K; [discriminate|exact Hbne|exact Hns|constructor].
Qed.

End Tree.
