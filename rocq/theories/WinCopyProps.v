(** C83: what copy does with a file, a link or a directory on Windows. C84: copying a tree on Windows.
    Sources: src/fs_ops.cpp:176-296 with ASAP_WINDOWS defined. *)
From Coq Require Import Ascii String Bool Arith NArith ZArith Lia List.
From Verif Require Import Str PathModel PathSpec StrProofs PathProofs PathOps WinPathProps WinPlace WinPermsModel FlagsModel TimeModel WinStatModel WinStatProps WinOpsModel WinOpsProps WinRemoveAll WinCopy WinCopyTree.
From Verif Require WinRemoveTree WinLinksProps WinAppend.
Import ListNotations.
Local Open Scope N_scope.

(** * C83 *)

(** ** Specification *)

(** What status or symlink_status says of a path, and its code. [Unclear] is file_type::none, after an error that does not mean that nothing is there. *)
Inductive thing := Unclear | Absent | AFile | ADirectory | ALink | AnOther.
Definition shows (dbg link : bool) (ans : forall c, wanswer c) (p : path) (x : thing) (code : N) : Prop :=
  exists t prms, (if link then wsymlink_status_impl else wstatus_impl) dbg true (ans (w_Info (native p))) = WRet (t, prms) code /\
    match x with
    | Unclear => t = WT ft_none
    | Absent => t = WT ft_not_found
    | AFile => t = WT ft_regular
    | ADirectory => t = WT ft_directory
    | ALink => t = WT ft_symlink
    | AnOther => ~ In t [WT ft_none; WT ft_not_found; WT ft_regular; WT ft_directory; WT ft_symlink]
    end.

(** Options: 8 recursive, 16 copy_symlinks, 32 skip_symlinks, 64 directories_only, 128 create_symlinks, 256 create_hard_links. Links are looked at
    rather than followed with these. *)
Definition from_link (o : N) : bool := N.testbit o 7 || N.testbit o 5 || N.testbit o 4.
Definition to_link (o : N) : bool := N.testbit o 7 || N.testbit o 5.

(** What to do with a source [f] and a target [t]; [same] if they are one file. Codes: 40 function_not_supported, 17 file_exists, 21 is_a_directory. *)
Inductive act := Refuse (code : N) | Leave | CopyLink | MakeLink | MakeHardLink | CopyInto | CopyTo | CopyTree.
Definition there (x : thing) : bool := match x with Unclear | Absent => false | _ => true end.
Definition table (o : N) (f t : thing) (same : bool) : act :=
  match f, t with
  | (Unclear | Absent | AnOther), _ | _, AnOther | ADirectory, AFile => Refuse 40
  | _, _ =>
      if same then Refuse 40
      else
        match f with
        | ALink => if N.testbit o 5 then Leave else if negb (there t) && N.testbit o 4 then CopyLink else Refuse 17
        | AFile =>
            if N.testbit o 6 then Leave
            else if N.testbit o 7 then MakeLink
            else if N.testbit o 8 then MakeHardLink
            else match t with ADirectory => CopyInto | _ => CopyTo end
        | _ => if N.testbit o 7 then Refuse 21 else if N.testbit o 3 || (o =? 0) then CopyTree else Leave
        end
  end.

(** One call, whose failure is told. *)
Definition one_call {S} (h : wkernel S) (p : wprog unit) (s : S) (has : bool) (c : wcall) (ask : S -> (N + unit) * S) : Prop :=
  forall r s', ask s = (r, s') ->
    made h p s = [c] /\
    (forall u, r = inr u -> wrun h p s = (WE (WRet tt 0), s')) /\
    (forall e, r = inl e -> e <> 0 -> wrun h p s = (told has tt e, s')).

(** The same calls and the same end, whatever value is returned. *)
Definition without_value {A} (x : wend A) : wend unit :=
  match x with WE (WRet _ e) => WE (WRet tt e) | WE (WThrow e) => WE (WThrow e) | WE WAssert => WE WAssert | WExn => WExn | WStop => WStop | WFuel => WFuel end.
Definition does_as {A S} (h : wkernel S) (p : wprog unit) (q : wprog A) (s : S) : Prop :=
  made h p s = made h q s /\ fst (wrun h p s) = without_value (fst (wrun h q s)) /\ snd (wrun h p s) = snd (wrun h q s).

(** ** Proofs *)

(** Whatever the system answers: everything created or written is at the place in [to] that belongs to a place in [from]. *)
Theorem C83_only_below : forall dbg E m ac tps n has t1 t2 o S (h : wkernel S) s c, t1 <> [] -> t2 <> [] ->
  let from := native (wpath t1) in let to := native (wpath t2) in let p := wcopy dbg E m ac tps n has (wpath t1) (wpath t2) o in
  Forall sane (wevents h p s) -> In c (made h p s) -> exists a b, goes_with from to a b /\ copies a b c.
Proof.
  intros dbg E m ac tps n has t1 t2 o S h s c H1 H2 from to p Hs Hc.
  pose proof (copy_safe dbg E m ac tps from to has o n [] from to (stable_native t1 H1) (stable_native t2 H2) (with_self _ _)) as K.
  assert (Ep : wcopy dbg E m ac tps n has (wpath from) (wpath to) o = p).
  { unfold p, from, to, wpath. rewrite !split_native. reflexivity. }
  rewrite Ep in K. destruct (safe_run _ _ _ _ h p s [] _ K Hs) as [_ Q].
  unfold made in Hc. apply filter_In in Hc. destruct Hc as [Hc Hch]. destruct (wevents_calls _ _ h p s c Hc) as (l1 & r & l2 & El). exact (Q l1 c r l2 El Hch).
Qed.

(** Success is not reported if a change was refused. *)
Theorem C83_reports : forall dbg E m ac tps n has t1 t2 o S (h : wkernel S) s, t1 <> [] -> t2 <> [] ->
  let p := wcopy dbg E m ac tps n has (wpath t1) (wpath t2) o in
  Forall sane (wevents h p s) -> fst (wrun h p s) = WE (WRet tt 0) -> Forall (fun e => ~ refused e) (wevents h p s).
Proof.
  intros dbg E m ac tps n has t1 t2 o S h s H1 H2 p Hs Hr. set (from := native (wpath t1)). set (to := native (wpath t2)).
  pose proof (copy_safe dbg E m ac tps from to has o n [] from to (stable_native t1 H1) (stable_native t2 H2) (with_self _ _)) as K.
  assert (Ep : wcopy dbg E m ac tps n has (wpath from) (wpath to) o = p).
  { unfold p, from, to, wpath. rewrite !split_native. reflexivity. }
  rewrite Ep in K. destruct (safe_run _ _ _ _ h p s [] _ K Hs) as [Q _]. specialize (Q tt 0 Hr eq_refl). destruct Q as (d & Hd & Hf). cbn [app] in Hd. rewrite Hd. exact Hf.
Qed.

Lemma goes_symlink_status : forall S (h : wkernel S) ans s A dbg p (f : wstatus -> N -> wprog A) st e, steady h ans ->
  wsymlink_status_impl dbg true (ans (w_Info (native p))) = WRet st e -> goes h s (wbind (wsymlink_status_of dbg true p) f) (f st e).
Proof.
  intros S h ans s A dbg p f st e Hs H. unfold wsymlink_status_of. cbn [wbind]. unfold goes. pose proof (steady_run A S h ans (w_Info (native p))
    (fun r => wbind (WEnd (WE (wsymlink_status_impl dbg true r))) f) s Hs eq_refl) as K. cbv beta in K. rewrite H in K. exact K.
Qed.

Lemma goes_shows : forall S (h : wkernel S) ans s A dbg (link : bool) p (f : wstatus -> N -> wprog A) st e, steady h ans ->
  (if link then wsymlink_status_impl else wstatus_impl) dbg true (ans (w_Info (native p))) = WRet st e ->
  goes h s (wbind (if link then wsymlink_status_of dbg true p else wstatus_of dbg true p) f) (f st e).
Proof. intros S h ans s A dbg [] p f st e Hs H; [apply (goes_symlink_status S h ans); assumption|apply (goes_status h ans Hs); exact H]. Qed.

(** The source cannot be looked at: its code is told and nothing was changed. *)
Theorem C83_source : forall dbg E m ac tps n has from to o S (h : wkernel S) ans s f code, steady h ans ->
  shows dbg (from_link o) ans from f code -> code <> 0 ->
  made h (wcopy dbg E m ac tps (Datatypes.S n) has from to o) s = [] /\ wrun h (wcopy dbg E m ac tps (Datatypes.S n) has from to o) s = (told has tt code, s).
Proof.
  intros dbg E m ac tps n has from to o S h ans s f code Hs (t & prms & Ht & _) Hc. cbn [wcopy]. cbv zeta.
  destruct (set_bits o) as (B3 & B4 & B5 & B6 & B7 & B8). rewrite B4, B5, B7. fold (from_link o).
  match goal with |- made h (wbind ?p ?f) s = _ /\ _ => destruct (goes_shows S h ans s unit dbg (from_link o) from f (t, prms) code Hs Ht) as [-> ->] end.
  apply N.eqb_neq in Hc. rewrite Hc. cbn [negb]. unfold wbad, wreport, told. destruct has; split; reflexivity.
Qed.

(** The same for a target that cannot be looked at. *)
Theorem C83_target : forall dbg E m ac tps n has from to o S (h : wkernel S) ans s f code, steady h ans ->
  shows dbg (from_link o) ans from f 0 -> shows dbg (to_link o) ans to Unclear code ->
  made h (wcopy dbg E m ac tps (Datatypes.S n) has from to o) s = [] /\ wrun h (wcopy dbg E m ac tps (Datatypes.S n) has from to o) s = (told has tt code, s).
Proof.
  intros dbg E m ac tps n has from to o S h ans s f code Hs (t & prms & Ht & _) (t2 & prms2 & Ht2 & ->). cbn [wcopy]. cbv zeta.
  destruct (set_bits o) as (B3 & B4 & B5 & B6 & B7 & B8). rewrite B4, B5, B7. fold (from_link o) (to_link o).
  match goal with |- made h (wbind ?p ?f) s = _ /\ _ => destruct (goes_shows S h ans s unit dbg (from_link o) from f (t, prms) 0 Hs Ht) as [-> ->] end.
  change (negb (0 =? 0)) with false. cbv iota.
  match goal with |- made h (wbind ?p ?f) s = _ /\ _ => destruct (goes_shows S h ans s unit dbg (to_link o) to f (WT ft_none, prms2) code Hs Ht2) as [-> ->] end.
  change (wknown (WT ft_none, prms2)) with false. cbn [negb]. unfold wbad, wreport, told. destruct has; split; reflexivity.
Qed.

Lemma goes_does : forall S (h : wkernel S) (p q : wprog unit) A (r : wprog A) s, goes h s p q -> does_as h q r s -> does_as h p r s.
Proof. intros S h p q A r s [H1 H2] (K1 & K2 & K3). unfold does_as. rewrite H1, H2. auto. Qed.

Lemma does_self : forall S (h : wkernel S) (p : wprog unit) s, does_as h p p s.
Proof. intros S h p s. split; [reflexivity|]. split; [|reflexivity]. destruct (fst (wrun h p s)) as [[[] e|c|]| | |]; reflexivity. Qed.

Lemma does_drop : forall S (h : wkernel S) A (p : wprog A) s, does_as h (wbind p (fun _ e => wret tt e)) p s.
Proof.
  intros S h A p. induction p as [[[a e|c|]| | |]|c k IH]; intros s; try (split; [reflexivity|split; reflexivity]).
  cbn [wbind]. unfold does_as, made. cbn [wcalls wrun]. destruct (h c s) as [r s'] eqn:Eh. destruct (IH r s') as (K1 & K2 & K3). unfold made in K1.
  split; [|auto]. cbn [filter]. destruct (changes c); [f_equal|]; exact K1.
Qed.

Lemma just_one : forall S (h : wkernel S) has p c ask s, changes c = true -> WinLinksProps.just h has p c ask -> one_call h p s has c ask.
Proof.
  intros S h has p c ask s Hc H r s' Hr. destruct (H s r s' Hr) as (K1 & K2 & K3). split; [|auto]. unfold made. rewrite K1. cbn [filter]. rewrite Hc. reflexivity.
Qed.

Lemma goes_one : forall S (h : wkernel S) p q s has c ask, goes h s p q -> one_call h q s has c ask -> one_call h p s has c ask.
Proof. intros S h p q s has c ask [H1 H2] H r s' Hr. rewrite H1, H2. apply H. exact Hr. Qed.

(** What comes after the questions. *)
Lemma copy_goes : forall dbg E m ac tps n has from to o S (h : wkernel S) ans s f t code i j, steady h ans ->
  let p := wcopy dbg E m ac tps (Datatypes.S n) has from to o in
  shows dbg (from_link o) ans from f 0 -> shows dbg (to_link o) ans to t code -> t <> Unclear ->
  (there f = true -> there t = true -> ans (w_FileInfo (native from)) = inr i /\ ans (w_FileInfo (native to)) = inr j) ->
  let same := there f && there t && same_object i j in
  goes h s p
    (if negb (there f) || match f with AnOther => true | _ => false end || match t with AnOther => true | _ => false end || match f, t with ADirectory, AFile => true | _, _ => false end
     then wbad has tt 40
     else if same then wbad has tt 40
     else match f with
          | ALink => if N.testbit o 5 then wret tt 0 else if negb (there t) then wcopy_symlink dbg has from to else wbad has tt 17
          | AFile => if N.testbit o 6 then wret tt 0 else if N.testbit o 7 then wcreate_symlink dbg has from to
                     else if N.testbit o 8 then wcreate_hard_link dbg has from to
                     else match t with
                          | ADirectory => wlift (filename Windows from) (fun fn => wlift (path_div Windows E to fn) (fun to2 => wbind (wcopy_file dbg m tps has from to2 o) (fun _ e => wret tt e)))
                          | _ => wbind (wcopy_file dbg m tps has from to o) (fun _ e => wret tt e)
                          end
          | _ => if N.testbit o 7 then wbad has tt 21 else if N.testbit o 3 || (o =? 0) then p else wret tt 0
          end) \/ table o f t same = CopyTree.
Proof.
  intros dbg E m ac tps n has from to o S h ans s f t code i j Hs p Hf Ht Hu Hi same.
  destruct Hf as (ty1 & pr1 & F & Ff). destruct Ht as (ty2 & pr2 & T & Tt).
  destruct (set_bits o) as (B3 & B4 & B5 & B6 & B7 & B8).
  destruct (match table o f t same with CopyTree => true | _ => false end) eqn:Etree; [right; destruct (table o f t same); congruence|left].
  assert (Hnt : table o f t same <> CopyTree) by (intros K; rewrite K in Etree; discriminate). clear Etree.
  remember (if negb (there f) || _ || _ || _ then _ else _) as R eqn:ER.
  unfold p at 1. cbn [wcopy]. cbv zeta. rewrite B4, B5, B7. fold (from_link o) (to_link o).
  eapply goes_trans; [apply (goes_shows S h ans s unit dbg (from_link o) from _ (ty1, pr1) 0 Hs F)|]. cbv beta. change (negb (0 =? 0)) with false. cbv iota.
  eapply goes_trans; [apply (goes_shows S h ans s unit dbg (to_link o) to _ (ty2, pr2) code Hs T)|]. cbv beta.
  assert (W2 : wknown (ty2, pr2) = true).
  { unfold wknown. cbn [fst]. destruct t; try congruence; try (subst ty2; reflexivity). destruct ty2 as [[]|]; try reflexivity. exfalso. apply Tt. cbn. auto. }
  rewrite W2. cbn [negb].
  assert (X1 : wexists ty1 = there f).
  { destruct f; try (subst ty1; reflexivity). destruct ty1 as [[]|]; try reflexivity; exfalso; apply Ff; cbn; auto. }
  assert (X2 : wexists ty2 = there t).
  { destruct t; try (subst ty2; reflexivity). destruct ty2 as [[]|]; try reflexivity; exfalso; apply Tt; cbn; auto. }
  assert (O1 : wis_other (ty1, pr1) = match f with AnOther => true | _ => false end).
  { destruct f; try (subst ty1; reflexivity). destruct ty1 as [[]|]; try reflexivity; exfalso; apply Ff; cbn; auto 6. }
  assert (O2 : wis_other (ty2, pr2) = match t with AnOther => true | _ => false end).
  { destruct t; try (subst ty2; reflexivity). destruct ty2 as [[]|]; try reflexivity; exfalso; apply Tt; cbn; auto 6. }
  assert (D1 : wis ft_directory (ty1, pr1) = match f with ADirectory => true | _ => false end).
  { destruct f; try (subst ty1; reflexivity). destruct ty1 as [[]|]; try reflexivity; exfalso; apply Ff; cbn; auto 6. }
  assert (D2 : wis ft_directory (ty2, pr2) = match t with ADirectory => true | _ => false end).
  { destruct t; try (subst ty2; reflexivity). destruct ty2 as [[]|]; try reflexivity; exfalso; apply Tt; cbn; auto 6. }
  assert (R1 : wis ft_regular (ty1, pr1) = match f with AFile => true | _ => false end).
  { destruct f; try (subst ty1; reflexivity). destruct ty1 as [[]|]; try reflexivity; exfalso; apply Ff; cbn; auto 6. }
  assert (R2 : wis ft_regular (ty2, pr2) = match t with AFile => true | _ => false end).
  { destruct t; try (subst ty2; reflexivity). destruct ty2 as [[]|]; try reflexivity; exfalso; apply Tt; cbn; auto 6. }
  assert (L1 : wis ft_symlink (ty1, pr1) = match f with ALink => true | _ => false end).
  { destruct f; try (subst ty1; reflexivity). destruct ty1 as [[]|]; try reflexivity; exfalso; apply Ff; cbn; auto 6. }
  cbn [fst]. rewrite X1, X2, O1, O2, D1, D2, R1, R2, L1. subst R.
  replace (match f with ADirectory => true | _ => false end && match t with AFile => true | _ => false end) with (match f, t with ADirectory, AFile => true | _, _ => false end) by (destruct f, t; reflexivity).
  destruct (negb (there f) || match f with AnOther => true | _ => false end || match t with AnOther => true | _ => false end || match f, t with ADirectory, AFile => true | _, _ => false end) eqn:Ebad; [split; reflexivity|].
  assert (Hsame : forall g : bool -> N -> wprog unit, goes h s (wbind (if there f && there t then wequivalent dbg true from to else wret false 0) g) (g same 0)).
  { intros g. unfold same. destruct (there f) eqn:T1, (there t) eqn:T2; cbn [andb]; try (split; reflexivity).
    destruct (Hi eq_refl eq_refl) as [I J]. apply (goes_equivalent h ans Hs s unit dbg from to g i j I J). }
  eapply goes_trans; [apply Hsame|]. cbv beta. change (negb (0 =? 0)) with false. cbv iota. destruct same eqn:Esame; [split; reflexivity|].
  rewrite B6, B8, B3. destruct f; cbn [there negb orb] in Ebad; try discriminate Ebad; cbn [andb]; try (split; reflexivity).
  - destruct t; split; reflexivity.
  - destruct (N.testbit o 7) eqn:E7; [split; reflexivity|]. destruct (N.testbit o 3 || (o =? 0)) eqn:E3; [|split; reflexivity].
    exfalso. apply Hnt. unfold table. rewrite E7, E3. destruct t; try discriminate Ebad; reflexivity.
Qed.

(** The system answers the same questions the same way: the table is followed, but for links with create_symlinks only, and trees (C84). *)
Theorem C83_table_partial : forall dbg E m ac tps n has t1 t2 o S (h : wkernel S) ans s f t code i j, steady h ans -> t2 <> [] ->
  let from := wpath t1 in let to := wpath t2 in let p := wcopy dbg E m ac tps (Datatypes.S n) has from to o in
  shows dbg (from_link o) ans from f 0 -> shows dbg (to_link o) ans to t code -> t <> Unclear ->
  (there f = true -> there t = true -> ans (w_FileInfo (native from)) = inr i /\ ans (w_FileInfo (native to)) = inr j) ->
  (f = ALink -> N.testbit o 4 = true \/ N.testbit o 5 = true) ->
  match table o f t (there f && there t && same_object i j) with
  | Refuse c => made h p s = [] /\ wrun h p s = (told has tt c, s)
  | Leave => made h p s = [] /\ wrun h p s = (WE (WRet tt 0), s)
  | CopyLink => does_as h p (wcopy_symlink dbg has from to) s
  | MakeLink => one_call h p s has (w_CreateSymbolicLink (native to) (native from) false) (h (w_CreateSymbolicLink (native to) (native from) false))
  | MakeHardLink => one_call h p s has (w_CreateHardLink (native to) (native from)) (h (w_CreateHardLink (native to) (native from)))
  | CopyInto => exists name, named (native from) name /\ does_as h p (wcopy_file dbg m tps has from (wpath (entry_text (native to) name)) o) s
  | CopyTo => does_as h p (wcopy_file dbg m tps has from to o) s
  | CopyTree => True
  end.
Proof.
  intros dbg E m ac tps n has t1 t2 o S h ans s f t code i j Hs Ht2 from to p Hf Ht Hu Hi Hl.
  assert (Hbad : forall c q, goes h s q (wbad has tt c) -> made h q s = [] /\ wrun h q s = (told has tt c, s)).
  { intros c q [-> ->]. unfold wbad, wreport, told. destruct has; split; reflexivity. }
  assert (Hret : forall q, goes h s q (wret tt 0) -> made h q s = [] /\ wrun h q s = (WE (WRet tt 0), s)) by (intros q [-> ->]; split; reflexivity).
  set (same := there f && there t && same_object i j).
  pose proof (copy_goes dbg E m ac tps n has from to o S h ans s f t code i j Hs Hf Ht Hu Hi) as Hgo. cbv zeta in Hgo. fold same in Hgo. fold p in Hgo.
  clearbody same.
  destruct Hgo as [Hgo|Hgo]; [|rewrite Hgo; exact Logic.I].
  unfold table in *. destruct f; cbn [there negb orb] in Hgo; try (apply Hbad; exact Hgo).
  - (* a file *)
    destruct t; cbn [orb] in Hgo; try (apply Hbad; exact Hgo); (destruct same; [apply Hbad; exact Hgo|]); (destruct (N.testbit o 6); [apply Hret; exact Hgo|]);
      (destruct (N.testbit o 7); [eapply goes_one; [exact Hgo|]; apply just_one; [reflexivity|apply WinLinksProps.C80_create_symlink]|]);
      (destruct (N.testbit o 8); [eapply goes_one; [exact Hgo|]; apply just_one; [reflexivity|apply WinLinksProps.C80_create_hard_link]|]); try (eapply goes_does; [exact Hgo|apply does_drop]).
    destruct (WinAppend.C75_filename t1) as (fn & Hfn & _).
    exists (native fn). split; [|].
    + exists fn. split; [|reflexivity]. unfold from, wpath. rewrite split_native. exact Hfn.
    + unfold from at 1, wpath at 1 in Hgo. rewrite Hfn in Hgo. cbn [wlift] in Hgo. destruct (filename_bare t1 fn Hfn) as [Hc Hty].
      pose proof (div_bare E (native to) fn (stable_native t2 Ht2) Hc Hty) as Hdiv. unfold to at 1, wpath in Hdiv. rewrite split_native in Hdiv. fold (wpath t2) in Hdiv. fold to in Hdiv. rewrite Hdiv in Hgo. cbn [wlift] in Hgo.
      eapply goes_does; [exact Hgo|apply does_drop].
  - (* a directory *)
    destruct t; cbn [orb] in Hgo; try (apply Hbad; exact Hgo); (destruct same; [apply Hbad; exact Hgo|]); (destruct (N.testbit o 7); [apply Hbad; exact Hgo|]);
      (destruct (N.testbit o 3 || (o =? 0)); [exact Logic.I|apply Hret; exact Hgo]).
  - (* a link *)
    specialize (Hl eq_refl).
    destruct t; cbn [orb there negb andb] in *; try (apply Hbad; exact Hgo); (destruct same; [apply Hbad; exact Hgo|]); (destruct (N.testbit o 5); [apply Hret; exact Hgo|]); try (apply Hbad; exact Hgo);
      destruct Hl as [-> |Hl]; try discriminate Hl; (eapply goes_does; [exact Hgo|apply does_self]).
Qed.

(** Refuted for a link with create_symlinks alone: that is no request to copy links, but the link is copied. *)
Theorem C83_create_symlinks_refuted : forall dbg E m ac tps n has from to o S (h : wkernel S) ans s code, steady h ans ->
  N.testbit o 7 = true -> N.testbit o 4 = false -> N.testbit o 5 = false ->
  shows dbg true ans from ALink 0 -> shows dbg true ans to Absent code ->
  does_as h (wcopy dbg E m ac tps (Datatypes.S n) has from to o) (wcopy_symlink dbg has from to) s.
Proof.
  intros dbg E m ac tps n has from to o S h ans s code Hs H7 H4 H5 Hf Ht.
  assert (Lf : from_link o = true) by (unfold from_link; rewrite H7; reflexivity). assert (Lt : to_link o = true) by (unfold to_link; rewrite H7; reflexivity).
  rewrite <- Lf in Hf. rewrite <- Lt in Ht.
  pose proof (copy_goes dbg E m ac tps n has from to o S h ans s ALink Absent code (HInfo 0 0 0 0 0) (HInfo 0 0 0 0 0) Hs Hf Ht) as K. cbv zeta in K. cbn [there negb orb andb] in K.
  rewrite H5 in K. destruct K as [K|K]; [discriminate|discriminate| |].
  - eapply goes_does; [exact K|apply does_self].
  - cbn [table there negb andb] in K. rewrite H5, H4 in K. discriminate.
Qed.

(** ** Examples *)

(** A link "C:\l" to "C:\t", a file "C:\f", directories "C:\d" and "C:\", and a pipe that is busy; nothing else. Everything asked for is done. *)
Definition corner_ans : forall c, wanswer c := fun c =>
  let info attr tag := WInfo (inr attr) (inr tt) (inr attr) (inr tt) (inr tag) (Security (inr tt) false (fun _ => inr 1179785)) in
  match c return wanswer c with
  | w_Info q =>
      if str_eqb q (lit "C:\l") then info 1056 2684354572
      else if str_eqb q (lit "C:\f") || str_eqb q (lit "C:\t") then info 32 0
      else if str_eqb q (lit "C:\d") || str_eqb q (lit "C:\") then info 16 0
      else if str_eqb q (lit "\\.\pipe\p") then WInfo (inl 32) (inl 32) (inl 32) (inl 32) (inl 32) (Security (inl 32) false (fun _ => inr 0))
      else WInfo (inl 2) (inl 2) (inl 2) (inl 2) (inl 2) (Security (inl 2) false (fun _ => inr 0))
  | w_FileInfo q => inr (HInfo 1 (N.of_nat (length q) + match q with _ :: _ :: _ :: c :: _ => N_of_ascii c | _ => 0 end) 3 132500000001000000 1)
  | w_WriteTime q => inr 132500000001000000
  | w_Reparse q => inr (Reparse 2684354572 0 8 0 8 ([0; 0] ++ map N_of_ascii (lit "C:\t")))
  | w_TempPath => (0, 2, [])
  | w_Find _ => (inl 2, 2)
  | w_AttributesEx _ | w_Attributes _ | w_CurrentDirectory | w_DiskFreeSpace _ => inl 2
  | _ => inr tt
  end.
Definition corner : wkernel unit := fun c s => (corner_ans c, s).

Example C83_table_example :
  let p := wpath in let go := fun has a b o => wcopy true (Elision true true true) Strict (fun e => e) 10000000 5 has (p a) (p b) o in
  steady corner corner_ans /\ shows true true corner_ans (p (lit "C:\l")) ALink 0 /\ shows true false corner_ans (p (lit "C:\f")) AFile 0 /\
  shows true false corner_ans (p (lit "C:\d")) ADirectory 0 /\ shows true false corner_ans (p (lit "C:\n")) Absent 2 /\
  made corner (go true (lit "C:\l") (lit "C:\n") 16) tt = [w_CreateSymbolicLink (lit "C:\n") (lit "C:\t") false] /\
  made corner (go true (lit "C:\l") (lit "C:\n") 32) tt = [] /\
  wrun corner (go true (lit "C:\l") (lit "C:\f") 16) tt = (WE (WRet tt 17), tt) /\
  made corner (go true (lit "C:\f") (lit "C:\n") 128) tt = [w_CreateSymbolicLink (lit "C:\n") (lit "C:\f") false] /\
  made corner (go true (lit "C:\f") (lit "C:\n") 256) tt = [w_CreateHardLink (lit "C:\n") (lit "C:\f")] /\
  made corner (go true (lit "C:\f") (lit "C:\d") 0) tt = [w_CopyFile (lit "C:\f") (lit "C:\d\f") false] /\
  made corner (go true (lit "C:\f") (lit "C:\n") 0) tt = [w_CopyFile (lit "C:\f") (lit "C:\n") false] /\
  made corner (go true (lit "C:\f") (lit "C:\n") 64) tt = [] /\
  wrun corner (go false (lit "C:\f") (lit "C:\f") 0) tt = (WE (WThrow 40), tt) /\
  wrun corner (go false (lit "C:\d") (lit "C:\f") 8) tt = (WE (WThrow 40), tt) /\
  wrun corner (go true (lit "C:\d") (lit "C:\n") 128) tt = (WE (WRet tt 21), tt) /\
  wrun corner (go true (lit "C:\d") (lit "C:\n") 1) tt = (WE (WRet tt 0), tt) /\
  wrun corner (go true (lit "C:\n") (lit "C:\f") 0) tt = (WE (WRet tt 2), tt) /\
  wrun corner (go true (lit "\\.\pipe\p") (lit "C:\n") 0) tt = (WE (WRet tt 32), tt) /\
  (* create_symlinks alone *)
  made corner (go true (lit "C:\l") (lit "C:\n") 128) tt = [w_CreateSymbolicLink (lit "C:\n") (lit "C:\t") false].
Proof.
  cbv zeta. repeat apply conj; try (vm_compute; reflexivity); eexists _, _; (split; [vm_compute; reflexivity|reflexivity]).
Qed.

Example C83_only_below_example :
  let p := wcopy true (Elision true true true) Strict (fun e => e) 10000000 5 true (wpath (lit "C:\f")) (wpath (lit "C:\d")) 0 in
  Forall sane (wevents corner p tt) /\ In (w_CopyFile (lit "C:\f") (lit "C:\d\f") false) (made corner p tt) /\ fst (wrun corner p tt) = WE (WRet tt 0).
Proof.
  cbv zeta. split; [|split; [vm_compute; auto|vm_compute; reflexivity]].
  match goal with |- Forall _ ?l => let l' := eval vm_compute in l in replace l with l' by (vm_compute; reflexivity) end.
  repeat (apply Forall_cons; [split; cbn [proper_listing]; try exact Logic.I; try discriminate|]). apply Forall_nil.
Qed.

(** * C84 *)

(** On a disk without links a directory is copied with everything in it to a place that is new, or a directory that is empty. With
    directories_only only the directories are. Nothing else is changed; in particular the source is not. *)
Theorem C84_tree_partial : forall dbg E m ac tps n has t1 t2 o S C (h : wkernel S) (view : S -> str -> option (item C)) s, disk h view -> ac 18 = 18 -> t1 <> [] -> t2 <> [] ->
  o = 0 \/ N.testbit o 3 = true -> N.testbit o 7 = false -> N.testbit o 8 = false ->
  let a := native (wpath t1) in let b := native (wpath t2) in
  view s a = Some Folder -> whole (view s) a -> vacant (view s) b -> apart a b -> fresh (view s) b \/ view s b = Some Folder ->
  (forall ns, Forall entry_name ns -> view s (place a ns) <> None -> (length ns < n)%nat) ->
  exists s', wrun h (wcopy dbg E m ac tps n has (wpath t1) (wpath t2) o) s = (WE (WRet tt 0), s') /\
    (forall ns, Forall entry_name ns -> view s' (place b ns) = copied o (view s (place a ns))) /\
    (forall t, ~ below b t -> view s' t = view s t) /\
    (forall ns, Forall entry_name ns -> view s' (place a ns) = view s (place a ns)).
Proof.
  intros dbg E m ac tps n has t1 t2 o S C h view s Hd Hac H1 H2 Hrec H7 H8 a b Hva Hw Hvac Hap Hto Hdepth.
  assert (Ep : wcopy dbg E m ac tps n has (wpath a) (wpath b) o = wcopy dbg E m ac tps n has (wpath t1) (wpath t2) o).
  { unfold a, b, wpath. rewrite !split_native. reflexivity. }
  destruct (copy_run dbg E m ac tps h view Hd Hac has o Hrec H7 H8 n a b s) as (s' & R & V1 & V2); try assumption.
  - apply stable_native. exact H1.
  - apply stable_native. exact H2.
  - rewrite Hva. discriminate.
  - destruct Hto as [Hto|Hto]; [left; exact Hto|right; split; [exact Hva|exact Hto]].
  - exists s'. rewrite <- Ep. split; [exact R|]. split; [exact V1|]. split; [exact V2|]. intros ns Hns. apply V2. intros K.
    apply WinRemoveTree.below_place in K. destruct K as (ms & Hms & K). exact (Hap ns ms Hns Hms K).
Qed.

(** Refuted for the options none, which do not ask for what is deeper in the directory: it is copied as well. *)
Theorem C84_none_refuted : forall dbg E m ac tps n has t1 t2 S C (h : wkernel S) (view : S -> str -> option (item C)) s, disk h view -> ac 18 = 18 -> t1 <> [] -> t2 <> [] ->
  let a := native (wpath t1) in let b := native (wpath t2) in
  view s a = Some Folder -> whole (view s) a -> vacant (view s) b -> apart a b -> fresh (view s) b ->
  (forall ns, Forall entry_name ns -> view s (place a ns) <> None -> (length ns < n)%nat) ->
  exists s', wrun h (wcopy dbg E m ac tps n has (wpath t1) (wpath t2) 0) s = (WE (WRet tt 0), s') /\
    forall d x c, entry_name d -> entry_name x -> view s (place a [d; x]) = Some (File c) -> view s' (place b [d; x]) = Some (File c).
Proof.
  intros dbg E m ac tps n has t1 t2 S C h view s Hd Hac H1 H2 a b Hva Hw Hvac Hap Hto Hdepth.
  destruct (C84_tree_partial dbg E m ac tps n has t1 t2 0 S C h view s Hd Hac H1 H2 (or_introl eq_refl) eq_refl eq_refl Hva Hw Hvac Hap (or_introl Hto) Hdepth) as (s' & R & V & _).
  exists s'. split; [exact R|]. intros d x c Hd' Hx Hv. specialize (V [d; x]). fold a b in V. rewrite V, Hv by exact (Forall_cons _ Hd' (Forall_cons _ Hx (Forall_nil _))). reflexivity.
Qed.

(** Refuted for a target in the directory itself: however many steps are allowed, the call does not come to an end. *)
Theorem C84_into_itself_refuted : forall dbg E m ac tps has o S C (h : wkernel S) (view : S -> str -> option (item C)), disk h view -> ac 18 = 18 ->
  o = 0 \/ N.testbit o 3 = true -> N.testbit o 7 = false ->
  forall n a x s, stable a -> entry_name x -> view s a = Some Folder -> vacant (view s) a ->
  fst (wrun h (wcopy dbg E m ac tps n has (wpath a) (wpath (entry_text a x)) o) s) = WFuel.
Proof.
  intros dbg E m ac tps has o S C h view Hd Hac Hrec Hsym n. induction n as [|n IH]; intros a x s Ha Hx Hva Hvac; [reflexivity|].
  assert (Hb : stable (entry_text a x)) by (apply stable_entry; [exact Ha|apply Hx]). set (b := entry_text a x) in *.
  destruct (set_bits o) as (B3 & B4 & B5 & B6 & B7 & B8). rewrite Hsym in B7.
  pose proof Ha as [Hane Hast]. pose proof Hb as [Hbne Hbst]. change (split_components Windows a) with (wpath a) in Hast. change (split_components Windows b) with (wpath b) in Hbst.
  cbn [wcopy]. cbv zeta. rewrite B7. cbn [orb].
  destruct (stat_run dbg h view Hd (wset co_skip_symlinks o || wset co_copy_symlinks o) a s Hast) as (st1 & e1 & R1 & K1). unfold status_of in R1.
  destruct (stat_run dbg h view Hd (wset co_skip_symlinks o) b s Hbst) as (st2 & e2 & R2 & K2). unfold status_of in R2.
  assert (Hvb : view s b = None) by exact (Hvac x [] (Forall_cons _ Hx (Forall_nil _))).
  rewrite Hva in K1. rewrite Hvb in K2. destruct K1 as [K1 ->].
  rewrite (WinRemoveTree.wrun_bind _ _ _ _ _ _ _ _ _ _ R1). change (negb (0 =? 0)) with false. cbv iota. rewrite (WinRemoveTree.wrun_bind _ _ _ _ _ _ _ _ _ _ R2).
  destruct st1 as [ty1 pr1], st2 as [ty2 pr2]. cbn [fst] in K1, K2. subst ty1 ty2.
  unfold wknown, wis_other, wis, wexists. cbn [fst wtype_is]. types. cbn [negb andb orb wbind wret]. change (negb (0 =? 0)) with false. cbv iota. rewrite B3.
  replace (N.testbit o 3 || (o =? 0)) with true by (destruct Hrec as [->| ->]; [rewrite orb_true_r|]; reflexivity).
  destruct (dk_create h view Hd s a a x Hx Hva Hva Hvb) as (s1 & Hc & Hc1 & Hc2). fold b in Hc, Hc1, Hc2.
  unfold wcreate_directory_like. rewrite Hast, Hbst. cbn [wbind wrun]. rewrite Hc. cbn [wbind wret wrun]. change (negb (0 =? 0)) with false. cbv iota. cbn [wrun].
  assert (Hab : a <> b).
  { intros K. assert (K' : WinRemoveTree.place a [x] = WinRemoveTree.place a []) by (symmetry; exact K). apply WinRemoveTree.place_inj in K'; [discriminate|exact Hane|exact (Forall_cons _ Hx (Forall_nil _))|constructor]. }
  assert (Hva1 : view s1 a = Some Folder) by (rewrite Hc2; [exact Hva|exact Hab]).
  destruct (dk_find h view Hd s1 a Hva1) as (d & l & Hf & Hnd & Hlist). rewrite Hf.
  destruct (C64_iterates 18 ac (Datatypes.S (listing_bound (inr (d, l)))) false d l) as (es & Hes & Hnames); [cbn; lia|exact Hac|discriminate|].
  unfold wlisting. cbn [fst snd]. change (18 =? 18) with true in Hes. cbv iota in Hes.
  destruct (wstream_open 18 ac false (inr (d, l))) as [st ec] eqn:Eo.
  assert (Hec : ec = 0).
  { unfold wdirectory in Hes. rewrite Eo in Hes. destruct (N.eqb_spec ec 0) as [K|K]; [exact K|]. injection Hes as _ K2'. congruence. }
  subst ec. change (negb (0 =? 0)) with false. cbv iota. rewrite Hes.
  assert (Hall : forall y, In y (map we_name es) <-> y = x).
  { intros y. rewrite Hnames, Hlist. split.
    - intros [Hy Hv]. destruct (list_eq_dec ascii_dec y x) as [|Hne]; [assumption|]. exfalso. apply Hv. rewrite Hc2.
      + exact (Hvac y [] (Forall_cons _ Hy (Forall_nil _))).
      + intros K. assert (K' : WinRemoveTree.place a [y] = WinRemoveTree.place a [x]) by exact K. apply WinRemoveTree.place_inj in K'; [congruence|exact Hane|exact (Forall_cons _ Hy (Forall_nil _))|exact (Forall_cons _ Hx (Forall_nil _))].
    - intros ->. split; [exact Hx|]. fold b. rewrite Hc1. discriminate. }
  rewrite <- Hnames in Hnd. destruct es as [|e [|e' es]].
  - exfalso. apply (proj2 (Hall x) eq_refl).
  - cbn [map In] in Hall. assert (Ex : we_name e = x) by (apply Hall; left; reflexivity).
    pose proof (proj1 Hx) as Hxp.
    cbn [wcopy_entries]. rewrite Ex. change (path_div Windows E (wpath a) (wpath x)) with (path_div Windows E (split_components Windows a) (split_components Windows x)). rewrite div_name by assumption. cbn [wlift]. fold b. change (split_components Windows b) with (wpath b).
    pose proof (entry_filename a x Ha Hxp) as Hfn. fold b in Hfn. rewrite Hfn. cbn [wlift].
    change (path_div Windows E (wpath b) (split_components Windows x)) with (path_div Windows E (split_components Windows b) (split_components Windows x)). rewrite div_name by assumption. cbn [wlift].
    change (split_components Windows (entry_text b x)) with (wpath (entry_text b x)).
    assert (Hfuel : forall A B (p : wprog A) (f : A -> N -> wprog B) z, fst (wrun h p z) = WFuel -> fst (wrun h (wbind p f) z) = WFuel).
    { intros A B p f. induction p as [[[u e0|c0|]| | |]|c0 k0 IHp]; intros z Hz; cbn [wrun fst] in Hz; try discriminate; [reflexivity|].
      cbn [wbind wrun] in *. destruct (h c0 z) as [r z']. apply IHp. exact Hz. }
    apply Hfuel. apply (IH b x s1); [exact Hb|exact Hx|exact Hc1|]. intros y ns Hf'. rewrite Hc2.
    + exact (Hvac x (y :: ns) (Forall_cons _ Hx Hf')).
    + intros K. apply (WinRemoveTree.place_inj b (y :: ns) []) in K; [discriminate|exact Hbne|exact Hf'|constructor].
  - exfalso. cbn [map] in Hnd. inversion Hnd as [|? ? Hn1 Hn2]; subst. apply Hn1. cbn [map In]. left.
    assert (K1' : we_name e = x) by (apply Hall; cbn; auto). assert (K2' : we_name e' = x) by (apply Hall; cbn; auto). congruence.
Qed.

(** ** A disk *)

(** The things on it, the latest first. *)
Definition things := list (str * item N).
Definition at_text (v : things) (q : str) : option (item N) := match find (fun x => str_eqb (fst x) q) v with Some x => Some (snd x) | None => None end.
Definition names_in (v : things) (q : str) : list str :=
  nodup (list_eq_dec ascii_dec) (flat_map (fun x => match WinRemoveTree.strip (entry_text q []) (fst x) with
                                                    | Some n => if WinRemoveTree.name_ok n then [n] else []
                                                    | None => []
                                                    end) v).
(** A number for each text. *)
Fixpoint code_of (q : str) : N := match q with [] => 0 | c :: r => 1 + N_of_ascii c + 257 * code_of r end.

Definition store : wkernel things := fun c =>
  match c return things -> wanswer c * things with
  | w_Info q => fun v =>
      (match at_text v q with
       | Some x => WInfo (inr (match x with Folder => 16 | File _ => 32 end)) (inl 2) (inl 2) (inl 2) (inl 2) (Security (inr tt) false (fun _ => inr 1179785))
       | None => WInfo (inl 2) (inl 2) (inl 2) (inl 2) (inl 2) (Security (inl 2) false (fun _ => inr 0))
       end, v)
  | w_FileInfo q => fun v => (match at_text v q with Some _ => inr (HInfo 1 (code_of q) 0 0 1) | None => inl 2 end, v)
  | w_Find q => fun v =>
      (match at_text v q with
       | Some Folder => (inr (FindData (lit ".") 16 0, FindData (lit "..") 16 0 :: map (fun n => FindData n 0 0) (names_in v q)), 18)
       | Some (File _) => (inl 267, 267)
       | None => (inl 2, 2)
       end, v)
  | w_CreateDirectoryEx _ q => fun v => match at_text v q with None => (inr tt, (q, Folder) :: v) | Some _ => (inl 183, v) end
  | w_CopyFile p q _ => fun v =>
      match at_text v p, at_text v q with
      | Some (File c), (None | Some (File _)) => (inr tt, (q, File c) :: v)
      | _, _ => (inl 5, v)
      end
  | w_TempPath => fun v => ((0, 2, []), v)
  | w_AttributesEx _ | w_Attributes _ | w_Reparse _ | w_WriteTime _ | w_CurrentDirectory | w_DiskFreeSpace _ | _ => fun v => (inl 2, v)
  end.

Lemma at_text_in : forall v q, at_text v q <> None <-> In q (map fst v).
Proof.
  intros v q. unfold at_text. destruct (find _ v) as [x|] eqn:Ef.
  - apply find_some in Ef. destruct Ef as [Hi He]. apply str_eqb_spec in He. split; [intros _|discriminate]. rewrite <- He. apply in_map. exact Hi.
  - split; [intros K; contradiction|]. intros K. apply in_map_iff in K. destruct K as (x & <- & Hi). pose proof (find_none _ _ Ef x Hi) as K. cbn in K.
    assert (K2 : str_eqb (fst x) (fst x) = true) by (apply str_eqb_spec; reflexivity). congruence.
Qed.

Lemma names_in_spec : forall v q n, In n (names_in v q) <-> entry_name n /\ at_text v (entry_text q n) <> None.
Proof.
  intros v q n. unfold names_in. rewrite nodup_In, in_flat_map, at_text_in. split.
  - intros (x & Hx & Hn). destruct (WinRemoveTree.strip (entry_text q []) (fst x)) as [n'|] eqn:Es; [|destruct Hn]. destruct (WinRemoveTree.name_ok n') eqn:En; [|destruct Hn].
    destruct Hn as [<-|[]]. apply WinRemoveTree.strip_spec in Es. apply WinRemoveTree.name_ok_spec in En. split; [exact En|]. rewrite WinRemoveTree.entry_split, <- Es. apply in_map. exact Hx.
  - intros [Hn Hi]. apply in_map_iff in Hi. destruct Hi as (x & Hx & Hi). exists x. split; [exact Hi|].
    assert (Es : WinRemoveTree.strip (entry_text q []) (fst x) = Some n) by (apply WinRemoveTree.strip_spec; rewrite Hx; apply WinRemoveTree.entry_split). rewrite Es.
    apply WinRemoveTree.name_ok_spec in Hn. rewrite Hn. left. reflexivity.
Qed.

Lemma code_of_inj : forall p q, code_of p = code_of q -> p = q.
Proof.
  assert (Hb : forall c, N_of_ascii c < 256) by apply N_ascii_bounded.
  induction p as [|c p IH]; intros [|d q] H; cbn [code_of] in H; try lia; [reflexivity|].
  pose proof (Hb c) as Bc. pose proof (Hb d) as Bd. assert (H1 : N_of_ascii c = N_of_ascii d) by lia. assert (H2 : code_of p = code_of q) by lia.
  f_equal; [|apply IH; exact H2]. rewrite <- (ascii_N_embedding c), <- (ascii_N_embedding d), H1. reflexivity.
Qed.

Lemma listed_names_in : forall v q, map fd_name (listed (FindData (lit ".") 16 0 :: FindData (lit "..") 16 0 :: map (fun n => FindData n 0 0) (names_in v q))) = names_in v q.
Proof.
  intros v q. assert (K : Forall entry_name (names_in v q)) by (apply Forall_forall; intros n Hn; apply names_in_spec in Hn; apply Hn).
  change (listed (FindData (lit ".") 16 0 :: FindData (lit "..") 16 0 :: map (fun n => FindData n 0 0) (names_in v q))) with (listed (map (fun n => FindData n 0 0) (names_in v q))).
  induction K as [|n l Hn K IH]; [reflexivity|]. cbn [map]. unfold listed in *. cbn [filter].
  replace (negb (dot_names (FindData n 0 0))) with true; [cbn [map fd_name]; f_equal; exact IH|].
  rewrite <- dots_spec. destruct Hn as (_ & H1 & H2). unfold is_dots. cbn [fd_name].
  destruct (str_eqb n (lit ".")) eqn:E1; [apply str_eqb_spec in E1; contradiction|].
  destruct (str_eqb n (lit "..")) eqn:E2; [apply str_eqb_spec in E2; contradiction|]. reflexivity.
Qed.

Lemma store_disk : disk store at_text.
Proof.
  assert (Hput : forall v q x t, at_text ((q, x) :: v) t = if str_eqb q t then Some x else at_text v t).
  { intros v q x t. unfold at_text. cbn [find fst]. destruct (str_eqb q t); reflexivity. }
  assert (Hnew : forall v q x, at_text ((q, x) :: v) q = Some x /\ forall t, t <> q -> at_text ((q, x) :: v) t = at_text v t).
  { intros v q x. split; [rewrite Hput; destruct (str_eqb q q) eqn:Eq; [reflexivity|]; assert (K : str_eqb q q = true) by (apply str_eqb_spec; reflexivity); congruence|].
    intros t Ht. rewrite Hput. destruct (str_eqb q t) eqn:Eq; [|reflexivity]. apply str_eqb_spec in Eq. congruence. }
  constructor.
  - intros v q. cbn [store]. destruct (at_text v q) as [x|]; eexists; (split; [reflexivity|]); [|reflexivity]. cbn [w_security w_attrs]. split.
    + split; [reflexivity|]. intros t _. exists 1179785. reflexivity.
    + exists (match x with Folder => 16 | File _ => 32 end). split; [reflexivity|]. destruct x; split; reflexivity.
  - intros v p q Hpq Hp Hq. cbn [store]. rewrite Hp, Hq. do 2 eexists. split; [reflexivity|]. split; [reflexivity|]. cbn [hi_index]. intros K. apply Hpq. apply code_of_inj. exact K.
  - intros v q Hq. cbn [store]. rewrite Hq. do 2 eexists. split; [reflexivity|]. rewrite listed_names_in. split; [apply NoDup_nodup|]. apply names_in_spec.
  - intros v tmpl q n Hn Hq Ht Hv. cbn [store]. rewrite Hv. eexists. split; [reflexivity|]. apply Hnew.
  - intros v p c q n Hn Hq Hp Hv. cbn [store]. rewrite Hp, Hv. eexists. split; [reflexivity|]. apply Hnew.
Qed.

Definition sample_things : things :=
  [(lit "C:\", Folder); (lit "C:\src", Folder); (lit "C:\src\sub", Folder); (lit "C:\src\sub\f", File 7); (lit "C:\src\g", File 9); (lit "C:\x", File 1)].

Lemma place_prefix : forall ns q, exists r, place q ns = q ++ r.
Proof.
  induction ns as [|n ns IH]; intros q; [exists []; symmetry; apply app_nil_r|]. destruct (IH (entry_text q n)) as (r & Hr). cbn [WinRemoveTree.place fold_left]. unfold WinRemoveTree.place in Hr. rewrite Hr.
  unfold entry_text. destruct (wends q || drive_only q); [exists (n ++ r); rewrite app_assoc; reflexivity|]. exists (backslash :: n ++ r). rewrite <- app_assoc. reflexivity.
Qed.

Lemma apart_prefix : forall a b, length a = length b -> a <> b -> apart a b.
Proof.
  intros a b Hl Hab ns ms _ _ K. destruct (place_prefix ns a) as (r & Hr). destruct (place_prefix ms b) as (r' & Hr'). rewrite Hr, Hr' in K. apply Hab.
  assert (F : forall c t : str, firstn (length c) (c ++ t) = c) by (intros c t; rewrite firstn_app, Nat.sub_diag, firstn_all, app_nil_r; reflexivity).
  rewrite <- (F a r), <- (F b r'), Hl, K. reflexivity.
Qed.

Lemma sample_src : forall ns, Forall entry_name ns -> at_text sample_things (place (lit "C:\src") ns) <> None ->
  ns = [] \/ ns = [lit "sub"] \/ ns = [lit "sub"; lit "f"] \/ ns = [lit "g"].
Proof.
  intros ns Hns Hv. apply at_text_in in Hv. destruct (place_prefix ns (lit "C:\src")) as (r & Hr).
  assert (Hi : forall ms, Forall entry_name ms -> place (lit "C:\src") ms = place (lit "C:\src") ns -> ns = ms).
  { intros ms Hms K. symmetry. apply (WinRemoveTree.place_inj (lit "C:\src")); [discriminate|assumption..]. }
  assert (Hok : forall ms, forallb WinRemoveTree.name_ok ms = true -> Forall entry_name ms).
  { intros ms K. apply Forall_forall. intros x Hx. apply WinRemoveTree.name_ok_spec. rewrite forallb_forall in K. apply K. exact Hx. }
  cbn [sample_things map fst In] in Hv. destruct Hv as [K|[K|[K|[K|[K|[K|[]]]]]]].
  - rewrite Hr in K. discriminate K.
  - left. apply Hi; [apply Hok; reflexivity|exact K].
  - right; left. apply Hi; [apply Hok; reflexivity|exact K].
  - right; right; left. apply Hi; [apply Hok; reflexivity|exact K].
  - right; right; right. apply Hi; [apply Hok; reflexivity|exact K].
  - rewrite Hr in K. discriminate K.
Qed.

(** The hypotheses of C84_tree_partial and C84_none_refuted hold for the directory "C:\src" and the new name "C:\dst". *)
Lemma sample_tree : let a := native (wpath (lit "C:\src")) in let b := native (wpath (lit "C:\dst")) in
  at_text sample_things a = Some Folder /\ whole (at_text sample_things) a /\ vacant (at_text sample_things) b /\ apart a b /\ fresh (at_text sample_things) b /\
  (forall ns, Forall entry_name ns -> at_text sample_things (place a ns) <> None -> (length ns < 3)%nat).
Proof.
  change (native (wpath (lit "C:\src"))) with (lit "C:\src"). change (native (wpath (lit "C:\dst"))) with (lit "C:\dst"). cbv zeta.
  split; [reflexivity|]. split; [|split; [|split; [|split]]].
  - intros ns n Hns Hv. destruct (sample_src _ Hns Hv) as [K|[K|[K|K]]].
    + destruct ns; discriminate K.
    + apply (app_inj_tail ns [] n (lit "sub")) in K. destruct K as [-> _]. reflexivity.
    + apply (app_inj_tail ns [lit "sub"] n (lit "f")) in K. destruct K as [-> _]. reflexivity.
    + apply (app_inj_tail ns [] n (lit "g")) in K. destruct K as [-> _]. reflexivity.
  - intros n ns _. destruct (at_text sample_things (place (lit "C:\dst") (n :: ns))) eqn:Ev; [|reflexivity]. exfalso.
    assert (K : at_text sample_things (place (lit "C:\dst") (n :: ns)) <> None) by (rewrite Ev; discriminate). apply at_text_in in K.
    destruct (place_prefix (n :: ns) (lit "C:\dst")) as (r & Hr). rewrite Hr in K. cbn [sample_things map fst In] in K.
    destruct K as [K|[K|[K|[K|[K|[K|[]]]]]]]; discriminate K.
  - apply apart_prefix; [reflexivity|discriminate].
  - split; [reflexivity|]. exists (lit "C:\"), (lit "dst"). split; [apply WinRemoveTree.name_ok_spec; reflexivity|]. split; reflexivity.
  - intros ns Hns Hv. destruct (sample_src _ Hns Hv) as [->|[->|[->| ->]]]; cbn; lia.
Qed.

Example C84_tree_example : disk store at_text /\
  wrun store (wcopy true (Elision true true true) Wrapping (fun e => e) 1%Z 3 true (wpath (lit "C:\src")) (wpath (lit "C:\dst")) 8) sample_things =
    (WE (WRet tt 0), (lit "C:\dst\g", File 9) :: (lit "C:\dst\sub\f", File 7) :: (lit "C:\dst\sub", Folder) :: (lit "C:\dst", Folder) :: sample_things).
Proof. split; [apply store_disk|]. vm_compute. reflexivity. Qed.

(** With the option directories_only (64) as well. *)
Example C84_directories_example :
  wrun store (wcopy true (Elision true true true) Wrapping (fun e => e) 1%Z 3 true (wpath (lit "C:\src")) (wpath (lit "C:\dst")) 72) sample_things =
    (WE (WRet tt 0), (lit "C:\dst\sub", Folder) :: (lit "C:\dst", Folder) :: sample_things).
Proof. vm_compute. reflexivity. Qed.

Example C84_into_itself_example : stable (lit "C:\") /\ entry_name (lit "n") /\ at_text [(lit "C:\", Folder)] (lit "C:\") = Some Folder /\ vacant (at_text [(lit "C:\", Folder)]) (lit "C:\").
Proof.
  split; [split; [discriminate|reflexivity]|]. split; [apply WinRemoveTree.name_ok_spec; reflexivity|]. split; [reflexivity|].
  intros n ns Hns. destruct (at_text [(lit "C:\", Folder)] (place (lit "C:\") (n :: ns))) eqn:Ev; [|reflexivity]. exfalso.
  assert (K : at_text [(lit "C:\", Folder)] (place (lit "C:\") (n :: ns)) <> None) by (rewrite Ev; discriminate). apply at_text_in in K. destruct K as [K|[]]. symmetry in K.
  apply (WinRemoveTree.place_inj (lit "C:\") (n :: ns) []) in K; [discriminate K|discriminate|exact Hns|constructor].
Qed.

(** Reading on in "C:\src" fails after its first entry, with 1117 (ERROR_IO_DEVICE). *)
Definition bad_sector : wkernel things := fun c =>
  match c return things -> wanswer c * things with
  | w_Find q => fun v =>
      if str_eqb q (lit "C:\src")
      then (match fst (store (w_Find q) v) with (inr (d, l), _) => (inr (d, firstn 2 l), 1117) | r => r end, v)
      else store (w_Find q) v
  | c => store c
  end.

(** Refuted: the system fails to read on in the directory, the rest of it is not copied, and the call reports that all went well. *)
Theorem C84_listing_refuted : forall dbg E m has, exists (h : wkernel things) s s',
  (exists d l, h (w_Find (lit "C:\src")) s = ((inr (d, l), 1117), s)) /\
  wrun h (wcopy dbg E m (fun e => e) 1%Z 3 has (wpath (lit "C:\src")) (wpath (lit "C:\dst")) 8) s = (WE (WRet tt 0), s') /\
  at_text s (lit "C:\src\g") = Some (File 9) /\ at_text s' (lit "C:\dst\sub\f") = Some (File 7) /\ at_text s' (lit "C:\dst\g") = None.
Proof.
  intros dbg E m has. exists bad_sector, sample_things.
  exists ((lit "C:\dst\sub\f", File 7) :: (lit "C:\dst\sub", Folder) :: (lit "C:\dst", Folder) :: sample_things).
  split; [do 2 eexists; reflexivity|]. split; [|repeat split].
  destruct E as [e1 e2 e3]. destruct dbg, m, has, e1, e2, e3; vm_compute; reflexivity.
Qed.

Print Assumptions C83_only_below.
Print Assumptions C83_reports.
Print Assumptions C83_source.
Print Assumptions C83_target.
Print Assumptions C83_table_partial.
Print Assumptions C83_create_symlinks_refuted.
Print Assumptions C84_tree_partial.
Print Assumptions C84_none_refuted.
Print Assumptions C84_into_itself_refuted.
Print Assumptions C84_listing_refuted.
