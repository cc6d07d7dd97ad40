(** C79: absolute on Windows. Sources: src/fs_ops.cpp:39-61 with ASAP_WINDOWS defined, 811-821. *)
From Coq Require Import Ascii String Bool Arith NArith ZArith Lia List.
From Verif Require Import Str PathModel PathSpec StrProofs PathProofs PathOps WinPathProps WinPlace WinRelative WinAppend WinDrive WinPermsModel FlagsModel TimeModel WinStatModel WinStatProps WinOpsModel WinOpsProps WinCanon WinCanonProps.
Import ListNotations.
Local Open Scope N_scope.

(** * Specification *)

(** A text is fully qualified when it begins with a host ("\\h") or with a drive and a separator ("C:\"). *)
Definition qualified (t : str) : bool :=
  let '(rn, rest) := split_root no_wsep t in negb (is_nil rn) && (host_root rn || wstarts rest).

(** * Theorems *)

(** A fully qualified path is returned as it is, and no call is made. *)
Theorem C79_as_it_is : forall dbg E has t S (h : wkernel S) s, qualified t = true ->
  wrun h (wabsolute dbg E has (wpath t)) s = (WE (WRet (wpath t) 0), s) /\ wcalls h (wabsolute dbg E has (wpath t)) s = [].
Proof.
  intros dbg E has t S h s H. unfold qualified in H. destruct (split_root no_wsep t) as [rn rest] eqn:Hr. apply andb_prop in H. destruct H as [H1 H2].
  unfold wabsolute, wpath. rewrite (is_absolute_split E t rn rest Hr), (has_root_name_split t rn rest Hr), H1, H2. split; reflexivity.
Qed.

(** Any other path is put after the current directory, as the operator / does (C75); that and nothing else is asked for. *)
Theorem C79_after_current : forall dbg E has t S (h : wkernel S) s cwd s', qualified t = false -> h w_CurrentDirectory s = (inr cwd, s') ->
  wcalls h (wabsolute dbg E has (wpath t)) s = [w_CurrentDirectory] /\
  exists q, wrun h (wabsolute dbg E has (wpath t)) s = (WE (WRet q 0), s') /\ wpath (native q) = q /\ map native (elems q) = appended cwd t.
Proof.
  intros dbg E has t S h s cwd s' H Hc. unfold qualified in H. destruct (split_root no_wsep t) as [rn rest] eqn:Hr.
  unfold wabsolute. unfold wpath at 1 2 3 4 5 6. rewrite (is_absolute_split E t rn rest Hr), (has_root_name_split t rn rest Hr), (andb_comm (_ || _)), H.
  unfold wcurrent_path. cbn [wbind wcalls wrun]. rewrite Hc. cbn [wbind wret]. change (0 =? 0) with true. cbv iota.
  destruct (C75_operator_slash E cwd t) as (q & Hq & Hs & He). unfold wpath. rewrite Hq. cbn [wlift wcalls wrun wret]. split; [reflexivity|].
  exists q. split; [reflexivity|]. split; [exact Hs|exact He].
Qed.

(** When the current directory cannot be had, its code is told, and no path is returned. *)
Theorem C79_failure : forall dbg E has t S (h : wkernel S) s e s', qualified t = false -> h w_CurrentDirectory s = (inl e, s') -> e <> 0 ->
  wrun h (wabsolute dbg E has (wpath t)) s = (told has path_default e, s').
Proof.
  intros dbg E has t S h s e s' H Hc He. unfold qualified in H. destruct (split_root no_wsep t) as [rn rest] eqn:Hr.
  unfold wabsolute, wpath. rewrite (is_absolute_split E t rn rest Hr), (has_root_name_split t rn rest Hr), (andb_comm (_ || _)), H.
  unfold wcurrent_path. cbn [wbind wrun]. rewrite Hc. unfold wfail, wcapture, wreport, told. pose proof He as He2. apply N.eqb_neq in He2. rewrite He2, andb_false_r.
  destruct has; cbn [wbind wrun]; [rewrite He2|]; reflexivity.
Qed.

Lemma qualified_elements : forall u s rn1 r1 b l tr, split_root no_wsep s = (rn1, r1) -> rn1 <> [] -> host_root rn1 || b = true -> Forall wname l ->
  win_elements no_wsep u = parts_elements (preferred rn1) b l tr -> qualified u = true.
Proof.
  intros u s rn1 r1 b0 l tr Hs Hn Hb0 Hl He. unfold qualified. destruct (split_root_cases s rn1 r1 Hs) as [_ [[X _]|[(a & -> & Ha)|(a & w & -> & Ha & Hw & _)]]]; [contradiction| |].
  - cbn [host_root] in Hb0. rewrite Ha in Hb0. cbn in Hb0. subst b0. destruct (full_elements u a l tr Ha Hl) as (_ & rest & Hr & Hst & _).
    { rewrite He. cbn [preferred map]. rewrite (plain_nosep a Ha). reflexivity. }
    rewrite Hr, Hst. cbn. apply orb_true_r.
  - destruct (split_root no_wsep u) as [rn rest] eqn:Hr. rewrite (win_elements_parts u rn rest Hr) in He. unfold parts_elements in He.
    assert (Hfst : hd [] ((if is_nil (preferred rn) then [] else [preferred rn]) ++ (if wstarts rest then [[backslash]] else []) ++ wnames rest ++ (if wends rest && negb (is_nil (wnames rest)) then [[]] else [])) = preferred (a :: a :: w)).
    { rewrite He. reflexivity. }
    assert (Hpa : preferred (a :: a :: w) = backslash :: backslash :: preferred w).
    { cbn [preferred map]. f_equal; [|f_equal]; destruct (wsep_cases a Ha) as [-> | ->]; reflexivity. }
    rewrite Hpa in Hfst. destruct (split_root_cases u rn rest Hr) as [_ [[X _]|[(b & X & Hb)|(b & v & X & Hb & _)]]]; subst rn.
    + exfalso. cbn [preferred map is_nil app] in Hfst. destruct (wstarts rest); [discriminate Hfst|]. cbn [app] in Hfst. pose proof (wnames_all rest) as Hall.
      destruct (wnames rest) as [|n ns]; [cbn in Hfst; destruct (wends rest); discriminate Hfst|]. cbn in Hfst. subst n. inversion Hall as [|? ? [_ K] _]. discriminate K.
    + exfalso. cbn [preferred map is_nil app hd] in Hfst. rewrite (plain_nosep b Hb) in Hfst. injection Hfst as -> K. discriminate Hb.
    + cbn [is_nil negb host_root]. rewrite Hb. reflexivity.
Qed.

(** With a fully qualified current directory, and a path that names no drive or host other than the current one, the result is fully qualified. *)
Theorem C79_qualified_partial : forall dbg E has t S (h : wkernel S) s cwd s', h w_CurrentDirectory s = (inr cwd, s') -> qualified cwd = true ->
  fst (split_root no_wsep t) = [] \/ preferred (fst (split_root no_wsep t)) = preferred (fst (split_root no_wsep cwd)) ->
  exists q s1, wrun h (wabsolute dbg E has (wpath t)) s = (WE (WRet q 0), s1) /\ qualified (native q) = true.
Proof.
  intros dbg E has t S h s cwd s' Hc Hq Hrn. destruct (qualified t) eqn:Ht.
  - exists (wpath t), s. split; [apply C79_as_it_is; exact Ht|].
    assert (He : win_elements no_wsep (native (wpath t)) = win_elements no_wsep t) by (unfold wpath; rewrite <- win_elems, split_native; apply win_elems).
    unfold qualified in Ht. destruct (split_root no_wsep t) as [rn2 r2] eqn:H2. rewrite (win_elements_parts t rn2 r2 H2) in He. apply andb_prop in Ht. destruct Ht as [Ht1 Ht2].
    refine (qualified_elements _ t rn2 r2 _ _ _ H2 _ Ht2 (wnames_all r2) He). destruct rn2; [discriminate Ht1|discriminate].
  - destruct (C79_after_current dbg E has t S h s cwd s' Ht Hc) as (_ & q & Hrun & Hs & He). exists q, s'. split; [exact Hrun|].
    rewrite <- Hs in He. unfold wpath in He. rewrite win_elems in He. unfold appended in He. unfold qualified in Hq.
    destruct (split_root no_wsep cwd) as [rn1 r1] eqn:H1. destruct (split_root no_wsep t) as [rn2 r2] eqn:H2. cbn [fst] in Hrn.
    apply andb_prop in Hq. destruct Hq as [Hq1 Hq2]. assert (Hne : rn1 <> []) by (destruct rn1; [discriminate Hq1|discriminate]).
    assert (Hc1 : negb (is_nil rn2) && negb (str_eqb (preferred rn2) (preferred rn1)) = false).
    { destruct Hrn as [-> |Hrn]; [reflexivity|]. rewrite Hrn, (proj2 (str_eqb_spec _ _) eq_refl). apply andb_false_r. }
    assert (Hc2 : is_nil rn1 = false) by (destruct rn1; [congruence|reflexivity]). rewrite Hc1, Hc2, (orb_comm (wstarts r1)), Hq2 in He. cbn [orb andb] in He.
    destruct (wstarts r2); eapply qualified_elements; try exact He; try exact H1; try exact Hne; try apply orb_true_r; try apply Forall_app; try split; apply wnames_all.
Qed.

(** Refuted without that: a path with another drive and no separator after it is returned on its own, not fully qualified. *)
Theorem C79_qualified_refuted : forall dbg E has t S (h : wkernel S) s cwd s' a rest, h w_CurrentDirectory s = (inr cwd, s') ->
  split_root no_wsep t = ([a; colon], rest) -> wstarts rest = false -> fst (split_root no_wsep cwd) <> [a; colon] ->
  exists q, wrun h (wabsolute dbg E has (wpath t)) s = (WE (WRet q 0), s') /\ map native (elems q) = win_elements no_wsep t /\ qualified t = false.
Proof.
  intros dbg E has t S h s cwd s' a rest Hc Hr Hs Hd.
  assert (Ha : is_wsep a = false).
  { destruct (split_root_cases t _ rest Hr) as [_ [[X _]|[(b & X & Hb)|(b & w & X & Hb & _)]]]; [discriminate|injection X as <-; exact Hb|injection X as <- <- _; discriminate Hb]. }
  assert (Ht : qualified t = false) by (unfold qualified; rewrite Hr, Hs; cbn; rewrite Ha; reflexivity).
  destruct (C79_after_current dbg E has t S h s cwd s' Ht Hc) as (_ & q & Hrun & _ & He). exists q. split; [exact Hrun|]. split; [|exact Ht].
  unfold appended in He. destruct (split_root no_wsep cwd) as [rn1 r1] eqn:H1. rewrite Hr in He. cbn [fst] in Hd.
  assert (str_eqb (preferred [a; colon]) (preferred rn1) = false) as Hne.
  { destruct (str_eqb (preferred [a; colon]) (preferred rn1)) eqn:X; [|reflexivity]. exfalso. apply str_eqb_spec in X. cbn [preferred map] in X. rewrite (plain_nosep a Ha) in X.
    destruct (split_root_cases cwd rn1 r1 H1) as [_ [[Y _]|[(b & Y & Hb)|(b & w & Y & Hb & _)]]]; subst rn1; cbn [preferred map] in X; [discriminate| |].
    - rewrite (plain_nosep b Hb) in X. injection X as ->. apply Hd. reflexivity.
    - injection X as X _ _. rewrite X, preferred_sep_bool in Ha. congruence. }
  rewrite Hne in He. exact He.
Qed.

Lemma run_ret : forall A S (h : wkernel S) (p : wprog A) s, wrun h (wbind p (fun a e => wret a e)) s = wrun h p s.
Proof.
  intros A S h p. induction p as [r|c k IH]; intros s.
  - destruct r as [[a e|c|]| | |]; reflexivity.
  - cbn [wbind wrun]. destruct (h c s) as [r s']. apply IH.
Qed.

Lemma full_text_full : forall u a l, full_text u a l -> Forall proper l -> full u = Some (a, l).
Proof.
  intros u a l (Ha & rest & Hr & Hs & Hn) Hp. destruct (split_root_cases u _ rest Hr) as [-> _]. destruct rest as [|c rest]; [discriminate|]. cbn [app full]. cbn in Hs.
  assert (Hn2 : wnames rest = l) by (rewrite <- Hn; unfold wnames; cbn [wpieces]; rewrite Hs; reflexivity).
  rewrite Ha, Hs, Hn2, Ascii.eqb_refl. cbn [negb andb]. assert (forallb no_colon l = true) as ->; [|reflexivity].
  apply no_colons. eapply Forall_impl; [|exact Hp]. intros n (_ & _ & K). exact K.
Qed.

(** With the current directory on a drive, and a path that begins with no drive and no host, the result has the current
    drive and leads along the names of the current directory and then those of the path, or only along those when the path begins with a
    separator ([begins]). *)
Theorem C79_place_partial : forall dbg E has t S (h : wkernel S) ans s cwd a steps, steady h ans -> ans w_CurrentDirectory = inr cwd -> begins cwd t = Some (a, steps) ->
  exists q, wrun h (wabsolute dbg E has (wpath t)) s = (WE (WRet q 0), s) /\ full (native q) = Some (a, steps).
Proof.
  intros dbg E has t S h ans s cwd a steps Hst Hc Hb.
  destruct (begin_path dbg E S h ans Hst cwd Hc t a steps path (fun p e => wret p e) s has Hb) as (Ha & Hp & u & Hu & Hrun).
  rewrite run_ret in Hrun. exists (split_components Windows u). split; [exact Hrun|].
  destruct (full_split u a steps Hu) as (rest & cs & _ & ->). apply full_text_full; assumption.
Qed.

(** * Instances *)

Example C79_example :
  let h := still small (lit "C:\d") in
  qualified (lit "\\h\a") = true /\ qualified (lit "c:/a") = true /\ qualified (lit "\a") = false /\ qualified (lit "c:a") = false /\
  h w_CurrentDirectory tt = (inr (lit "C:\d"), tt) /\ begins (lit "C:\d") (lit "x/y") = Some (Cd, [lit "d"; lit "x"; lit "y"]) /\
  (forall E, exists q, wrun h (wabsolute true E true (wpath (lit "x/y"))) tt = (WE (WRet q 0), tt) /\ native q = lit "C:\d\x/y") /\
  (forall E, exists q, wrun h (wabsolute true E true (wpath (lit "C:x"))) tt = (WE (WRet q 0), tt) /\ native q = lit "C:\d\x") /\
  (forall E, exists q, wrun h (wabsolute true E true (wpath (lit "\x"))) tt = (WE (WRet q 0), tt) /\ native q = lit "C:\x") /\
  (forall E, exists q, wrun h (wabsolute true E true (wpath [])) tt = (WE (WRet q 0), tt) /\ native q = lit "C:\d\") /\
  (forall E, exists q, wrun h (wabsolute true E true (wpath (lit "c:x"))) tt = (WE (WRet q 0), tt) /\ native q = lit "c:x").
Proof.
  cbv zeta. do 6 (split; [reflexivity|]). repeat split; intros [a b c]; destruct a, b, c; eexists; split; vm_compute; reflexivity.
Qed.

Example C79_failure_example : forall E, let h : wkernel unit := fun c s => (match c return wanswer c with w_CurrentDirectory => inl 5 | c => shown small [] c end, s) in
  wrun h (wabsolute true E false (wpath (lit "x"))) tt = (WE (WThrow 5), tt).
Proof. intros E. apply (C79_failure true E false (lit "x")); [reflexivity|reflexivity|discriminate]. Qed.

Print Assumptions C79_as_it_is.
Print Assumptions C79_after_current.
Print Assumptions C79_failure.
Print Assumptions C79_qualified_partial.
Print Assumptions C79_qualified_refuted.
Print Assumptions C79_place_partial.
