(** C72: remove_all on Windows, for every system that answers the calls. *)
From Coq Require Import Ascii String Bool NArith ZArith Arith List Lia.
From Verif Require Import Str PathModel PathSpec StrProofs PathProofs PathOps WinPathProps WinPlace WinPermsModel FlagsModel WinStatModel WinStatProps WinOpsModel WinOpsProps.
Import ListNotations.
Local Open Scope N_scope.

(** * Specification *)

(** A call with its answer; those of a run, in order. *)
Inductive event := Ev (c : wcall) (r : wanswer c).
Fixpoint wevents {A S} (h : wkernel S) (p : wprog A) (s : S) : list event :=
  match p with
  | WEnd _ => []
  | WSys c k => let '(r, s') := h c s in Ev c r :: wevents h (k r) s'
  end.

(** The name of an entry: not empty, no separator, no colon, not "." or "..". *)
Definition entry_name (n : str) : Prop := proper n /\ n <> lit "." /\ n <> lit "..".

(** A text that is [q] or the text of something in the directory [q], at any depth. A separator is put between directory and
    name unless there is one or the directory is a drive as in "c:". *)
Inductive below (q : str) : str -> Prop :=
| below_self : below q q
| below_entry : forall d n, below q d -> entry_name n -> below q (entry_text d n).

(** The system lists names, and "." and "..". *)
Definition proper_listing (e : event) : Prop :=
  match e with
  | Ev c r =>
      match c return wanswer c -> Prop with
      | w_Find _ => fun r => match fst r with
                             | inr (d, l) => Forall (fun x => fd_name x = lit "." \/ fd_name x = lit ".." \/ proper (fd_name x)) (d :: l)
                             | inl _ => True
                             end
      | _ => fun _ => True
      end r
  end.

(** The answer is about a directory that is no link, junction or other reparse point. *)
Definition real_directory (i : winfo) : Prop := exists attrs, w_attrs i = inr attrs /\ is_dir attrs = true /\ is_reparse attrs = false.

(** A deletion that went through: it succeeded, or failed because nothing was there any more (code 2). *)
Definition deletion (e : event) : bool :=
  match e with
  | Ev c r =>
      match c return wanswer c -> bool with
      | w_RemoveDirectory _ | w_DeleteFile _ => fun r => match r with inr _ => true | inl e => e =? 2 end
      | _ => fun _ => false
      end r
  end.

(** How many there are. *)
Definition deletions (l : list event) : N := N.of_nat (length (filter deletion l)).

(** The object had vanished when its attributes were asked for, or a failure left no code. *)
Definition vanished (e : event) : Prop :=
  match e with
  | Ev c r =>
      match c return wanswer c -> Prop with
      | w_Attributes _ => fun r => r = inl 2 \/ r = inl 0
      | w_RemoveDirectory _ | w_DeleteFile _ => fun r => r = inl 0
      | _ => fun _ => False
      end r
  end.

(** * Properties of all runs *)

Section Safe.
Variable V : event -> Prop.
Variable P : list event -> wcall -> Prop.

Fixpoint safe {A} (l : list event) (p : wprog A) (Q : list event -> A -> N -> Prop) : Prop :=
  match p with
  | WEnd (WE (WRet a e)) => Q l a e
  | WEnd _ => True
  | WSys c k => P l c /\ forall r, V (Ev c r) -> safe (l ++ [Ev c r]) (k r) Q
  end.

Lemma safe_bind : forall A B (p : wprog A) (f : A -> N -> wprog B) l Q1 Q, safe l p Q1 ->
  (forall l' a e, Q1 l' a e -> safe l' (f a e) Q) -> safe l (wbind p f) Q.
Proof.
  intros A B p f. induction p as [r|c k IH]; intros l Q1 Q H Hf.
  - destruct r as [[a e|c|] | | |]; cbn in *; auto.
  - destruct H as [Hp Hk]. split; [exact Hp|]. intros r Hr. apply (IH r _ Q1 Q); auto.
Qed.

Lemma safe_weaken : forall A (p : wprog A) l (Q1 Q : list event -> A -> N -> Prop), safe l p Q1 -> (forall l' a e, Q1 l' a e -> Q l' a e) -> safe l p Q.
Proof.
  intros A p. induction p as [r|c k IH]; intros l Q1 Q H Hf.
  - destruct r as [[a e|c|] | | |]; cbn in *; auto.
  - destruct H as [Hp Hk]. split; [exact Hp|]. intros r Hr. apply (IH r _ Q1 Q); auto.
Qed.

Lemma safe_run : forall A S (h : wkernel S) (p : wprog A) s l Q, safe l p Q -> Forall V (wevents h p s) ->
  (forall a e, fst (wrun h p s) = WE (WRet a e) -> Q (l ++ wevents h p s) a e) /\
  (forall l1 c r l2, wevents h p s = l1 ++ Ev c r :: l2 -> P (l ++ l1) c).
Proof.
  intros A S h p. induction p as [r|c k IH]; intros s l Q H Hv.
  - split.
    + cbn. intros a e ->. cbn in H. rewrite app_nil_r. exact H.
    + cbn. intros [|] c r0 l2 E; discriminate.
  - destruct H as [Hp Hk]. cbn [wevents wrun] in *. destruct (h c s) as [r s'] eqn:Er. inversion Hv as [|x y Hx Hy]; subst.
    destruct (IH r s' _ Q (Hk r Hx) Hy) as [I1 I2]. split.
    + intros a e E. specialize (I1 a e E). rewrite <- app_assoc in I1. exact I1.
    + intros [|e0 l1] c0 r0 l2 E; cbn in E.
      * injection E as E1 E2. assert (c0 = c) by congruence. subst c0. rewrite app_nil_r. exact Hp.
      * injection E as <- E2. specialize (I2 l1 c0 r0 l2 E2). rewrite <- app_assoc in I2. exact I2.
Qed.
End Safe.

Lemma wevents_calls : forall A S (h : wkernel S) (p : wprog A) s c, In c (wcalls h p s) -> exists l1 r l2, wevents h p s = l1 ++ Ev c r :: l2.
Proof.
  intros A S h p. induction p as [r|c k IH]; intros s c0 H; [destruct H|]. cbn [wcalls wevents] in *. destruct (h c s) as [r s'].
  destruct H as [<-|H].
  - exists [], r, (wevents h (k r) s'). reflexivity.
  - destruct (IH r s' c0 H) as (l1 & r0 & l2 & E). exists (Ev c r :: l1), r0, l2. rewrite E. reflexivity.
Qed.

(** * The listing *)

Lemma listed_names : forall l, Forall (fun x => fd_name x = lit "." \/ fd_name x = lit ".." \/ proper (fd_name x)) l ->
  Forall (fun x => entry_name (fd_name x)) (listed l).
Proof.
  intros l H. unfold listed. apply Forall_forall. intros x Hx. apply filter_In in Hx. destruct Hx as [Hx Hd].
  rewrite Forall_forall in H. specialize (H x Hx). apply negb_true_iff in Hd. rewrite <- dots_spec in Hd. unfold is_dots in Hd.
  apply orb_false_elim in Hd. destruct Hd as [D1 D2].
  assert (N1 : fd_name x <> lit ".") by (intros E; apply str_eqb_spec in E; congruence).
  assert (N2 : fd_name x <> lit "..") by (intros E; apply str_eqb_spec in E; congruence).
  destruct H as [H|[H|H]]; [contradiction|contradiction|]. repeat split; auto; apply H.
Qed.

Lemma wlisting_names : forall ac found l stop q, wlisting ac found = Some (l, stop) -> proper_listing (Ev (w_Find q) found) ->
  Forall (fun e => entry_name (we_name e)) l.
Proof.
  intros ac [first last] l stop q H Hp. unfold wlisting in H. cbn [fst snd] in H. cbn in Hp. destruct first as [e|[d r]].
  - unfold wdirectory, wstream_open in H.
    match type of H with (if ?b then _ else _) = _ => destruct b end.
    + cbn in H. injection H as <- _. constructor.
    + injection H as <- _. constructor.
  - destruct (listed (d :: r)) as [|x y] eqn:El.
    + unfold wdirectory, wstream_open in H. pose proof (next_listed (d :: r)) as Hl. destruct (next_data (d :: r)) as [[d' r']|].
      { destruct Hl as [Hl _]. congruence. }
      match type of H with (if ?b then _ else _) = _ => destruct b end; cbn in H; injection H as <- _; constructor.
    + rewrite wdirectory_spec in H; [|cbn; lia|congruence]. injection H as <- _. apply listed_names in Hp.
      pose proof (flags_names (listed (d :: r)) false) as Hf. apply Forall_forall. intros e He.
      assert (Hi : In (we_name e) (map fd_name (listed (d :: r)))) by (rewrite <- Hf; apply in_map; exact He).
      apply in_map_iff in Hi. destruct Hi as (z & <- & Hz). rewrite Forall_forall in Hp. apply Hp. exact Hz.
Qed.

(** * The invariant *)

Definition calls_ok (q0 : str) (l : list event) (c : wcall) : Prop :=
  (changes c = true -> exists q, below q0 q /\ (c = w_RemoveDirectory q \/ c = w_DeleteFile q)) /\
  (forall q, c = w_Find q -> below q0 q /\ exists l0 i, l = l0 ++ [Ev (w_Info q) i] /\ real_directory i).

Definition deletes_text (q : str) (c : wcall) : Prop := c = w_RemoveDirectory q \/ c = w_DeleteFile q.

Definition counted (q : str) (l l' : list event) (c e : N) : Prop :=
  exists d, l' = l ++ d /\ (e = 0 -> Forall (fun x => ~ vanished x) d ->
    c = deletions d mod 2 ^ 64 /\ exists d0 dc r, d = d0 ++ [Ev dc r] /\ deletes_text q dc).

Lemma deletions_app : forall a b, deletions (a ++ b) = deletions a + deletions b.
Proof. intros. unfold deletions. rewrite filter_app, app_length. lia. Qed.

Lemma remove_safe : forall dbg q0 q l, stable q -> below q0 q ->
  safe proper_listing (calls_ok q0) l (wremove dbg true (wpath q)) (fun l' b e =>
    exists d, l' = l ++ d /\ (b = true -> e = 0 /\ deletions d = 1 /\ exists d0 dc r, d = d0 ++ [Ev dc r] /\ deletes_text q dc) /\
      (b = false -> e = 0 -> ~ Forall (fun x => ~ vanished x) d)).
Proof.
  intros dbg q0 q l [Hne Hst] Hb. unfold wremove. change (split_components Windows q) with (wpath q) in Hst.
  rewrite nonempty_native by congruence. rewrite Hst. cbn [safe].
  split; [split; [discriminate|intros ? H; discriminate]|]. intros a _.
  assert (W : forall l1 A e (Q : list event -> A -> N -> Prop) (v : A), Q l1 v e -> safe proper_listing (calls_ok q0) l1 (wfail dbg true v e) Q).
  { intros l1 A e Q v H. unfold wfail, wcapture. destruct (dbg && (e =? 0)); cbn; auto. }
  destruct a as [e|attrs].
  - unfold ERROR_FILE_NOT_FOUND. destruct (N.eqb_spec e 2) as [->|He].
    + cbn. eexists. split; [reflexivity|]. split; [discriminate|]. intros _ _ F. inversion F as [|x y Hx]; subst. apply Hx. cbn. auto.
    + apply W. eexists. split; [reflexivity|]. split; [discriminate|]. intros _ -> F. inversion F as [|x y Hx]; subst. apply Hx. cbn. auto.
  - assert (D : forall c (k : wanswer c -> wprog bool), deletes_text q c -> calls_ok q0 (l ++ [Ev (w_Attributes q) (inr attrs)]) c ->
      (forall r, k r = match c return wanswer c -> wprog bool with
                       | w_RemoveDirectory _ | w_DeleteFile _ => fun r => match r with
                           | inl e => if negb (e =? ERROR_FILE_NOT_FOUND) then wfail dbg true false e else wret true 0 | inr _ => wret true 0 end
                       | _ => fun _ => WEnd WFuel end r) ->
      safe proper_listing (calls_ok q0) (l ++ [Ev (w_Attributes q) (inr attrs)]) (WSys c k) (fun l' b e =>
        exists d, l' = l ++ d /\ (b = true -> e = 0 /\ deletions d = 1 /\ exists d0 dc r, d = d0 ++ [Ev dc r] /\ deletes_text q dc) /\
          (b = false -> e = 0 -> ~ Forall (fun x => ~ vanished x) d))).
    { intros c k Hc Hok Hk. cbn [safe]. split; [exact Hok|]. intros r _. rewrite Hk. rewrite <- app_assoc. cbn [app].
      assert (G : forall c r, deletes_text q c -> deletion (Ev c r) = true ->
        exists d, l ++ [Ev (w_Attributes q) (inr attrs); Ev c r] = l ++ d /\
          (true = true -> 0 = 0 /\ deletions d = 1 /\ exists d0 dc r, d = d0 ++ [Ev dc r] /\ deletes_text q dc) /\
          (true = false -> 0 = 0 -> ~ Forall (fun x => ~ vanished x) d)).
      { clear. intros c r Hc Hd. eexists. split; [reflexivity|]. split; [|discriminate]. intros _. split; [reflexivity|]. split.
        - unfold deletions. cbn [filter]. rewrite Hd. reflexivity.
        - exists [Ev (w_Attributes q) (inr attrs)], c, r. split; [reflexivity|exact Hc]. }
      assert (B : forall c r e, vanished (Ev c r) \/ e <> 0 ->
        exists d, l ++ [Ev (w_Attributes q) (inr attrs); Ev c r] = l ++ d /\
          (false = true -> e = 0 /\ deletions d = 1 /\ exists d0 dc r, d = d0 ++ [Ev dc r] /\ deletes_text q dc) /\
          (false = false -> e = 0 -> ~ Forall (fun x => ~ vanished x) d)).
      { clear. intros c r e Hc. eexists. split; [reflexivity|]. split; [discriminate|]. intros _ He F. destruct Hc as [Hc|Hc]; [|contradiction].
        inversion F as [|x y Hx Hy]; subst. inversion Hy as [|x2 y2 Hx2]; subst. contradiction. }
      assert (Z : forall e, e = 0 \/ e <> 0) by (intros e; destruct (N.eqb_spec e 0); auto).
      pose proof Hc as Hc'. destruct Hc as [->| ->]; cbn in r; (destruct r as [e|u]; [unfold ERROR_FILE_NOT_FOUND; destruct (N.eqb_spec e 2) as [->|He]; cbn [negb]|]).
      1, 4: apply G; [exact Hc'|reflexivity].
      2, 4: apply G; [exact Hc'|reflexivity].
      all: apply W; apply B; destruct (Z e) as [->|]; cbn; auto. }
    destruct (has_attr attrs FILE_ATTRIBUTE_DIRECTORY).
    + apply D; [left; reflexivity| |reflexivity]. split; [|intros ? H; discriminate]. intros _. exists q. auto.
    + apply D; [right; reflexivity| |reflexivity]. split; [|intros ? H; discriminate]. intros _. exists q. auto.
Qed.

Lemma real_dir : forall dbg i st e, wsymlink_status_impl dbg true i = WRet st e -> e = 0 -> wis ft_directory st = true -> real_directory i.
Proof.
  intros dbg i st e H -> Hd. unfold wsymlink_status_impl in H.
  assert (N : forall x y, ProcessStatusFailure true x = WRet y 0 -> wis ft_directory y = true -> False).
  { intros x y. unfold ProcessStatusFailure. destruct (x =? 0); [|destruct (IsNotFoundError x); [|destruct (x =? ERROR_SHARING_VIOLATION)]];
      intros E; injection E as <- E; discriminate. }
  destruct (w_attrs i) as [x|attrs] eqn:Ea.
  - unfold wcapture in H. destruct (dbg && (x =? 0)); [discriminate|]. destruct (N _ _ H Hd).
  - unfold with_permissions in H. destruct (GetPermissions dbg true (w_security i) attrs) as [prms x|x|]; try discriminate.
    destruct (x =? 0); [|destruct (N _ _ H Hd)]. rewrite reparse_attr in H. destruct (is_reparse attrs) eqn:Er.
    + destruct (IsReparsePointSymlink dbg true i) as [[|] x2|x2|]; try discriminate; injection H as <- _; discriminate.
    + injection H as <-. exists attrs. split; [exact Ea|]. split; [|exact Er]. unfold directory_or_regular in Hd. rewrite dir_attr in Hd.
      destruct (is_dir attrs); [reflexivity|discriminate].
Qed.

Lemma below_nonempty : forall q t, q <> [] -> below q t -> t <> [].
Proof.
  intros q t Hq H. induction H as [|d n H IH Hn]; [exact Hq|]. unfold entry_text. destruct d; [congruence|]. destruct (_ || _); discriminate.
Qed.

Lemma do_remove_all_safe : forall dbg E ac q0 n q l, stable q -> below q0 q ->
  safe proper_listing (calls_ok q0) l (wdo_remove_all dbg E ac n (wpath q)) (counted q l).
Proof.
  intros dbg E ac q0 n. induction n as [|n IH]; intros q l Hs Hb; [exact Logic.I|]. cbn [wdo_remove_all].
  pose proof Hs as [Hne Hst]. change (split_components Windows q) with (wpath q) in Hst.
  set (finish := fun count => wbind (wremove dbg true (wpath q)) (fun b e2 => if b then wret count e2 else wret umax e2)).
  assert (F : forall l1 d1 count, l1 = l ++ d1 ->
    safe proper_listing (calls_ok q0) l1 (finish count) (fun l' c e => exists d2, l' = l ++ d1 ++ d2 /\ (e = 0 -> Forall (fun x => ~ vanished x) (d1 ++ d2) ->
      c = count /\ deletions d2 = 1 /\ exists d0 dc r, d1 ++ d2 = d0 ++ [Ev dc r] /\ deletes_text q dc))).
  { intros l1 d1 count ->. unfold finish. eapply safe_bind; [apply remove_safe; [exact Hs|exact Hb]|].
    intros l' b e (d & -> & H1 & H2). destruct b; cbn.
    - destruct (H1 eq_refl) as (-> & Hd & d0 & dc & r & -> & Hdc). eexists. split; [rewrite <- app_assoc; reflexivity|]. intros _ _.
      split; [reflexivity|]. split; [exact Hd|]. exists (d1 ++ d0), dc, r. split; [rewrite app_assoc; reflexivity|exact Hdc].
    - eexists. split; [rewrite <- app_assoc; reflexivity|]. intros -> Hv. exfalso. apply (H2 eq_refl eq_refl). apply Forall_app in Hv. apply Hv. }
  unfold wsymlink_status_of. cbn [wbind safe]. rewrite Hst. split; [split; [discriminate|intros ? H; discriminate]|]. intros i _.
  destruct (wsymlink_status_impl dbg true i) as [st e|c|] eqn:Ei; [|exact Logic.I|exact Logic.I].
  destruct (N.eqb_spec e 0) as [->|He]; cbn [negb].
  2: { cbn. eexists. split; [reflexivity|]. intros; contradiction. }
  destruct (wis ft_directory st) eqn:Ed.
  - (* a directory *)
    cbn [safe]. split.
    { split; [discriminate|]. intros q' H. injection H as <-. split; [exact Hb|]. exists l, i. split; [reflexivity|]. exact (real_dir dbg i st 0 Ei eq_refl Ed). }
    intros found Hv. destruct (wlisting ac found) as [[es stop]|] eqn:El; [|exact Logic.I].
    pose proof (wlisting_names ac found es stop q El Hv) as Hnames. clear El Ei.
    rewrite <- app_assoc. cbn [app].
    set (d0 := [Ev (w_Info q) i; Ev (w_Find q) found]).
    assert (L : forall es d1 count, Forall (fun e => entry_name (we_name e)) es -> count < 2 ^ 64 ->
      safe proper_listing (calls_ok q0) (l ++ d1) (wremove_entries E (wdo_remove_all dbg E ac n) (wpath q) es stop count)
        (fun l' c e => exists d2, l' = l ++ d1 ++ d2 /\ (e = 0 -> Forall (fun x => ~ vanished x) d2 -> c = (count + deletions d2) mod 2 ^ 64))).
    { clear es Hnames. induction es as [|x es IHe]; intros d1 count Hn Hc.
      - cbn. exists []. split; [rewrite app_nil_r; reflexivity|]. intros _ _. unfold deletions. cbn [filter length N.of_nat]. rewrite N.add_0_r, N.mod_small by exact Hc. reflexivity.
      - inversion Hn as [|? ? Hx Hes]; subst. cbn [wremove_entries]. unfold wpath at 1 2. rewrite div_name by (try apply Hx; exact Hs). cbn [wlift].
        change (split_components Windows (entry_text q (we_name x))) with (wpath (entry_text q (we_name x))).
        eapply safe_bind.
        + apply IH; [apply stable_entry; [exact Hs|apply Hx]|apply below_entry; assumption].
        + intros l' c e (d & -> & H). destruct (N.eqb_spec e 0) as [->|He]; cbn [negb].
          * rewrite <- app_assoc. eapply safe_weaken; [apply IHe; [exact Hes|apply N.mod_upper_bound; discriminate]|].
            intros l' c' e' (d2 & -> & H2). exists (d ++ d2). split; [rewrite <- !app_assoc; reflexivity|]. intros -> Hv2. apply Forall_app in Hv2. destruct Hv2 as [V1 V2].
            rewrite (H2 eq_refl V2). destruct (H eq_refl V1) as [-> _]. rewrite deletions_app.
            rewrite N.add_mod_idemp_l by discriminate.
            rewrite (N.add_comm count), <- N.add_assoc, N.add_mod_idemp_l by discriminate. f_equal. lia.
          * cbn. eexists. split; [rewrite <- app_assoc; reflexivity|]. intros; contradiction. }
    eapply safe_bind; [apply (L es d0 1 Hnames); reflexivity|].
    intros l' c e (d2 & -> & H). destruct (N.eqb_spec e 0) as [->|He]; cbn [negb].
    + eapply safe_weaken; [apply (F _ (d0 ++ d2) c); reflexivity|]. intros l' c' e' (d3 & -> & H3). exists ((d0 ++ d2) ++ d3). split; [reflexivity|].
      intros -> Hv3. destruct (H3 eq_refl Hv3) as (-> & Hd3 & Hlast). split; [|exact Hlast].
      apply Forall_app in Hv3. destruct Hv3 as [Hv3 _]. apply Forall_app in Hv3. destruct Hv3 as [_ Hv3].
      rewrite (H eq_refl Hv3). rewrite !deletions_app, Hd3. f_equal. change (deletions d0) with 0. lia.
    + cbn. eexists. split; [reflexivity|]. intros; contradiction.
  - eapply safe_weaken; [apply (F _ [Ev (w_Info q) i] 1); reflexivity|]. intros l' c' e' (d3 & -> & H3). exists ([Ev (w_Info q) i] ++ d3). split; [reflexivity|].
    intros -> Hv3. destruct (H3 eq_refl Hv3) as (-> & Hd3 & Hlast). split; [|exact Hlast]. rewrite deletions_app, Hd3. reflexivity.
Qed.

Lemma remove_all_safe : forall dbg E ac n has t,
  safe proper_listing (calls_ok (native (wpath t))) [] (wremove_all dbg E ac n has (wpath t)) (fun l c e =>
    e = 0 -> Forall (fun x => ~ vanished x) l ->
    c = 0 \/ c = deletions l mod 2 ^ 64 /\ exists d0 dc r, l = d0 ++ [Ev dc r] /\ deletes_text (native (wpath t)) dc).
Proof.
  intros dbg E ac n has t. unfold wremove_all. destruct (empty (wpath t)) eqn:Em; [cbn; auto|].
  assert (Ht : t <> []) by (intros ->; discriminate). pose proof (stable_native t Ht) as Hs. change (split_components Windows t) with (wpath t) in Hs.
  assert (Hp : wpath t = wpath (native (wpath t))) by (symmetry; apply split_native).
  rewrite Hp at 2. eapply safe_bind; [apply do_remove_all_safe; [exact Hs|constructor]|].
  intros l c e (d & -> & H). cbn [app] in *. destruct (N.eqb_spec e 0) as [->|He]; cbn [negb].
  - cbn. intros _ Hv. right. apply H; auto.
  - destruct (e =? errc_no_such_file_or_directory); [cbn; auto|]. unfold wbad, wreport. destruct has; cbn; [intros; contradiction|exact Logic.I].
Qed.

(** * C72 remove_all *)

(** Nothing is changed but by deleting the path itself and what is below it, by the names the system lists. *)
Theorem C72_only_below : forall dbg E ac n has t S (h : wkernel S) s c,
  let p := wremove_all dbg E ac n has (wpath t) in
  Forall proper_listing (wevents h p s) -> In c (made h p s) ->
  exists q, below (native (wpath t)) q /\ (c = w_RemoveDirectory q \/ c = w_DeleteFile q).
Proof.
  intros dbg E ac n has t S h s c p Hv Hc. unfold made in Hc. apply filter_In in Hc. destruct Hc as [Hc Hch].
  destruct (wevents_calls _ _ h p s c Hc) as (l1 & r & l2 & El).
  destruct (safe_run proper_listing (calls_ok (native (wpath t))) _ _ h p s [] _ (remove_all_safe dbg E ac n has t) Hv) as [_ H].
  destruct (H l1 c r l2 El) as [H1 _]. exact (H1 Hch).
Qed.

(** Links, junctions and other reparse points are not entered: what is listed was, right before, a directory that is none of these. *)
Theorem C72_links_not_entered : forall dbg E ac n has t S (h : wkernel S) s l1 q r l2,
  let p := wremove_all dbg E ac n has (wpath t) in
  Forall proper_listing (wevents h p s) -> wevents h p s = l1 ++ Ev (w_Find q) r :: l2 ->
  below (native (wpath t)) q /\ exists l0 i, l1 = l0 ++ [Ev (w_Info q) i] /\ real_directory i.
Proof.
  intros dbg E ac n has t S h s l1 q r l2 p Hv El.
  destruct (safe_run proper_listing (calls_ok (native (wpath t))) _ _ h p s [] _ (remove_all_safe dbg E ac n has t) Hv) as [_ H].
  destruct (H l1 _ r l2 El) as [_ H2]. exact (H2 q eq_refl).
Qed.

(** The value is the number of deletions, and the path itself was deleted last; or it is 0. *)
Theorem C72_count_partial : forall dbg E ac n has t S (h : wkernel S) s count,
  let p := wremove_all dbg E ac n has (wpath t) in
  Forall proper_listing (wevents h p s) -> Forall (fun e => ~ vanished e) (wevents h p s) ->
  fst (wrun h p s) = WE (WRet count 0) -> count <> 0 ->
  count = deletions (wevents h p s) mod 2 ^ 64 /\
  exists before c r, wevents h p s = before ++ [Ev c r] /\ (c = w_RemoveDirectory (native (wpath t)) \/ c = w_DeleteFile (native (wpath t))).
Proof.
  intros dbg E ac n has t S h s count p Hv Hn Hr Hc.
  destruct (safe_run proper_listing (calls_ok (native (wpath t))) _ _ h p s [] _ (remove_all_safe dbg E ac n has t) Hv) as [H _].
  destruct (H count 0 Hr eq_refl Hn) as [H1|H1]; [contradiction|exact H1].
Qed.
