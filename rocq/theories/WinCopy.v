(** C83: copy on Windows.
    Sources: src/fs_ops.cpp:176-296, 418-489, 597-620, 712-724 with ASAP_WINDOWS defined. *)
From Coq Require Import Ascii String Bool Arith NArith ZArith Lia List.
From Verif Require Import Str PathModel PathSpec StrProofs PathProofs PathOps WinPathProps WinPlace WinAppend WinPermsModel FlagsModel TimeModel WinStatModel WinStatProps WinOpsModel WinOpsProps WinRemoveAll.
From Verif Require WinRemoveTree.
Import ListNotations.
Local Open Scope N_scope.

(** * Specification *)

(** Where a copy goes: the source [from] to [to], an entry of a directory to the entry of the same name. *)
Inductive goes_with (from to : str) : str -> str -> Prop :=
| with_self : goes_with from to from to
| with_entry : forall a b n, goes_with from to a b -> entry_name n -> goes_with from to (entry_text a n) (entry_text b n).

(** The last name of a path. *)
Definition named (a n : str) : Prop := exists fn, filename Windows (wpath a) = Ok fn /\ native fn = n.

(** The changes copy may make for the source [a] and the target [b]. *)
Definition copies (a b : str) (c : wcall) : Prop :=
  c = w_CreateDirectoryEx a b \/ c = w_CopyFile a b false \/ (exists n, named a n /\ c = w_CopyFile a (native (wpath (entry_text b n))) false) \/
  c = w_CreateHardLink b a \/ exists t d, c = w_CreateSymbolicLink b t d.

(** A change that was refused. ERROR_ALREADY_EXISTS for a directory counts as done. *)
Definition refused (e : event) : Prop :=
  match e with
  | Ev c r =>
      match c return wanswer c -> Prop with
      | w_CreateDirectoryEx _ _ => fun r => exists x, r = inl x /\ x <> 183
      | w_CopyFile _ _ _ | w_CreateSymbolicLink _ _ _ | w_CreateHardLink _ _ => fun r => exists x, r = inl x
      | _ => fun _ => False
      end r
  end.

(** The system gives a code with every refusal of a change, and lists names. *)
Definition sane (e : event) : Prop :=
  proper_listing e /\
  match e with
  | Ev c r =>
      match c return wanswer c -> Prop with
      | w_CreateDirectoryEx _ _ | w_CopyFile _ _ _ | w_CreateSymbolicLink _ _ _ | w_CreateHardLink _ _ => fun r => r <> inl 0
      | _ => fun _ => True
      end r
  end.

(** * Proofs *)

Lemma filename_path : forall s q, filename Windows (split_components Windows s) = Ok q -> q = path_default \/ q = Path (native q) [] FILENAME.
Proof.
  intros s q H. destruct s as [|c0 s0]; [cbn in H; injection H as <-; left; reflexivity|]. remember (c0 :: s0) as s eqn:Es. assert (Hs : s <> []) by (subst; discriminate).
  destruct (split_root no_wsep s) as [rn rest] eqn:Hr. destruct (wsplit s rn rest Hs Hr) as [_ Hp]. rewrite Hp in H.
  destruct (root_comps rn rest ++ wtok (length rn) [] rest ++ trail rest (length s)) as [|c [|c1 cs]].
  - unfold trim in H. cbn [comps] in H. unfold filename in H. destruct (empty _); [injection H as <-; left; reflexivity|]. cbn [ptyp comps pathname map last] in H.
    destruct (match last (map Some s) None with Some c => _ | None => _ end); [injection H as <-; left; reflexivity|discriminate].
  - rewrite trim_single in H. unfold filename in H. destruct (empty _); [injection H as <-; left; reflexivity|]. cbn [ptyp] in H.
    destruct (c_type c) eqn:Ec; try (injection H as <-; left; reflexivity).
    + cbn [comps map last pathname] in H. destruct (match last (map Some (c_str c)) None with Some c => _ | None => _ end); [injection H as <-; left; reflexivity|discriminate].
    + injection H as <-. right. reflexivity.
  - rewrite trim_other in H by (cbn; lia). unfold filename in H. destruct (empty _); [injection H as <-; left; reflexivity|]. cbn [ptyp comps pathname] in H.
    destruct (match last (map Some s) None with Some c => _ | None => _ end); [injection H as <-; left; reflexivity|].
    destruct (last (map Some (c :: c1 :: cs)) None) as [x|]; [|discriminate]. destruct (c_type x) eqn:Ex; cbn [ptype_eqb] in H; try (injection H as <-; left; reflexivity).
    injection H as <-. right. unfold comp_path. rewrite Ex. reflexivity.
Qed.

Lemma filename_bare : forall s q, filename Windows (split_components Windows s) = Ok q -> comps q = [] /\ (ptyp q = FILENAME \/ ptyp q = MULTI).
Proof. intros s q H. destruct (filename_path s q H) as [-> | ->]; cbn; auto. Qed.

(** Appending a last name, whatever it is. *)
Lemma append_bare : forall E s q, s <> [] -> comps q = [] -> ptyp q = FILENAME \/ ptyp q = MULTI ->
  path_append Windows E true (split_components Windows s) q = Ok (split_components Windows (native (split_components Windows s) ++ joint s ++ native q)).
Proof.
  intros E s [pn cs ty] Hs Hc Ht. cbn in Hc, Ht. subst cs. destruct (split_root no_wsep s) as [rn rest] eqn:Hr. unfold path_append.
  assert (H1 : is_absolute Windows E (Path pn [] ty) = false) by (destruct E as [e1 e2 e3], Ht as [-> | ->]; destruct e3; reflexivity).
  assert (H2 : has_root_name (Path pn [] ty) = false) by (destruct E as [e1 e2 e3], Ht as [-> | ->]; destruct e3; reflexivity).
  assert (H3 : has_root_directory Windows E (Path pn [] ty) = false) by (destruct E as [e1 e2 e3], Ht as [-> | ->]; destruct e3; reflexivity).
  rewrite H1, H2, H3. cbn [andb orb].
  rewrite (filename_split s rn rest Hs Hr), (has_root_directory_split E s rn rest Hr), (is_absolute_split E s rn rest Hr). cbn [bind].
  assert (Hb : (negb (wstarts rest) && (host_root rn || wstarts rest)) = (negb (wstarts rest) && host_root rn)).
  { destruct (wstarts rest); [reflexivity|]. rewrite orb_false_r. reflexivity. }
  rewrite Hb. unfold joint. rewrite Hr. unfold native, swap. cbn [fst ptyp comps pathname].
  replace (ptype_eqb ty ROOT_NAME) with false by (destruct E as [e1 e2 e3], Ht as [-> | ->]; destruct e3; reflexivity).
  destruct ((negb (is_nil (wnames rest)) && negb (wends rest)) || (negb (wstarts rest) && host_root rn));
    change (preferred_separator Windows) with backslash; rewrite <- ?app_assoc;
    destruct (split_components Windows _); reflexivity.
Qed.

Lemma div_bare : forall E s q, stable s -> comps q = [] -> ptyp q = FILENAME \/ ptyp q = MULTI ->
  path_div Windows E (split_components Windows s) q = Ok (split_components Windows (entry_text s (native q))).
Proof.
  intros E s q Hs Hc Ht. pose proof Hs as [Hne Hst]. unfold path_div. rewrite append_bare by assumption. cbn [bind].
  rewrite Hst, entry_text_joint by exact Hne. unfold fin. destruct (el_other E); [reflexivity|].
  pose proof (split_native (s ++ joint s ++ native q)) as H. unfold native at 1 in H. rewrite H. reflexivity.
Qed.

Lemma entry_filename : forall d n, stable d -> proper n -> filename Windows (wpath (entry_text d n)) = Ok (split_components Windows n).
Proof.
  intros d n Hd Hn. destruct (C75_filename (entry_text d n)) as (q & Hq & Hnq). change (filename Windows (wpath (entry_text d n)) = Ok q) in Hq. rewrite Hq. f_equal.
  destruct (split_root no_wsep d) as [rn rest] eqn:Hr. rewrite (split_root_join d n rn rest Hd Hn Hr) in Hnq. cbn [snd] in Hnq. cbv zeta in Hnq.
  rewrite app_assoc in Hnq. rewrite (wends_last _ n Hn) in Hnq. rewrite <- app_assoc in Hnq.
  assert (Hone : wnames n = [n]) by (apply wnames_plain; apply Hn).
  assert (Hw : last (wnames (rest ++ joint d ++ n)) [] = n).
  { unfold joint. rewrite Hr. destruct ((negb (is_nil (wnames rest)) && negb (wends rest)) || (negb (wstarts rest) && host_root rn)) eqn:Ej.
    - cbn [app]. rewrite wnames_app by reflexivity. rewrite Hone, last_last. reflexivity.
    - cbn [app]. apply orb_false_elim in Ej. destruct Ej as [Ej _]. destruct rest as [|r0 rest0]; [cbn [app]; rewrite Hone; reflexivity|].
      destruct (wends (r0 :: rest0)) eqn:We.
      + destruct (wends_snoc _ We) as (u & c & -> & Hc). rewrite <- app_assoc. cbn [app]. rewrite wnames_app by exact Hc. rewrite Hone, last_last. reflexivity.
      + exfalso. assert (K : wnames (r0 :: rest0) <> []) by (apply wnames_ends; [discriminate|exact We]). destruct (wnames (r0 :: rest0)); [congruence|discriminate]. }
  rewrite Hw in Hnq. assert (Hne : native q <> []) by (rewrite Hnq; apply Hn). destruct (filename_path _ q Hq) as [-> | ->]; [contradiction Hne; reflexivity|]. rewrite Hnq, name_path by exact Hn. reflexivity.
Qed.

(** ** What every run does *)

Section Runs.
Variable dbg : bool.
Variable E : elision.
Variable m : signed_mode.
Variable ac : N -> N.
Variable tps : Z.
Variables from to : str.

Definition allowed (l : list event) (c : wcall) : Prop := changes c = true -> exists a b, goes_with from to a b /\ copies a b c.

Definition grow (l l' : list event) : Prop := exists d, l' = l ++ d /\ Forall (fun x => ~ refused x) d.

Lemma grow_refl : forall l, grow l l.
Proof. intros l. exists []. split; [rewrite app_nil_r; reflexivity|constructor]. Qed.

Lemma grow_trans : forall a b c, grow a b -> grow b c -> grow a c.
Proof. intros a b c (d & -> & Hd) (e & -> & He). exists (d ++ e). split; [rewrite app_assoc; reflexivity|]. apply Forall_app. split; assumption. Qed.

Lemma grow_one : forall l c r, ~ refused (Ev c r) -> grow l (l ++ [Ev c r]).
Proof. intros l c r H. exists [Ev c r]. split; [reflexivity|]. constructor; [exact H|constructor]. Qed.

Notation safe := (safe sane allowed).

(** Programs that change nothing. *)
Definition quiet {A} (l : list event) (p : wprog A) : Prop := safe l p (fun l' _ _ => grow l l').

Lemma quiet_ret : forall A (a : A) e l, quiet l (wret a e).
Proof. intros. apply grow_refl. Qed.

Lemma quiet_end : forall A (r : wres A) l, quiet l (WEnd (WE r)).
Proof. intros A [a e|c|] l; cbn; auto. apply grow_refl. Qed.

Lemma quiet_fail : forall A has (v : A) e l, quiet l (wfail dbg has v e).
Proof. intros. apply quiet_end. Qed.

Lemma quiet_ask : forall A c (k : wanswer c -> wprog A) l, changes c = false -> (forall r, quiet (l ++ [Ev c r]) (k r)) -> quiet l (WSys c k).
Proof.
  intros A c k l Hc H. cbn. split; [intros K; congruence|]. intros r _. eapply safe_weaken; [apply H|]. intros l' a e K. cbn in K.
  eapply grow_trans; [|exact K]. apply grow_one. intros X. destruct c; try discriminate Hc; exact X.
Qed.

Lemma quiet_bind : forall A B (p : wprog A) (f : A -> N -> wprog B) l Q, quiet l p -> (forall l' a e, grow l l' -> safe l' (f a e) Q) -> safe l (wbind p f) Q.
Proof. intros A B p f l Q Hp Hf. eapply safe_bind; [exact Hp|]. cbn. auto. Qed.

Lemma quiet_status : forall has p l, quiet l (wstatus_of dbg has p).
Proof. intros. apply quiet_ask; [reflexivity|]. intros. apply quiet_end. Qed.

Lemma quiet_symlink_status : forall has p l, quiet l (wsymlink_status_of dbg has p).
Proof. intros. apply quiet_ask; [reflexivity|]. intros. apply quiet_end. Qed.

Lemma quiet_equivalent : forall has p q l, quiet l (wequivalent dbg has p q).
Proof.
  intros. apply quiet_ask; [reflexivity|]. intros [x|x]; [apply quiet_fail|]. apply quiet_ask; [reflexivity|]. intros [y|y]; [apply quiet_fail|apply quiet_ret].
Qed.

Lemma quiet_time : forall has p l, quiet l (wlast_write_time dbg m tps has p).
Proof.
  intros. apply quiet_ask; [reflexivity|]. intros [x|x]; [apply quiet_fail|]. destruct (FileTimeTypeFromWindowsFileTime m tps (Z.of_N x)); cbn; auto. apply grow_refl.
Qed.

Lemma quiet_read : forall has p l, quiet l (wread_symlink dbg has p).
Proof. intros. apply quiet_ask; [reflexivity|]. intros [x|x]; [apply quiet_fail|apply quiet_ret]. Qed.

Lemma quiet_directory : forall p l, quiet l (wis_directory_ec dbg p).
Proof. intros. unfold wis_directory_ec. apply quiet_bind; [apply quiet_status|]. intros l' a e H. cbn. exact H. Qed.

(** The code 0 tells that nothing was refused. *)
Definition done {A} (l : list event) (l' : list event) (_ : A) (e : N) : Prop := e = 0 -> grow l l'.

Lemma bad_safe : forall A has (v : A) e l l', e <> 0 -> safe l' (wbad has v e) (done l).
Proof. intros A has v e l l' He. unfold wbad, wreport. destruct has; cbn; auto. intros K. contradiction. Qed.

Lemma bad_safe_grow : forall A has (v : A) e l l', grow l l' -> safe l' (wbad has v e) (done l).
Proof. intros A has v e l l' He. unfold wbad, wreport. destruct has; cbn; auto. intros K. exact He. Qed.

Lemma change_safe : forall has l l' c (k : wanswer c -> wprog unit), grow l l' -> allowed l' c ->
  (forall r, sane (Ev c r) -> (~ refused (Ev c r) /\ k r = wret tt 0) \/ exists e, e <> 0 /\ k r = wfail dbg has tt e) ->
  safe l' (WSys c k) (done l).
Proof.
  intros has l l' c k Hg Hc H. cbn. split; [exact Hc|]. intros r Hr. destruct (H r Hr) as [[Hn ->]|(e & He & ->)].
  - cbn. intros _. eapply grow_trans; [exact Hg|]. apply grow_one. exact Hn.
  - unfold wfail, wcapture, wreport. destruct (dbg && (e =? 0)); [cbn; auto|]. destruct has; cbn; auto. intros K. contradiction.
Qed.

Lemma link_safe : forall has l l' a b t d, grow l l' -> goes_with from to a b ->
  safe l' (WSys (w_CreateSymbolicLink b t d) (fun r : N + unit => wsimple dbg has r)) (done l).
Proof.
  intros has l l' a b t d Hg Hab. apply (change_safe has); [exact Hg| |].
  - intros _. exists a, b. split; [exact Hab|]. right. right. right. right. eauto.
  - intros [e|[]] [_ Hs]; cbn in Hs.
    + right. exists e. split; [intros ->; apply Hs; reflexivity|reflexivity].
    + left. split; [|reflexivity]. intros (x & K). discriminate.
Qed.

Lemma hard_safe : forall has l l' a b, grow l l' -> goes_with from to a b ->
  safe l' (WSys (w_CreateHardLink b a) (fun r : N + unit => wsimple dbg has r)) (done l).
Proof.
  intros has l l' a b Hg Hab. apply (change_safe has); [exact Hg| |].
  - intros _. exists a, b. split; [exact Hab|]. right. right. right. left. reflexivity.
  - intros [e|[]] [_ Hs]; cbn in Hs.
    + right. exists e. split; [intros ->; apply Hs; reflexivity|reflexivity].
    + left. split; [|reflexivity]. intros (x & K). discriminate.
Qed.

Lemma symlink_safe : forall has l l' a b, grow l l' -> goes_with from to a b -> native (wpath b) = b ->
  safe l' (wcopy_symlink dbg has (wpath a) (wpath b)) (done l).
Proof.
  intros has l l' a b Hg Hab Hb. unfold wcopy_symlink. apply quiet_bind; [apply quiet_read|]. intros l1 real e H1. pose proof (grow_trans _ _ _ Hg H1) as G1.
  destruct (negb (e =? 0)); [apply bad_safe_grow; exact G1|].
  apply quiet_bind; [apply quiet_directory|]. intros l2 d e2 H2. pose proof (grow_trans _ _ _ G1 H2) as G2.
  destruct (negb (e2 =? 0)); [apply bad_safe_grow; exact G2|].
  destruct d; [unfold wcreate_directory_symlink|unfold wcreate_symlink]; rewrite Hb; eapply link_safe; eassumption.
Qed.

Lemma file_safe : forall has l l' a b t o, grow l l' -> goes_with from to a b -> native (wpath a) = a -> native t = b \/ (exists n, named a n /\ t = wpath (entry_text b n)) ->
  safe l' (wcopy_file dbg m tps has (wpath a) t o) (done l).
Proof.
  intros has l l' a b t o Hg Hab Ha Ht. unfold wcopy_file. apply quiet_bind; [apply quiet_status|]. intros l1 fs e1 H1. pose proof (grow_trans _ _ _ Hg H1) as G1.
  destruct (negb (e1 =? 0)); [apply bad_safe_grow; exact G1|]. destruct (negb (wis ft_regular fs)); [apply bad_safe_grow; exact G1|].
  apply quiet_bind; [apply quiet_status|]. intros l2 ts e2 H2. pose proof (grow_trans _ _ _ G1 H2) as G2.
  destruct (negb (wknown ts)); [apply bad_safe_grow; exact G2|]. cbv zeta. destruct (wexists (fst ts) && negb (wis ft_regular ts)); [apply bad_safe_grow; exact G2|].
  apply quiet_bind; [destruct (wexists (fst ts)); [apply quiet_equivalent|apply quiet_ret]|]. intros l3 same e3 H3. pose proof (grow_trans _ _ _ G2 H3) as G3.
  destruct same; [apply bad_safe_grow; exact G3|]. destruct (wexists (fst ts) && wopt co_skip_existing o); [cbn; intros _; exact G3|].
  assert (Hcopy : forall l4, grow l l4 -> safe l4 (WSys (w_CopyFile (native (wpath a)) (native t) false) (fun r : N + unit => match r with inr _ => wret true 0 | inl e => wfail dbg has false e end)) (done l)).
  { intros l4 G4. cbn. split.
    - intros _. exists a, b. split; [exact Hab|]. rewrite Ha. destruct Ht as [-> |(n & Hn & ->)]; [right; left; reflexivity|right; right; left; exists n; auto].
    - intros [e|[]] [_ Hs].
      + unfold wfail, wcapture, wreport. destruct (dbg && (e =? 0)); [cbn; auto|]. destruct has; cbn; auto. intros ->. contradiction Hs. reflexivity.
      + cbn. intros _. eapply grow_trans; [exact G4|]. apply grow_one. intros (x & K). discriminate. }
  destruct (wexists (fst ts) && wopt co_update_existing o).
  - apply quiet_bind; [apply quiet_time|]. intros l4 t1 e4 H4. pose proof (grow_trans _ _ _ G3 H4) as G4. destruct (negb (e4 =? 0)); [apply bad_safe_grow; exact G4|].
    apply quiet_bind; [apply quiet_time|]. intros l5 t2 e5 H5. pose proof (grow_trans _ _ _ G4 H5) as G5. destruct (negb (e5 =? 0)); [apply bad_safe_grow; exact G5|].
    destruct (t2 <=? t1)%Z; [apply Hcopy; exact G5|cbn; intros _; exact G5].
  - destruct (negb (wexists (fst ts)) || wopt co_overwrite_existing o); [apply Hcopy; exact G3|apply bad_safe_grow; exact G3].
Qed.

Lemma like_safe : forall has l l' a b, grow l l' -> goes_with from to a b -> native (wpath a) = a -> native (wpath b) = b ->
  safe l' (wcreate_directory_like dbg has (wpath b) (wpath a)) (done l).
Proof.
  intros has l l' a b Hg Hab Ha Hb. unfold wcreate_directory_like. rewrite Ha, Hb. cbn. split.
  - intros _. exists a, b. split; [exact Hab|left; reflexivity].
  - intros [e|[]] [_ Hs].
    + unfold ERROR_ALREADY_EXISTS. destruct (N.eqb_spec e 183) as [->|He]; cbn [negb].
      * cbn. intros _. eapply grow_trans; [exact Hg|]. apply grow_one. intros (x & K & Hx). injection K as <-. contradiction.
      * unfold wfail, wcapture, wreport. destruct (dbg && (e =? 0)); [cbn; auto|]. destruct has; cbn; auto. intros ->. contradiction Hs. reflexivity.
    + cbn. intros _. eapply grow_trans; [exact Hg|]. apply grow_one. intros (x & K & _). discriminate.
Qed.

Lemma copy_safe : forall has o n l a b, stable a -> stable b -> goes_with from to a b ->
  safe l (wcopy dbg E m ac tps n has (wpath a) (wpath b) o) (done l).
Proof.
  intros has o n. induction n as [|n IH]; intros l a b Ha Hb Hab; [exact Logic.I|]. cbn [wcopy]. cbv zeta.
  pose proof Ha as [Hane Hast]. pose proof Hb as [Hbne Hbst]. change (split_components Windows a) with (wpath a) in Hast. change (split_components Windows b) with (wpath b) in Hbst.
  set (cs := wset co_create_symlinks o). set (ss := wset co_skip_symlinks o). set (ps := wset co_copy_symlinks o).
  apply quiet_bind; [destruct (cs || ss || ps); [apply quiet_symlink_status|apply quiet_status]|]. intros l1 f e1 G1.
  destruct (negb (e1 =? 0)); [apply bad_safe_grow; exact G1|].
  apply quiet_bind; [destruct (cs || ss); [apply quiet_symlink_status|apply quiet_status]|]. intros l2 t e2 H2. pose proof (grow_trans _ _ _ G1 H2) as G2.
  destruct (negb (wknown t)); [apply bad_safe_grow; exact G2|].
  destruct (negb (wexists (fst f)) || wis_other f || wis_other t || wis ft_directory f && wis ft_regular t); [apply bad_safe_grow; exact G2|].
  apply quiet_bind; [destruct (wexists (fst f) && wexists (fst t)); [apply quiet_equivalent|apply quiet_ret]|]. intros l3 same e3 H3. pose proof (grow_trans _ _ _ G2 H3) as G3.
  destruct (negb (e3 =? 0)); [apply bad_safe_grow; exact G3|]. destruct same; [apply bad_safe_grow; exact G3|].
  destruct (wis ft_symlink f).
  { destruct ss; [cbn; intros _; exact G3|]. destruct (negb (wexists (fst t))); [apply (symlink_safe has l l3 a b); assumption|apply bad_safe_grow; exact G3]. }
  destruct (wis ft_regular f).
  { destruct (wset co_directories_only o); [cbn; intros _; exact G3|].
    destruct cs; [unfold wcreate_symlink; rewrite Hbst; eapply link_safe; eassumption|].
    destruct (wset co_create_hard_links o); [unfold wcreate_hard_link; rewrite Hast, Hbst; eapply hard_safe; eassumption|].
    destruct (wis ft_directory t).
    - destruct (filename Windows (wpath a)) as [fn| | |] eqn:Ef; try exact Logic.I. cbn [wlift].
      destruct (filename_bare a fn Ef) as [Hc Ht]. unfold wpath at 1. rewrite (div_bare E b fn Hb Hc Ht). cbn [wlift].
      eapply safe_bind; [apply (file_safe has l l3 a b); [exact G3|exact Hab|exact Hast|]|].
      + right. exists (native fn). split; [exists fn; auto|reflexivity].
      + intros l4 v e4 H4. cbn. exact H4.
    - eapply safe_bind; [apply (file_safe has l l3 a b); [exact G3|exact Hab|exact Hast|left; exact Hbst]|]. intros l4 v e4 H4. cbn. exact H4. }
  destruct (wis ft_directory f && cs); [apply bad_safe_grow; exact G3|].
  destruct (wis ft_directory f && (wset co_recursive o || (o =? 0))); [|cbn; intros _; exact G3].
  eapply safe_bind with (Q1 := done l).
  { destruct (negb (wexists (fst t))); [apply (like_safe has l l3 a b); assumption|cbn; intros _; exact G3]. }
  intros l4 v e4 H4. destruct (N.eqb_spec e4 0) as [->|He4]; cbn [negb]; [|cbn; intros K; contradiction]. specialize (H4 eq_refl).
  cbn [WinRemoveAll.safe]. split; [intros K; discriminate|]. intros found Hv.
  destruct (wstream_open (snd found) ac false (fst found)) as [st ec].
  assert (G5 : grow l (l4 ++ [Ev (w_Find (native (wpath a))) found])) by (eapply grow_trans; [exact H4|]; apply grow_one; intros K; exact K).
  destruct (negb (ec =? 0)); [apply bad_safe_grow; exact G5|].
  destruct (wlisting ac found) as [[es stop]|] eqn:El; [|exact Logic.I].
  pose proof (wlisting_names ac found es stop _ El (proj1 Hv)) as Hnames. clear El Hv. revert G5. generalize (l4 ++ [Ev (w_Find (native (wpath a))) found]).
  induction es as [|x es IHe]; intros l5 G5; [cbn; intros _; exact G5|]. inversion Hnames as [|? ? Hx Hes]; subst. cbn [wcopy_entries].
  pose proof Hx as [Hxp _]. change (path_div Windows E (wpath a) (wpath (we_name x))) with (path_div Windows E (split_components Windows a) (split_components Windows (we_name x))).
  rewrite div_name by (exact Ha || exact Hxp). cbn [wlift]. change (split_components Windows (entry_text a (we_name x))) with (wpath (entry_text a (we_name x))).
  rewrite entry_filename by (exact Ha || exact Hxp). cbn [wlift].
  change (path_div Windows E (wpath b) (split_components Windows (we_name x))) with (path_div Windows E (split_components Windows b) (split_components Windows (we_name x))).
  rewrite div_name by assumption. cbn [wlift]. change (split_components Windows (entry_text b (we_name x))) with (wpath (entry_text b (we_name x))).
  eapply safe_bind; [apply (IH l5); [apply stable_entry; assumption|apply stable_entry; assumption|apply with_entry; assumption]|].
  intros l6 u e6 H6. destruct (N.eqb_spec e6 0) as [->|He6]; cbn [negb]; [|cbn; intros K; contradiction].
  apply IHe; [exact Hes|]. eapply grow_trans; [exact G5|]. apply H6. reflexivity.
Qed.

End Runs.
