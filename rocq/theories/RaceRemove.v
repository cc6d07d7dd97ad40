(** Where remove_all goes while other processes change the file system. *)
From Coq Require Import Ascii String Bool Arith NArith ZArith Lia.
From Verif Require Import Str PathModel PathSpec StrProofs PathProofs PathOps PathOps2 PathReach PathLaws
  FlagsModel TimeModel Prog DirModel OpsModel OpsProps FS FSProofs FSSpec FSOps FSPlace FSProps IterProps FSIter FSRemove RaceProps Chronicle.
From Coq Require Import List.
Import ListNotations.

(** * Vocabulary *)

(** lstat(2) was asked for [t] and answered that it is a directory. *)
Definition seen_dir {S} (l : list (deed S)) (t : str) : Prop :=
  exists s st, In (Deed s (c_lstat t) (Val st)) l /\ format_type (st_mode st) = ft_directory.

(** lstat(2) was asked for [t] and answered that it exists. *)
Definition seen {S} (l : list (deed S)) (t : str) : Prop := exists s st, In (Deed s (c_lstat t) (Val st)) l.

(** [t] is [t0], or below it by way of names, and everything on the way was seen to be a directory before. *)
Definition on_the_way {S} (l : list (deed S)) (t0 t : str) : Prop :=
  exists ns, Forall (fun n => good_name n = true) ns /\ t = down t0 ns /\ forall a b, ns = a ++ b -> b <> [] -> seen_dir l (down t0 a).

(** The calls allowed to remove_all([t0]) when [l] has been done: nothing but looking at, listing and removing what is [t0] or below it; what is listed was seen to be a
    directory, what is removed was seen. *)
Definition in_bounds {S} (t0 : str) (l : list (deed S)) (c : call) : Prop :=
  match c with
  | c_lstat t => on_the_way l t0 t
  | c_opendir t => on_the_way l t0 t /\ seen_dir l t
  | c_remove t => on_the_way l t0 t /\ seen l t
  | c_readdir _ | c_closedir _ => True
  | _ => False
  end.

(** * Proof: what a program does, given what was done before *)

Section Bounds.
Context {S : Type} (t0 : str).

Lemma seen_dir_grown : forall (l l1 : list (deed S)) t, grown l l1 -> seen_dir l t -> seen_dir l1 t.
Proof. intros l l1 t Hg (s & st & H1 & H2). exists s, st. split; auto. Qed.
Lemma seen_grown : forall (l l1 : list (deed S)) t, grown l l1 -> seen l t -> seen l1 t.
Proof. intros l l1 t Hg (s & st & H). exists s, st. auto. Qed.
Lemma way_grown : forall (l l1 : list (deed S)) t, grown l l1 -> on_the_way l t0 t -> on_the_way l1 t0 t.
Proof. intros l l1 t Hg (ns & H1 & H2 & H3). exists ns. split; auto. split; auto. intros a b E Hb. eapply seen_dir_grown; eauto. Qed.
Lemma way_down : forall (l : list (deed S)) t n, on_the_way l t0 t -> seen_dir l t -> good_name n = true -> on_the_way l t0 (entry_of t n).
Proof.
  intros l t n (ns & H1 & -> & H3) Hs Hn. exists (ns ++ [n]). split; [apply Forall_app; auto|]. split; [unfold down; rewrite fold_left_app; reflexivity|].
  intros a b E Hb. destruct b as [|x b] using rev_ind; [congruence|]. clear IHb. rewrite app_assoc in E. apply app_inj_tail in E as [E _]. subst ns.
  destruct b as [|y b]; [rewrite app_nil_r in Hs; exact Hs|]. eapply H3; [reflexivity|discriminate].
Qed.

Lemma bounded_status : forall (l : list (deed S)) p, on_the_way l t0 (native p) ->
  bounded (in_bounds t0) l (symlink_status_impl true p) (fun r l1 => grown l l1 /\ (snd r = None -> seen l1 (native p) /\ (st_is_directory (fst r) = true -> seen_dir l1 (native p)))).
Proof.
  intros l p Hp. unfold symlink_status_impl, GetLinkStatus. cbn [pbind bounded in_bounds]. split; [exact Hp|]. intros s a _. unfold CreateFileStatus. destruct a as [e|st].
  - destruct (errno_eqb e ENOENT || errno_eqb e ENOTDIR); cbn; (split; [apply grown_snoc|discriminate]).
  - cbn. split; [apply grown_snoc|]. intros _. assert (Hin : In (Deed s (c_lstat (native p)) (Val st)) (l ++ [Deed s (c_lstat (native p)) (Val st)])) by (apply in_or_app; right; left; auto).
    split; [exists s, st; auto|]. intros Hd. exists s, st. split; auto. rewrite <- type_of_mode_format. unfold st_is_directory, has_type in Hd. cbn in Hd.
    destruct (type_of_mode (st_mode st)); try discriminate Hd. reflexivity.
Qed.

Lemma bounded_loop : forall cf rec n p, canon p ->
  (forall (l : list (deed S)) p1, canon p1 -> on_the_way l t0 (native p1) -> bounded (in_bounds t0) l (rec p1) (fun _ l1 => grown l l1)) ->
  forall k (l : list (deed S)) it ec count, iter_entry p it -> on_the_way l t0 (native p) -> seen_dir l (native p) ->
  bounded (in_bounds t0) l (remove_loop cf rec n k it ec count) (fun _ l1 => grown l l1).
Proof.
  intros cf rec n p Cp Hrec. induction k as [|k IH]; intros l it ec count Hi Hw Hd; [exact Logic.I|]. cbn [remove_loop].
  destruct (failed ec || is_end it) eqn:E; [apply grown_refl|]. apply bounded_bind. destruct it as [st|]; [|rewrite orb_true_r in E; discriminate].
  destruct Hi as [Hr (H1 & H2 & nm & H3 & H4)]. rewrite Hr in *.
  apply bounded_unwinding; [|intros l1; apply bounded_destroy; cbn; auto]. cbn [dir_iter_deref pbind].
  eapply bounded_weaken; [|apply Hrec; [exact H2|rewrite H4; apply way_down; auto]]. intros [c e] l1 G. cbn [fst snd].
  destruct (failed e).
  - apply bounded_bind. apply bounded_destroy; [intros; exact Logic.I|]. intros l2 G2. cbn. eapply grown_trans; eauto.
  - apply bounded_bind. eapply bounded_weaken; [|apply (bounded_increment (in_bounds t0) ltac:(intros; exact Logic.I) ltac:(intros; exact Logic.I) cf n l1 p); split; [exact Hr|]; split; [rewrite Hr; auto|split; [auto|exists nm; rewrite Hr; auto]]].
    intros [it1 ec1] l2 (G2 & Hi2). cbn [fst snd] in *. assert (G3 : grown l l2) by (eapply grown_trans; eauto).
    eapply bounded_weaken; [|apply IH; auto; [eapply way_grown; eauto|eapply seen_dir_grown; eauto]]. intros ? l3 G4. eapply grown_trans; eauto.
Qed.

Lemma bounded_remove : forall (l : list (deed S)) p, on_the_way l t0 (native p) -> seen l (native p) -> bounded (in_bounds t0) l (remove_impl true p) (fun _ l1 => grown l l1).
Proof.
  intros l p Hp Hs. unfold remove_impl. destruct (empty p); [apply grown_refl|]. cbn [bounded in_bounds]. split; [split; auto|]. intros s a _.
  destruct a as [e|u]; [destruct (errno_eqb e ENOENT); cbn|cbn]; apply grown_snoc.
Qed.

Lemma bounded_do : forall cf n (l : list (deed S)) p, canon p -> on_the_way l t0 (native p) -> bounded (in_bounds t0) l (do_remove_all_impl cf n p) (fun _ l1 => grown l l1).
Proof.
  intros cf. induction n as [|n IH]; intros l p Cp Hp; [exact Logic.I|]. cbn [do_remove_all_impl]. apply bounded_bind.
  eapply bounded_weaken; [|apply bounded_status; exact Hp]. intros [st e] l1 (G & Hs). cbn [fst snd] in *.
  destruct e as [e|]; cbn [failed]; [exact G|]. destruct (Hs eq_refl) as [Hs1 Hs2]. apply bounded_bind.
  assert (Hend : forall l2, grown l1 l2 -> forall c, bounded (in_bounds t0) l2 (if failed (snd c) then Ret (u64_max, snd c) else let! r := remove_impl true p in if fst r then Ret (fst c, None) else Ret (u64_max, snd r)) (fun _ l3 => grown l l3)).
  { intros l2 G2 [c e]. cbn [fst snd]. assert (G3 : grown l l2) by (eapply grown_trans; eauto). destruct (failed e); [exact G3|]. apply bounded_bind.
    eapply bounded_weaken; [|apply bounded_remove; [exact (way_grown _ _ _ G3 Hp)|exact (seen_grown _ _ _ G2 Hs1)]]. intros [b e2] l3 G4. cbn. destruct b; cbn; exact (grown_trans _ _ _ G3 G4). }
  destruct (st_is_directory st).
  - apply bounded_bind. assert (Hp1 : on_the_way l1 t0 (native p)) by exact (way_grown _ _ _ G Hp).
    eapply bounded_weaken; [|apply bounded_ctor; [intros; exact Logic.I|intros; exact Logic.I|auto|split; auto]]. intros [it ec] l2 (G2 & Hi). cbn [fst snd] in *.
    eapply bounded_weaken; [|apply (bounded_loop cf _ n p Cp); [intros; apply IH; auto|exact Hi|exact (way_grown _ _ _ G2 Hp1)|exact (seen_dir_grown _ _ _ G2 (Hs2 eq_refl))]].
    intros c l3 G3. apply Hend. exact (grown_trans _ _ _ G2 G3).
  - cbn [bounded]. apply (Hend l1 (grown_refl l1) (1%Z, None)).
Qed.
End Bounds.

Lemma bounded_all : forall S cf n has p, canon p -> @bounded S (in_bounds (native p)) _ [] (remove_all_impl cf n has p) (fun _ _ => True).
Proof.
  intros S cf n has p Cp. unfold remove_all_impl. destruct (empty p); [exact Logic.I|]. apply bounded_bind. eapply bounded_weaken; [|apply bounded_do; auto].
  - intros [c e] l1 _. cbn. destruct e as [e|]; cbn; [|exact Logic.I]. destruct (errno_eqb e ENOENT); [exact Logic.I|]. unfold report. destruct has; exact Logic.I.
  - exists []. split; [constructor|]. split; [reflexivity|]. intros a b E Hb. symmetry in E. apply app_eq_nil in E as [_ E]. congruence.
Qed.

(** * C102: where the calls go *)

(** Whatever the system answers and whatever other processes do: every call of remove_all(p) is for p or something below it, reached by names alone through what was seen to be
    directories; it lists nothing that was not seen to be a directory and removes nothing that was not seen. *)
Theorem C102_bounds : forall S (h : kernel S) cf n has p s, honest_from h s -> canon p ->
  heeds (in_bounds (native p)) (snd (state_of (run (chronicled h) (remove_all_impl cf n has p) (s, [])))).
Proof.
  intros S h cf n has p s (I & Hi & Hh) Cp. apply (bounded_run (in_bounds (native p)) _ _ h (fun u l => I u /\ heeds (in_bounds (native p)) l) s [] (fun _ _ => True)).
  - intros u l c [Hu Hl] Hc. destruct (Hh c u Hu) as [H1 H2]. split; [exact H1|]. split; [exact H2|]. apply kept_snoc; auto.
  - split; [exact Hi|]. intros a ? ? ? b H. destruct a; discriminate.
  - apply bounded_all. auto.
Qed.

(** * Other processes that bring no symlinks *)

(** There is a symlink at [r]. *)
Definition link_at (s : fs) (r : loc) : Prop := exists i t, look (f_root s) r = Some (NLeaf i) /\ link_text s i = Some t.

(** Other processes do not change the directory streams of this one, and at [q], above it and below it they bring no symlink to where none was. *)
Definition brings_no_link (q : loc) (f : fs -> fs) : Prop :=
  forall s, wf s -> wf (f s) /\ f_dirs (f s) = f_dirs s /\ forall r, below q r = true \/ below r q = true -> link_at (f s) r -> link_at s r.

(** The names still to come in the directory streams have no slash in them. *)
Definition streams_ok (s : fs) : Prop := forall h l, In (h, l) (f_dirs s) -> Forall (fun e => noslash (fst e)) l.

(** The state a call of [interfered] finds. *)
Definition now (st : fs * list (fs -> fs)) : fs := match snd st with [] => fst st | f :: _ => f (fst st) end.

(** The call left every place outside [q] and the content of every object as it found them. *)
Definition left_outside (k : choices) (q : loc) (d : deed (fs * list (fs -> fs))) : Prop :=
  match d with Deed st c _ => same_outside (now st) (snd (fsk k c (now st))) q /\ f_body (snd (fsk k c (now st))) = f_body (now st) end.

Lemma join_snoc_place : forall r n, good_place r -> good_name n = true -> entry_of (place_text r) n = place_text (r ++ [n]).
Proof.
  intros r n Hr Hn. unfold entry_of. rewrite ends_place by auto. cbn [is_nil place_text orb]. unfold place_text. cbn [app]. f_equal.
  destruct r as [|a r]; [reflexivity|]. rewrite join_snoc by discriminate. reflexivity.
Qed.

Lemma down_place : forall ns r, good_place r -> good_place ns -> down (place_text r) ns = place_text (r ++ ns).
Proof.
  induction ns as [|n ns IH]; intros r Hr Hn; [rewrite app_nil_r; reflexivity|]. inversion Hn; subst. unfold down. cbn [fold_left]. rewrite join_snoc_place by auto.
  fold (down (place_text (r ++ [n])) ns). rewrite IH, <- app_assoc; auto. apply Forall_app. auto.
Qed.

(** Without symlinks on the way, names lead to their place or nowhere. *)
Lemma steps_straight : forall s last ns l cur m r, good_place ns -> (forall a b, ns = a ++ b -> b <> [] -> ~ link_at s (cur ++ a)) -> (last = false \/ ~ link_at s (cur ++ ns)) ->
  steps (look (f_root s)) (link_text s) last l cur ns = Found m r -> r = cur ++ ns.
Proof.
  intros s last. induction ns as [|n ns IH]; intros l cur m r Hg Hn Hl H; [destruct l; cbn in H; injection H as _ <-; symmetry; apply app_nil_r|].
  inversion Hg as [|? ? G1 G2]; subst. destruct (good_plain _ G1) as (_ & _ & _ & Hd). unfold is_dots in Hd.
  assert (Hnl : forall j t, look (f_root s) (cur ++ [n]) = Some (NLeaf j) -> link_text s j = Some t -> ns = [] /\ last = false).
  { intros j t E1 E2. destruct ns as [|b ns].
    - destruct Hl as [Hl|Hl]; auto. exfalso. apply Hl. exists j, t. auto.
    - exfalso. apply (Hn [n] (b :: ns) eq_refl ltac:(discriminate)). exists j, t. auto. }
  assert (Hgo : forall l', steps (look (f_root s)) (link_text s) last l' (cur ++ [n]) ns = Found m r -> r = cur ++ n :: ns).
  { intros l' E. apply IH in E; auto.
    - rewrite E, <- app_assoc. reflexivity.
    - intros a b Ea Hb. rewrite <- app_assoc. apply (Hn (n :: a) b); [rewrite Ea; reflexivity|auto].
    - destruct Hl as [Hl|Hl]; auto. right. rewrite <- app_assoc. exact Hl. }
  apply orb_false_iff in Hd as [D1 D2]. destruct l as [|l]; cbn [steps] in H;
    (destruct (look (f_root s) cur) as [[|]|]; try discriminate H; rewrite D1, D2 in H;
     destruct (look (f_root s) (cur ++ [n])) as [[j|j]|] eqn:Ej; [|first [exact (Hgo 0 H)|exact (Hgo (S l) H)]|destruct (is_nil ns); discriminate H];
     destruct (link_text s j) as [t|] eqn:Et; [destruct (Hnl j t eq_refl Et) as [-> ->]; cbn in H; injection H as _ <-; reflexivity|];
     destruct ns; cbn in H; [injection H as _ <-; reflexivity|discriminate H]).
Qed.

(** No symlink at any place above [r]. *)
Definition clear_to (s : fs) (r : loc) : Prop := forall a b, r = a ++ b -> b <> [] -> ~ link_at s a.

Lemma find_straight : forall k s r m r', good_place r -> clear_to s r -> find_at k s false (place_text r) = Found m r' -> r' = r.
Proof.
  intros k s r m r' Hg Hc H. unfold find_at, resolve_comps in H. rewrite comps_place, starts_place in H by auto. cbn [is_nil place_text] in H.
  apply (steps_straight s false r (k_links k) [] m r'); auto.
Qed.
Lemma entry_straight : forall k s r m r', good_place r -> clear_to s r -> find_entry k s (place_text r) = Found m r' -> r' = r.
Proof.
  intros k s r m r' Hg Hc H. unfold find_entry, resolve_comps in H. rewrite names_place, starts_place in H by auto. cbn [is_nil place_text] in H.
  apply (steps_straight s false r (k_links k) [] m r'); auto.
Qed.

Lemma remove_straight : forall k s r, wf s -> good_place r -> clear_to s r ->
  let s' := snd (fsk k (c_remove (place_text r)) s) in
  wf s' /\ f_dirs s' = f_dirs s /\ f_body s' = f_body s /\ (forall x, below r x = false -> look (f_root s') x = look (f_root s) x) /\ (forall x, link_at s' x -> link_at s x).
Proof.
  intros k s r Hw Hg Hc. cbn zeta. split; [apply wf_step; auto|]. cbn [fsk]. unfold sys_remove.
  assert (Hid : forall e : res unit, f_dirs (snd (e, s)) = f_dirs s /\ f_body (snd (e, s)) = f_body s /\ (forall x, below r x = false -> look (f_root (snd (e, s))) x = look (f_root s) x) /\ (forall x, link_at (snd (e, s)) x -> link_at s x)) by (intros; cbn; auto).
  destruct (find_entry k s (place_text r)) as [m r'|m n|e] eqn:E; try apply Hid. apply entry_straight in E; auto. subst r'.
  destruct (is_nil r) eqn:Er; [apply Hid|]. destruct (str_eqb (last_name (place_text r)) (lit ".")); [apply Hid|]. destruct (str_eqb (last_name (place_text r)) (lit "..")); [apply Hid|].
  assert (Hne : r <> []) by (intros ->; discriminate).
  assert (Hout : forall x, below r x = false -> look (delete_at (removelast r) (last r []) (f_root s)) x = look (f_root s) x) by (intros x Hx; apply look_delete_out; rewrite <- (snoc_removelast r Hne); exact Hx).
  assert (Hlk : forall x, (exists i t, look (delete_at (removelast r) (last r []) (f_root s)) x = Some (NLeaf i) /\ link_text s i = Some t) -> link_at s x).
  { intros x (i & t & H1 & H2). exists i, t. split; auto. eapply look_delete_sub; eauto. apply wf_root. auto. }
  destruct (get (f_root s) r) as [[i|i l]|]; [|destruct (is_nil l); [|apply Hid]|apply Hid].
  - destruct (ends_slash _); [apply Hid|]. cbn. auto.
  - cbn. auto.
Qed.

Lemma streams_opened : forall k s l h, wf_tree (Dir h l) -> Forall (fun e => noslash (fst e)) (dot_entries k ++ listing k s l).
Proof.
  intros k s l h Hw. apply wf_tree_dir in Hw as (_ & Hn & _). apply Forall_app. split; [repeat constructor|]. unfold listing. rewrite Forall_map. cbn.
  eapply Forall_impl; [|exact Hn]. intros e He. apply good_plain in He. tauto.
Qed.
Lemma in_nupdate : forall A (l : list (N * A)) d y h x, In (h, x) (nupdate d y l) -> In (h, x) l \/ (x = y /\ exists z, nassoc d l = Some z).
Proof.
  induction l as [|[m z] l IH]; cbn; intros d y h x H; auto. destruct (N.eqb m d) eqn:E.
  - destruct H as [H|H]; auto. injection H as <- <-. right. eauto.
  - destruct H as [H|H]; auto. apply IH in H as [H|H]; auto.
Qed.
Lemma in_ndelete : forall A (l : list (N * A)) d x, In x (ndelete d l) -> In x l.
Proof. induction l as [|[m z] l IH]; cbn; intros d x H; auto. destruct (N.eqb m d); auto. destruct H as [H|H]; auto. right. eauto. Qed.
Lemma nassoc_in : forall A (l : list (N * A)) d z, nassoc d l = Some z -> exists h, In (h, z) l.
Proof. induction l as [|[m y] l IH]; cbn; intros d z H; [discriminate|]. destruct (N.eqb m d); [injection H as <-; eauto|]. destruct (IH _ _ H) as [h Hh]. eauto. Qed.

(** The calls of remove_all in a state with good streams. *)
Lemma call_keeps : forall k c s, wf s -> streams_ok s -> match c with c_lstat _ | c_opendir _ | c_readdir _ | c_closedir _ => True | _ => False end ->
  honest c (fst (fsk k c s)) /\ streams_ok (snd (fsk k c s)) /\ f_root (snd (fsk k c s)) = f_root s /\ f_body (snd (fsk k c s)) = f_body s.
Proof.
  intros k c s Hw Hs Hc. destruct c; try contradiction; cbn [fsk honest].
  - cbn. auto.
  - unfold sys_opendir. destruct (find_at k s true _) as [m q|m n|e]; cbn; auto. destruct (get (f_root s) q) as [[i|i l]|] eqn:E; cbn; auto.
    repeat split; auto. intros h x [Hx|Hx]; [|apply (Hs h x Hx)]. injection Hx as _ <-. apply (streams_opened k s l i). eapply wf_get; eauto. apply wf_root. auto.
  - unfold sys_readdir. destruct (nassoc _ (f_dirs s)) as [[|e r]|] eqn:E; cbn; repeat split; auto; try (intros ? ? Hx; discriminate Hx).
    + intros n t Hx. injection Hx as Hx. destruct (nassoc_in _ _ _ _ E) as [h Hh]. specialize (Hs h _ Hh). inversion Hs; subst. cbn in *. auto.
    + intros h x Hx. apply in_nupdate in Hx as [Hx|[-> _]]; [apply (Hs h x Hx)|]. destruct (nassoc_in _ _ _ _ E) as [h' Hh]. specialize (Hs h' _ Hh). inversion Hs; auto.
  - cbn. repeat split; auto. intros h x Hx. apply in_ndelete in Hx. apply (Hs h x Hx).
Qed.

(** The calls that are not about directory streams leave them alone. *)
Lemma dirs_step : forall k c s, match c with c_opendir _ | c_readdir _ | c_closedir _ => False | _ => True end -> f_dirs (snd (fsk k c s)) = f_dirs s.
Proof.
  intros k c s H. destruct c; try contradiction; cbn [fsk snd]; auto;
  cbv beta delta [sys_truncate resize_obj sys_fchmodat sys_utimensat sys_chdir sys_mkdir sys_remove sys_rename sys_open sys_link sys_symlink sys_read sys_write sys_sendfile with_fd];
  repeat (cbv zeta; match goal with |- context[match ?x with _ => _ end] => destruct x; cbn [snd]; auto end).
Qed.

Lemma interfered_step : forall k st c, interfered k c st = (fst (fsk k c (now st)), (snd (fsk k c (now st)), tl (snd st))).
Proof. intros k [s [|f o]] c; cbn; destruct (fsk k c _); reflexivity. Qed.

(** The file system with other processes at work is a system as C102_bounds asks for, whatever those processes do to the files. *)
Theorem C102_honest : forall k s others, wf s -> streams_ok s -> (forall f u, In f others -> wf u -> wf (f u) /\ f_dirs (f u) = f_dirs u) -> honest_from (interfered k) (s, others).
Proof.
  intros k s others Hw Hs Ho. exists (fun st => wf (fst st) /\ streams_ok (fst st) /\ forall f u, In f (snd st) -> wf u -> wf (f u) /\ f_dirs (f u) = f_dirs u). split; [auto|].
  intros c st (W & K & O). rewrite interfered_step. cbn [fst snd].
  assert (H : wf (now st) /\ streams_ok (now st)).
  { destruct st as [u [|f o]]; cbn [now fst snd] in *; auto. destruct (O f u (or_introl eq_refl) W) as [O1 O2]. split; auto. unfold streams_ok. rewrite O2. exact K. }
  destruct H as [H1 H2].
  assert (H3 : honest c (fst (fsk k c (now st))) /\ streams_ok (snd (fsk k c (now st)))).
  { assert (Hd : match c with c_opendir _ | c_readdir _ | c_closedir _ => True | _ => False end \/ match c with c_opendir _ | c_readdir _ | c_closedir _ => False | _ => True end) by (destruct c; auto).
    destruct Hd as [Hd|Hd].
    - destruct (call_keeps k c (now st) H1 H2) as (K1 & K2 & _); [destruct c; auto|auto].
    - split; [destruct c; cbn; auto; contradiction|]. unfold streams_ok. rewrite dirs_step by exact Hd. exact H2. }
  split; [apply H3|]. split; [apply wf_step; auto|]. split; [apply H3|]. intros f u Hf. apply O. destruct (snd st); [destruct Hf|right; exact Hf].
Qed.

(** * C102: what the calls change *)

Definition lstat_told {S} (d : deed S) : option (str * res stat_t) :=
  match d with Deed _ c r => match c as c return answer c -> option (str * res stat_t) with c_lstat t => fun r => Some (t, r) | _ => fun _ => None end r end.

Section Stays.
Context (k : choices) (q : loc).

Definition orderly (st : fs * list (fs -> fs)) (l : list (deed (fs * list (fs -> fs)))) : Prop :=
  wf (fst st) /\ streams_ok (fst st) /\ Forall (brings_no_link q) (snd st) /\ clear_to (fst st) q /\
  (forall r, good_place r -> below q r = true -> seen_dir l (place_text r) -> ~ link_at (fst st) r) /\ Forall (left_outside k q) l.

Lemma now_orderly : forall st l, orderly st l ->
  wf (now st) /\ streams_ok (now st) /\ clear_to (now st) q /\ forall r, good_place r -> below q r = true -> seen_dir l (place_text r) -> ~ link_at (now st) r.
Proof.
  intros [s [|f o]] l (H1 & H2 & H3 & H4 & H5 & _); cbn [now fst snd] in *; auto. inversion H3 as [|? ? Hf _]; subst. destruct (Hf s H1) as (W & D & L).
  split; [exact W|]. split; [unfold streams_ok; rewrite D; exact H2|]. split.
  - intros a b E Hb Hl. apply (H4 a b E Hb). apply L; auto. right. apply below_spec. eauto.
  - intros r G B Hr Hl. apply (H5 r G B Hr). apply L; auto.
Qed.

(** What is on the way from [q] is a place with no symlinks above it. *)
Lemma way_clear : forall st l t, good_place q -> orderly st l -> on_the_way l (place_text q) t -> exists ns, good_place ns /\ t = place_text (q ++ ns) /\ clear_to (now st) (q ++ ns).
Proof.
  intros st l t Hq Ho (ns & H1 & -> & H3). destruct (now_orderly _ _ Ho) as (_ & _ & C & L). exists ns. split; [exact H1|]. split; [apply down_place; auto|].
  intros a b E Hb. destruct (below q a) eqn:Eb.
  - apply below_spec in Eb as [r ->]. rewrite <- app_assoc in E. apply app_inv_head in E. assert (Gr : good_place r) by (subst ns; apply Forall_app in H1; tauto).
    apply L; [apply Forall_app; auto|apply below_app|]. specialize (H3 r b E Hb). rewrite down_place in H3; auto.
  - assert (exists c, q = a ++ c /\ c <> []) as (c & -> & Hc).
    { apply app_eq_app in E as (z & [[E1 E2]|[E1 E2]]); [exists z|]. 
      - split; auto. intros ->. rewrite app_nil_r in E1. subst. rewrite below_refl in Eb. discriminate.
      - subst a. rewrite below_app in Eb. discriminate. }
    apply (C a c); auto.
Qed.

Lemma orderly_step : forall st l c, good_place q -> orderly st l -> in_bounds (place_text q) l c ->
  honest c (fst (interfered k c st)) /\ orderly (snd (interfered k c st)) (l ++ [Deed st c (fst (interfered k c st))]).
Proof.
  intros st l c Hq Ho Hc. rewrite interfered_step. cbn [fst snd]. pose proof (now_orderly _ _ Ho) as (W & Sk & C & L).
  assert (Htl : Forall (brings_no_link q) (tl (snd st))) by (destruct Ho as (_ & _ & H & _); destruct H; cbn; auto).
  assert (Hold : Forall (left_outside k q) l) by apply Ho.
  assert (Hsn : forall r c' (a : answer c'), (forall t, c' <> c_lstat t) -> seen_dir (l ++ [Deed st c' a]) (place_text r) -> seen_dir l (place_text r)).
  { intros r c' a Hn (u & x & H1 & H2). exists u, x. split; auto. apply in_app_or in H1 as [H1|[H1|[]]]; auto. exfalso. injection H1 as _ H1 _. eapply Hn; eauto. }
  assert (Hquiet : match c with c_lstat _ | c_opendir _ | c_readdir _ | c_closedir _ => True | _ => False end -> (forall t, c <> c_lstat t) ->
    honest c (fst (fsk k c (now st))) /\ orderly (snd (fsk k c (now st)), tl (snd st)) (l ++ [Deed st c (fst (fsk k c (now st)))])).
  { intros Hk Hn. destruct (call_keeps k c (now st) W Sk Hk) as (K1 & K2 & K3 & K4). split; [exact K1|].
    assert (Hl : forall r, link_at (snd (fsk k c (now st))) r -> link_at (now st) r) by (intros r (i & t & E1 & E2); exists i, t; unfold link_text in *; rewrite K3 in E1; rewrite K4 in E2; auto).
    unfold orderly. cbn [fst snd]. split; [apply wf_step; auto|]. split; [exact K2|]. split; [exact Htl|]. split; [intros a b E Hb Hlk; exact (C a b E Hb (Hl _ Hlk))|]. split.
    - intros r G B Hs Hlk. exact (L r G B (Hsn _ _ _ Hn Hs) (Hl _ Hlk)).
    - apply Forall_app. split; auto. constructor; [|constructor]. cbn [left_outside]. split; auto. intros x _. rewrite K3. reflexivity. }
  destruct c; cbn [in_bounds] in Hc; try contradiction; try (apply Hquiet; [exact Logic.I|discriminate]).
  - clear Hquiet. destruct (way_clear _ _ _ Hq Ho Hc) as (ns & Gn & -> & Cn). cbn [fsk fst snd honest]. split; [exact Logic.I|].
    unfold orderly. cbn [fst snd]. split; [exact W|]. split; [exact Sk|]. split; [exact Htl|]. split; [exact C|]. split.
    + intros r G B (u & x & H1 & H2). apply in_app_or in H1 as [H1|[H1|[]]]; [apply (L r G B); exists u, x; auto|].
      assert (Hr : place_text (q ++ ns) = place_text r /\ sys_stat k (now st) false (place_text (q ++ ns)) = Val x).
      { apply (f_equal lstat_told) in H1. cbn in H1. injection H1 as E1 E2. split; [unfold place_text; rewrite E1; reflexivity|exact E2]. }
      destruct Hr as [E1 E2]. apply (f_equal names) in E1. rewrite !names_place in E1; auto; [|apply Forall_app; auto]. subst r.
      unfold sys_stat in E2. destruct (find_at k (now st) false (place_text (q ++ ns))) as [m r'|m n|e] eqn:E; cbn [node_at] in E2; try discriminate E2.
      apply find_straight in E; auto. subst r'. intros (i & t & K1 & K2). rewrite K1 in E2. assert (E3 : x = stat_of (now st) (NLeaf i)) by congruence. rewrite E3 in H2. rewrite <- type_of_mode_format, stat_of_type in H2. cbn [type_of] in H2.
      unfold link_text in K2. destruct (f_body (now st) i); discriminate.
    + apply Forall_app. split; auto. constructor; [|constructor]. cbn. split; auto. intros x _. reflexivity.
  - clear Hquiet. destruct Hc as [Hc _]. destruct (way_clear _ _ _ Hq Ho Hc) as (ns & Gn & -> & Cn).
    destruct (remove_straight k (now st) (q ++ ns) W) as (R1 & R2 & R3 & R4 & R5); auto; [apply Forall_app; auto|].
    split; [exact Logic.I|]. unfold orderly. cbn [fst snd]. split; [exact R1|]. split; [unfold streams_ok; rewrite R2; exact Sk|]. split; [exact Htl|].
    split; [intros a b E Hb Hlk; exact (C a b E Hb (R5 _ Hlk))|]. split.
    + intros r G B Hs Hlk. eapply (L r G B); [eapply Hsn; [|exact Hs]; discriminate|auto].
    + apply Forall_app. split; auto. constructor; [|constructor]. cbn [left_outside]. split; auto. intros x Hx. apply R4.
      destruct (below (q ++ ns) x) eqn:E; auto. apply below_spec in E as [z ->]. rewrite <- app_assoc, below_app in Hx. discriminate.
Qed.

Lemma orderly_start : forall s others x, wf s -> streams_ok s -> look (f_root s) q = Some x -> Forall (brings_no_link q) others -> orderly (s, others) [].
Proof.
  intros s others x Hw Hs Hx Ho. unfold orderly. cbn [fst snd]. split; [exact Hw|]. split; [exact Hs|]. split; [exact Ho|]. split; [|split; [|constructor]].
  - intros a b E Hb (i & t & H1 & _). rewrite E in Hx. destruct (look_prefix _ _ _ _ Hx Hb) as [j Hj]. congruence.
  - intros r _ _ (u & y & [] & _).
Qed.
End Stays.

(** While other processes bring no symlinks to [q], above it or below it: every call of remove_all([q]) leaves everything outside [q], and all content, as it finds it. *)
Theorem C102_calls_partial : forall k cf n has q x s others, wf s -> streams_ok s -> look (f_root s) q = Some x -> Forall (brings_no_link q) others ->
  Forall (left_outside k q) (snd (state_of (run (chronicled (interfered k)) (remove_all_impl cf n has (topath (place_text q))) ((s, others), [])))).
Proof.
  intros k cf n has q x s others Hw Hs Hx Ho. pose proof (wf_place _ _ _ (wf_root s Hw) Hx) as Hq.
  pose proof (bounded_all (fs * list (fs -> fs)) cf n has (topath (place_text q)) (canon_mkpath _)) as Hb. change (topath (place_text q)) with (mkpath (place_text q)) in *.
  rewrite text_place in Hb by auto.
  apply (bounded_run (in_bounds (place_text q)) _ _ (interfered k) (orderly k q) (s, others) [] _ (fun st l c => orderly_step k q st l c Hq)) in Hb; [apply Hb|].
  eapply orderly_start; eauto.
Qed.

(** So what is outside [q] and no other process changes is at the end as it was. *)
Theorem C102_stays_partial : forall k cf n has q x s others r, wf s -> streams_ok s -> look (f_root s) q = Some x -> Forall (brings_no_link q) others ->
  below q r = false -> (forall f u, In f others -> look (f_root (f u)) r = look (f_root u) r) ->
  look (f_root (fst (state_of (run (interfered k) (remove_all_impl cf n has (topath (place_text q))) (s, others))))) r = look (f_root s) r.
Proof.
  intros k cf n has q x s others r Hw Hs Hx Ho Hr Hf. pose proof (wf_place _ _ _ (wf_root s Hw) Hx) as Hq.
  pose proof (bounded_all (fs * list (fs -> fs)) cf n has (topath (place_text q)) (canon_mkpath _)) as Hb. change (topath (place_text q)) with (mkpath (place_text q)) in *.
  rewrite text_place in Hb by auto.
  apply (bounded_run (in_bounds (place_text q)) _ _ (interfered k)
    (fun st l => orderly k q st l /\ (forall f u, In f (snd st) -> look (f_root (f u)) r = look (f_root u) r) /\ look (f_root (fst st)) r = look (f_root s) r) (s, others) []) in Hb.
  - destruct Hb as (_ & _ & Hb). rewrite <- Hb. rewrite unchronicled. reflexivity.
  - intros st l c (H1 & H2 & H3) Hc. destruct (orderly_step k q st l c Hq H1 Hc) as [H4 H5]. split; [exact H4|]. split; [exact H5|]. clear H4.
    rewrite interfered_step in *. cbn [fst snd] in *. split; [intros f u Hi; apply H2; destruct (snd st); [destruct Hi|right; exact Hi]|].
    destruct H5 as (_ & _ & _ & _ & _ & H5). apply Forall_app in H5 as [_ H5]. inversion H5 as [|? ? H6 _]; subst. destruct H6 as [H6 _]. rewrite (H6 r Hr), <- H3.
    unfold now. destruct st as [u [|f o]]; cbn [fst snd] in *; [reflexivity|]. apply H2. left. reflexivity.
  - split; [eapply orderly_start; eauto|auto].
Qed.

(** * C102: a symlink put in the way *)

Definition alone {A} (r : outcome A fs) : outcome A (fs * list (fs -> fs)) := match r with Done a s => Done a (s, []) | Failed f s => Failed f (s, []) end.
Lemma run_alone : forall A (p : prog A) k s, run (interfered k) p (s, []) = alone (run (fsk k) p s).
Proof. intros A. induction p as [a|e|c f IH]; intros k s; auto. cbn [run]. unfold interfered at 1. destruct (fsk k c s) as [a s1]. apply IH. Qed.

(** Another process puts, between the look at the directory [p] and its opening, a symlink to the directory at [q] in its place: remove_all deletes everything in [q], then the symlink,
    and reports success with the number of what it deleted. *)
Theorem C102_link_refuted : forall cf k s has p q q0 swap i l j j1, canon p -> (exists m, find_at k s false (native p) = Found m q0) -> look (f_root s) q0 = Some (NDir j) ->
  wf (swap s) -> link_at (swap s) q0 -> look (f_root (swap s)) q0 = Some (NLeaf j1) -> get (f_root (swap s)) q = Some (Dir i l) -> opens k (swap s) (native p) q -> below q q0 = false ->
  (exists m, find_entry k (emptied (swap s) q) (native p) = Found m q0) -> plain (last_name (native p)) = true -> ends_slash (native p) = false -> (Z.of_nat (entries (Dir i l)) < 2 ^ 64)%Z ->
  exists N, forall n, N <= n -> exists s2,
    run (interfered k) (remove_all_impl cf n has p) (s, [fun u => u; swap]) = Done (Z.of_nat (entries (Dir i l)), None) (s2, []) /\
    (forall r, below q r = true -> r <> q -> look (f_root s2) r = None) /\ look (f_root s2) q0 = None.
Proof.
  intros cf k s has p q q0 swap i l j j1 Hp [m Hf] Hd Hw Hlk Hj1 Hg Ho Hb [m2 He] Hpl Hsl Hcount. exists (S (need (Dir i l))). intros [|n] Hn; [lia|].
  set (s1 := swap s) in *.
  assert (HF : Forall (fun e => removes cf k (snd e)) l) by (apply Forall_forall; intros; apply run_removes).
  destruct (run_contents cf k s1 p q i l n HF Hw Hp Hg Ho ltac:(lia)) as (s2 & L1 & L2 & L3 & L4 & L5 & L6 & L7 & L8 & L9).
  assert (Hq0 : q0 <> []). { intros ->. destruct (wf_root_dir s1 Hw) as (a & b & E). unfold look in Hj1. rewrite E in Hj1. discriminate. }
  assert (Hg0 : get (f_root s2) q0 = Some (Leaf j1)). { rewrite L2. apply look_leaf. rewrite look_alter_out by (left; exact Hb). exact Hj1. }
  assert (He2 : find_entry k s2 (native p) = Found m2 q0).
  { rewrite <- He. unfold find_entry, resolve_comps. cbn [emptied set_root f_root f_cwd]. rewrite L2, L5. 
    unfold link_text. cbn [emptied set_root f_body]. rewrite L3. reflexivity. }
  pose proof (run_remove_last k s2 p q0 _ He2 _ eq_refl Hq0 Hpl _ Hg0 Hsl) as Hrm.
  exists (unlink s2 (removelast q0) (last q0 []) j1).
  assert (Hne : empty p = false). { unfold empty. fold (native p). unfold find_at, resolve_comps in Hf. destruct (is_nil (native p)); [discriminate|reflexivity]. }
  split; [|split].
  - unfold remove_all_impl. rewrite Hne, run_bind. cbn [do_remove_all_impl]. rewrite run_bind.
    assert (Hst : exists x, run (interfered k) (symlink_status_impl true p) (s, [fun u => u; swap]) = Done (FStatus ft_directory x, None) (s, [swap])).
    { pose proof (C23_status _ (interfered k) (s, [fun u => u; swap]) p) as [_ Hs]. cbn [interfered fsk] in Hs. rewrite Hs. unfold sys_stat. rewrite Hf. cbn [node_at]. rewrite Hd. cbn [status_of_answer].
      rewrite <- type_of_mode_format, stat_of_type. eexists. reflexivity. }
    destruct Hst as [x Hst]. rewrite Hst. cbn [fst snd failed]. change (st_is_directory (FStatus ft_directory x)) with true. cbn iota. rewrite run_bind.
    assert (Hc : run (interfered k) (let! i0 := dir_iter_ctor cf n true p 0 in remove_loop cf (do_remove_all_impl cf n) n n (fst i0) (snd i0) 1%Z) (s, [swap]) =
                 run (interfered k) (let! i0 := dir_iter_ctor cf n true p 0 in remove_loop cf (do_remove_all_impl cf n) n n (fst i0) (snd i0) 1%Z) (s1, [])) by reflexivity.
    rewrite Hc, run_alone, L1. cbn [alone fst snd failed]. rewrite run_bind, run_alone, Hrm. cbn [alone run fst snd failed].
    unfold to_u64. rewrite Z.mod_small by lia. reflexivity.
  - intros r Hr Hne2. cbn [unlink set_meta set_root f_root]. apply below_spec in Hr as [x ->]. assert (Hx : x <> []) by (intros ->; rewrite app_nil_r in Hne2; congruence).
    destruct (look (delete_at (removelast q0) (last q0 []) (f_root s2)) (q ++ x)) as [y|] eqn:E; auto. exfalso.
    assert (Hw2 : wf_tree (f_root s2)) by (rewrite L2; apply (wf_root _ (wf_emptied s1 q Hw))).
    apply (look_delete_sub _ _ _ _ _ Hw2) in E. destruct x as [|a x]; [congruence|]. unfold look in E. rewrite get_app in E. rewrite L2, (get_alter_at _ _ _ _ _ Hg) in E. discriminate.
  - cbn [unlink set_meta set_root f_root]. rewrite (snoc_removelast q0 Hq0) at 3. apply look_None.
    destruct (look_removelast (f_root s2) q0 (NLeaf j1)) as [a Ha]; auto; [apply look_leaf; auto|]. apply look_dir in Ha as [b Ha].
    rewrite <- (app_nil_r (removelast q0 ++ [last q0 []])), <- app_assoc. eapply get_delete_same; eauto. rewrite L2. apply (wf_root _ (wf_emptied s1 q Hw)).
Qed.

(** Another process renames the directory /a/d to /a/x and puts a symlink to /b in its place. *)
Definition other_swaps (s : fs) : fs := snd (sys_symlink demo_choices (snd (sys_rename demo_choices s (lit "/a/d") (lit "/a/x"))) (lit "/b") (lit "/a/d")).

(** remove_all("/a/d") then deletes /b/h; what was in /a/d stays. *)
Example C102_link_example : exists s2,
  find_at demo_choices demo false (lit "/a/d") = Found 40 [lit "a"; lit "d"] /\ opens demo_choices (other_swaps demo) (lit "/a/d") [lit "b"] /\
  link_at (other_swaps demo) [lit "a"; lit "d"] /\ find_entry demo_choices (emptied (other_swaps demo) [lit "b"]) (lit "/a/d") = Found 40 [lit "a"; lit "d"] /\
  run (interfered demo_choices) (remove_all_impl plain_config 12 true (topath (lit "/a/d"))) (demo, [fun u => u; other_swaps]) = Done (2%Z, None) (s2, []) /\
  look (f_root demo) [lit "b"; lit "h"] = Some (NLeaf 3) /\ look (f_root s2) [lit "b"; lit "h"] = None /\ look (f_root s2) [lit "a"; lit "x"; lit "g"] = Some (NLeaf 6).
Proof.
  eexists. split; [vm_compute; reflexivity|]. split; [exists 39; vm_compute; reflexivity|]. split; [exists 10%N, (lit "/b"); split; vm_compute; reflexivity|].
  split; [vm_compute; reflexivity|]. split; [vm_compute; reflexivity|]. repeat split; vm_compute; reflexivity.
Qed.

(** Removing something brings no symlink anywhere. *)
Lemma removing_brings_no_link : forall k q t, brings_no_link q (other_removes k t).
Proof.
  intros k q t s Hw. unfold other_removes. split; [exact (wf_step k (c_remove t) s Hw)|]. split; [exact (dirs_step k (c_remove t) s Logic.I)|].
  intros r _. unfold sys_remove. destruct (find_entry k s t) as [m x|m n|e]; auto. destruct (is_nil x); auto.
  destruct (str_eqb (last_name t) (lit ".")); auto. destruct (str_eqb (last_name t) (lit "..")); auto.
  assert (H : forall u, link_at (set_root u (delete_at (removelast x) (last x []) (f_root s))) r -> f_body u = f_body s -> link_at s r).
  { intros u (i & y & H1 & H2) Hu. exists i, y. cbn in H1. unfold link_text in *. cbn in H2. rewrite Hu in H2. split; auto. eapply look_delete_sub; eauto. apply wf_root. auto. }
  destruct (get (f_root s) x) as [[i|i l]|]; auto; [destruct (ends_slash t)|destruct (is_nil l)]; auto; cbn [snd]; intros HL.
  - apply (H s); auto.
  - apply (H s); auto.
Qed.

(** A case: another process removes /a/d/g after remove_all has looked at it, and /a/f; nothing else outside /a/d changes. *)
Example C102_stays_example : exists s2,
  wf demo /\ streams_ok demo /\ look (f_root demo) [lit "a"; lit "d"] = Some (NDir 5) /\
  Forall (brings_no_link [lit "a"; lit "d"]) (repeat (fun u => u) 5 ++ [other_removes demo_choices (lit "/a/d/g"); other_removes demo_choices (lit "/a/f")]) /\
  run (interfered demo_choices) (remove_all_impl plain_config 12 true (topath (lit "/a/d")))
    (demo, repeat (fun u => u) 5 ++ [other_removes demo_choices (lit "/a/d/g"); other_removes demo_choices (lit "/a/f")]) = Done (0%Z, None) (s2, []) /\
  look (f_root s2) [lit "a"; lit "f"] = None /\ look (f_root s2) [lit "b"; lit "h"] = Some (NLeaf 3).
Proof.
  eexists. split; [apply demo_wf|]. split; [intros h l []|]. split; [vm_compute; reflexivity|]. split.
  - cbn [repeat app]. repeat (constructor; [first [apply removing_brings_no_link|intros s Hs; auto]|]). constructor.
  - split; [vm_compute; reflexivity|]. split; vm_compute; reflexivity.
Qed.

(** A case of C102_bounds, with the other process of C102_link_example. *)
Example C102_bounds_example : honest_from (interfered demo_choices) (demo, [fun u => u; other_swaps]) /\
  existsb (fun d => match d with Deed _ (c_remove t) _ => str_eqb t (lit "/a/d/h") | _ => false end)
    (snd (state_of (run (chronicled (interfered demo_choices)) (remove_all_impl plain_config 12 true (topath (lit "/a/d"))) ((demo, [fun u => u; other_swaps]), [])))) = true.
Proof.
  split.
  - apply C102_honest; [apply demo_wf|intros h l []|]. intros f u [<-|[<-|[]]] Hu; [auto|]. unfold other_swaps.
    set (v := snd (sys_rename demo_choices u (lit "/a/d") (lit "/a/x"))).
    pose proof (wf_step demo_choices (c_rename (lit "/a/d") (lit "/a/x")) u Hu) as V1. pose proof (dirs_step demo_choices (c_rename (lit "/a/d") (lit "/a/x")) u Logic.I) as V2.
    change (wf v) in V1. change (f_dirs v = f_dirs u) in V2. rewrite <- V2.
    exact (conj (wf_step demo_choices (c_symlink (lit "/b") (lit "/a/d")) v V1) (dirs_step demo_choices (c_symlink (lit "/b") (lit "/a/d")) v Logic.I)).
  - vm_compute. reflexivity.
Qed.

Print Assumptions C102_bounds.
Print Assumptions C102_honest.
Print Assumptions C102_calls_partial.
Print Assumptions C102_stays_partial.
Print Assumptions C102_link_refuted.
