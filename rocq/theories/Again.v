(** C109: what happens when an operation that succeeded is asked for again. The code is that of OpsModel.v (src/fs_ops.cpp), run on the
    file system of FS.v. *)
From Coq Require Import Ascii String Bool Arith NArith ZArith Lia.
From Verif Require Import Str PathModel PathSpec StrProofs PathProofs PathOps PathOps2 PathReach PathLaws ArithProps
  FlagsModel TimeModel Prog DirModel OpsModel OpsProps FS FSProofs FSSpec FSOps FSPlace FSProps FSProps2 FSProps3 FSLike IterProps FSIter FSCreate FSRemove EntryProps FSCopy FSDispatch FSCopyTree FSUndo.
From Coq Require Import List.
Import ListNotations.

(** * Specification *)

(** Every place, object, attribute, the current directory, the open files and the environment are the same. *)
Definition alike (s s' : fs) : Prop :=
  f_root s' = f_root s /\ (forall i, f_body s' i = f_body s i) /\ (forall i, f_meta s' i = f_meta s i) /\
  same_process s s'.

(** Asked for in [s], [p] succeeds with the value [v] and has nothing left to do. *)
Definition settled {A} (k : choices) (p : prog (A * ecode)) (v : A) (s : fs) : Prop :=
  exists s', run (fsk k) p s = Done (v, None) s' /\ alike s s'.

(** * Lemmas *)

Lemma alike_refl : forall s, alike s s.
Proof. intros s. repeat split; auto. Qed.

Lemma settled_still : forall A k (p : prog (A * ecode)) v s, run (fsk k) p s = Done (v, None) s -> settled k p v s.
Proof. intros A k p v s H. exists s. split; [exact H|apply alike_refl]. Qed.


Lemma below_removelast : forall q cur, below q (removelast cur) = true -> below q cur = true.
Proof.
  induction q as [|a q IH]; intros cur H; [destruct cur; reflexivity|].
  destruct cur as [|b cur]; [exact H|]. cbn [removelast] in H. destruct cur as [|c cur]; [discriminate|].
  cbn [below] in *. destruct (str_eqb a b); [|discriminate]. apply IH. exact H.
Qed.


(** Nothing is found where a place has been taken away. *)
Definition nowhere (x : place) : Prop := (exists p n, x = Missing p n) \/ x = Fail ENOENT.

Lemma steps_gone : forall lk lk' tg last q, q <> [] ->
  (forall r, below q r = true -> lk' r = None) -> (forall r x, below q r = false -> lk r = Some x -> lk' r = Some x) ->
  forall links cs cur l, below q cur = false -> steps lk tg last links cur cs = Found l q -> nowhere (steps lk' tg last links cur cs).
Proof.
  intros lk lk' tg last q Hq H1 H2.
  assert (Hr : below q [] = false) by (destruct q; [congruence|reflexivity]).
  induction links as [|links IHl];
  (induction cs as [|n r IHr]; intros cur l Hcur; [rewrite steps_nil; intros H; injection H as _ ->; rewrite below_refl in Hcur; discriminate|]);
  rewrite !steps_cons; (destruct (lk cur) as [[i|i]|] eqn:Ec; try discriminate); rewrite (H2 cur _ Hcur Ec);
  (destruct (str_eqb n (lit ".")); [intros H; apply (IHr _ _ Hcur H)|]);
  (destruct (str_eqb n (lit "..")); [intros H; refine (IHr _ _ _ H); destruct (below q (removelast cur)) eqn:E; [apply below_removelast in E; congruence|reflexivity]|]);
  (destruct (below q (cur ++ [n])) eqn:E;
    [rewrite (H1 _ E); intros _; destruct (is_nil r); [left; eauto|right; reflexivity]|]);
  (destruct (lk (cur ++ [n])) as [[j|j]|] eqn:En; [rewrite (H2 _ _ E En)|rewrite (H2 _ _ E En); intros H; apply (IHr _ _ E H)|destruct (is_nil r); discriminate]);
  (destruct (tg j) as [t|]; [|destruct (is_nil r); [intros H; injection H as _ H; rewrite <- H, below_refl in E; discriminate|discriminate]]);
  (destruct (is_nil r && negb last); [intros H; injection H as _ H; rewrite <- H, below_refl in E; discriminate|]); [discriminate|].
  intros H. refine (IHl _ _ _ _ H). destruct (starts_slash t); auto.
Qed.

Lemma resolve_gone_gen : forall k s s' last t cs l q, q <> [] -> (cs = [] -> names t = []) ->
  (forall r, below q r = true -> look (f_root s') r = None) -> (forall r x, below q r = false -> look (f_root s) r = Some x -> look (f_root s') r = Some x) ->
  f_body s' = f_body s -> (starts_slash t = false -> f_cwd s' = f_cwd s) ->
  resolve_comps k s last t cs = Found l q -> nowhere (resolve_comps k s' last t cs).
Proof.
  intros k s s' last t cs l q Hq Hcs H1 H2 Hb Hc H. unfold resolve_comps in *. destruct (is_nil t) eqn:Et; [discriminate|].
  assert (Ht : link_text s' = link_text s) by (unfold link_text; rewrite Hb; reflexivity). rewrite Ht.
  match type of H with steps _ _ _ _ ?c _ = _ => set (cur := c) in * end.
  match goal with |- context [steps _ _ _ _ ?c _] => replace c with cur by (subst cur; destruct (starts_slash t); [reflexivity|symmetry; auto]) end.
  destruct (below q cur) eqn:Eb.
  - destruct cs as [|n r].
    + exfalso. specialize (Hcs eq_refl). subst cur. destruct (starts_slash t) eqn:Es; [destruct q; [congruence|discriminate]|].
      apply only_slashes_names in Hcs. destruct t as [|c t]; [discriminate|].
      cbn in *. destruct (is_slash c); discriminate.
    + rewrite steps_cons, (H1 _ Eb). right. reflexivity.
  - exact (steps_gone _ _ _ _ _ Hq H1 H2 _ _ _ _ Eb H).
Qed.

Lemma resolve_gone : forall k s s' last t cs l q, q <> [] -> (cs = [] -> names t = []) ->
  (forall r, below q r = true -> look (f_root s') r = None) -> same_outside s s' q -> f_body s' = f_body s -> f_cwd s' = f_cwd s ->
  resolve_comps k s last t cs = Found l q -> nowhere (resolve_comps k s' last t cs).
Proof.
  intros k s s' last t cs l q Hq Hcs H1 H2 Hb Hc. apply resolve_gone_gen; auto. intros r x Hr Hx. rewrite (H2 r Hr). exact Hx.
Qed.

(** * create_directory *)

(** create_directory, with or without a pattern, asked for again says that nothing was created and changes nothing. *)
Theorem C109_create_directory : forall k s s1 b p, wf s ->
  ((exists has, run (fsk k) (create_directory_impl has p) s = Done (b, None) s1) -> forall has, settled k (create_directory_impl has p) false s1) /\
  (forall tmpl, (exists has, run (fsk k) (create_directory_like_impl has p tmpl) s = Done (b, None) s1) ->
     forall has, settled k (create_directory_like_impl has p tmpl) false s1).
Proof.
  intros k s s1 b p Hw. split.
  - intros [has0 H] has. pose proof (C25_create_directory_partial k s has0 p Hw) as C. rewrite H in C. apply settled_still. destruct b.
    + destruct C as (_ & q & n & _ & C & _). exact (C25_existing_file_refuted k s1 has p _ _ C).
    + destruct C as (-> & q & x & C). exact (C25_existing_file_refuted k s has p _ _ C).
  - intros tmpl [has0 H] has. pose proof (C25_like_partial k s has0 p tmpl Hw) as C. rewrite H in C.
    assert (G : wf s1 /\ (exists q x, names_entry k s1 (native p) q x) /\ exists i, template k s1 (native tmpl) = Val (NDir i)).
    { destruct b.
      - destruct C as (_ & i & q & n & C1 & C2 & C3 & _ & _ & C4 & C5 & _ & C6).
        split; [pose proof (wf_run _ k (create_directory_like_impl has0 p tmpl) s Hw) as W; rewrite H in W; exact W|].
        split; [eauto|]. exists i. pose proof (entry_missing _ _ _ _ _ C2) as (di & dl & L0 & L2 & _).
        assert (L : look (f_root s) (q ++ [n]) = None) by (unfold look; rewrite get_snoc, L0, L2; reflexivity).
        apply node_at_leads in C1 as (r & l & C1 & L1). apply node_at_leads.
        pose proof (made_extends s s1 (q ++ [n]) Hw L C4 C5 C6) as X. exists r, l. split; [exact (find_extends _ _ _ _ _ _ _ X C1)|apply X; exact L1].
      - destruct C as (-> & C1 & C2). auto. }
    destruct G as (W & (q & x & l & G1 & _) & i & G2). pose proof (C25_like_partial k s1 has p tmpl W) as D.
    assert (N : forall e, ~ no_new_directory k s1 (native p) (native tmpl) e).
    { intros e [[X _]|[[_ X]|(j & _ & X & _)]]; [congruence|exact (X _ G2)|congruence]. }
    destruct (run (fsk k) (create_directory_like_impl has p tmpl) s1) as [[[] [e|]] s2|f s2] eqn:R.
    + destruct D as (D & _). discriminate.
    + destruct D as (_ & j & r & n & _ & D & _). unfold names_missing in D. congruence.
    + destruct D as (_ & _ & D). destruct (N _ D).
    + destruct D as (-> & _). apply settled_still. exact R.
    + destruct D as (_ & _ & e & _ & D). destruct (N _ D).
Qed.

(** * remove, remove_all *)

Lemma remove_nowhere : forall k s has p, native p = [] \/ nowhere (find_entry k s (native p)) -> run (fsk k) (remove_impl has p) s = Done (false, None) s.
Proof.
  intros k s has p H. unfold remove_impl, empty. fold (native p). destruct (is_nil (native p)) eqn:E; [reflexivity|]. destruct H as [H|H].
  - rewrite H in E. discriminate.
  - rewrite run_sys. cbn [fsk]. unfold sys_remove. destruct H as [(q & n & ->)| ->]; reflexivity.
Qed.

Theorem C109_remove : forall k s s1 has has' b p, wf s -> run (fsk k) (remove_impl has p) s = Done (b, None) s1 -> settled k (remove_impl has' p) false s1.
Proof.
  intros k s s1 has has' b p Hw H. apply settled_still. apply remove_nowhere. pose proof (C27_remove k s has p Hw) as C. rewrite H in C. destruct b.
  - right. destruct C as (_ & q & x & (l & C1 & _) & C2 & C3 & C4 & C5 & (C6 & _) & _).
    refine (resolve_gone k s s1 false (native p) (names (native p)) l q C2 (fun e => e) _ C4 C5 C6 C1).
    intros r Hr. exact (below_trans_missing _ _ _ C3 Hr).
  - destruct C as (-> & [C|[(q & n & C)|C]]); auto; right; [left; exists q, n; exact C|right; exact C].
Qed.

(** For the paths of C28. *)
Theorem C109_remove_all : forall cf k s has p q c, wf s -> canon p -> get (f_root s) q = Some c -> q <> [] -> reaches k s (native p) q ->
  plain (FS.last_name (native p)) = true -> (Z.of_nat (entries c) < 2 ^ 64)%Z ->
  exists N, forall n, N <= n -> exists s1, run (fsk k) (remove_all_impl cf n has p) s = Done (Z.of_nat (entries c), None) s1 /\
    forall has', settled k (remove_all_impl cf n has' p) 0%Z s1.
Proof.
  intros cf k s has p q c Hw Hc Hg Hq Hr Hl He. destruct (C28_remove_all_partial cf k s has p q c Hw Hc Hg Hq Hr Hl He) as [N HN].
  exists (S N). intros n Hn. destruct (HN n ltac:(lia)) as (s1 & R & G). exists s1. split; [exact R|]. intros has'. apply settled_still.
  destruct n as [|n]; [lia|]. apply C28_missing. right. destruct G as (G1 & G2 & G3 & _ & (G4 & _) & _). destruct Hr as [[l Hf] _].
  assert (X : nowhere (find_at k s1 false (native p))).
  { refine (resolve_gone k (emptied s q) s1 false (native p) (comps (native p)) l q Hq (comps_nil _) G1 _ G3 G4 Hf).
    intros r Hb. rewrite (G2 r Hb). symmetry. cbn. apply look_alter_out. auto. }
  destruct X as [(a & b & X)|X]; eauto.
Qed.

(** * resize_file, permissions, last_write_time, current_path *)

Lemma resized_again : forall d n, resized (resized d n) n = resized d n.
Proof.
  intros d n. unfold resized at 1. assert (L : length (resized d n) = n) by (unfold resized; rewrite app_length, firstn_length, repeat_length; lia).
  rewrite L, Nat.sub_diag. cbn [repeat]. rewrite app_nil_r. rewrite <- L at 1. apply firstn_all.
Qed.

Theorem C109_resize_file : forall k s s1 has has' p n, run (fsk k) (resize_file_impl has p n) s = Done (tt, None) s1 -> settled k (resize_file_impl has' p n) tt s1.
Proof.
  intros k s s1 has has' p n H. unfold resize_file_impl in *. rewrite run_sys in H. cbn [fsk] in H. unfold settled. rewrite run_sys. cbn [fsk].
  unfold sys_truncate in H. destruct (node_at s (find_at k s true (native p))) as [e|[i|i]] eqn:E; [destruct has; discriminate| |destruct has; discriminate].
  unfold resize_obj in H. destruct (f_body s i) as [d|t|b] eqn:Eb; try (destruct has; discriminate).
  destruct (wrap64 n <? 0)%Z eqn:Ew; [destruct has; discriminate|]. cbn in H. injection H as <-. set (s1 := set_body _ _ _).
  assert (X : extends s s1).
  { repeat split; auto. unfold s1. intros _ j _. unfold link_text. cbn. unfold upd. destruct (N.eqb j i) eqn:Eij; auto.
    apply N.eqb_eq in Eij as ->. rewrite Eb. reflexivity. }
  assert (E1 : node_at s1 (find_at k s1 true (native p)) = Val (NLeaf i)).
  { apply node_at_leads. apply node_at_leads in E as (q & l & E1 & E2). exists q, l. split; [exact (find_extends _ _ _ _ _ _ _ X E1)|exact E2]. }
  unfold sys_truncate. rewrite E1. unfold resize_obj. replace (f_body s1 i) with (BReg (resized d (Z.to_nat (wrap64 n)))) by (symmetry; apply upd_same).
  rewrite Ew. eexists. split; [reflexivity|]. split; [reflexivity|]. split; [|repeat split].
  intros j. cbn. rewrite resized_again. unfold upd. destruct (N.eqb j i); reflexivity.
Qed.

Theorem C109_last_write_time : forall cf k s s1 has has' p t, run (fsk k) (set_last_write_time_impl cf has p t) s = Done (tt, None) s1 ->
  settled k (set_last_write_time_impl cf has' p t) tt s1.
Proof.
  intros cf k s s1 has has' p t H. unfold settled, set_last_write_time_impl in *.
  destruct (timespec_of_time (cf_mode cf) t) as [[ts|]| | |]; cbn [lift pbind] in *; [|destruct has; discriminate|discriminate|discriminate|discriminate].
  rewrite run_sys in *. cbn [fsk] in *. unfold sys_utimensat in H.
  destruct (node_at s (find_at k s true (native p))) as [e|x] eqn:E; [destruct has; discriminate|]. cbv zeta in H.
  destruct ((tv_nsec ts <? 0)%Z || (999999999 <? tv_nsec ts)%Z) eqn:Et; [destruct has; discriminate|]. cbn in H. injection H as <-.
  unfold sys_utimensat.
  match goal with |- context [set_meta s ?i ?m] => set (s1 := set_meta s i m) end.
  replace (node_at s1 (find_at k s1 true (native p))) with (Val (A := node) x) by (symmetry; exact E). cbv zeta. rewrite Et.
  eexists. split; [reflexivity|]. split; [reflexivity|]. split; [reflexivity|]. split; [|repeat split].
  intros j. cbn. unfold upd. rewrite N.eqb_refl. destruct (N.eqb j _); reflexivity.
Qed.

(** The actions replace, add and remove, with or without nofollow. *)
Theorem C109_permissions : forall cf k s s1 p prms a nf, wf s ->
  run (fsk k) (permissions_impl cf true p prms (perm_opts a nf)) s = Done (tt, None) s1 ->
  settled k (permissions_impl cf true p prms (perm_opts a nf)) tt s1.
Proof.
  intros cf k s s1 p prms a nf Hw H. destruct (C39_permissions cf k s p prms a nf Hw) as (C1 & C2 & C3).
  destruct (find_at k s (negb nf) (native p)) as [l q|q n|e] eqn:E.
  2, 3: destruct C3 as [e' C3]; [discriminate|congruence].
  destruct (find_found _ _ _ _ _ _ Hw E) as [x L].
  assert (T : type_of s x <> ft_symlink).
  { intros T. destruct nf.
    - pose proof (C2 q x l eq_refl E L T) as D. congruence.
    - destruct x as [i|i]; [|discriminate]. pose proof (find_no_link _ _ _ _ _ _ Hw E L) as D. cbn in T. unfold link_text in D. destruct (f_body s i) as [d|z|[]]; discriminate. }
  destruct (C1 q x l eq_refl L T) as (s' & R & B & N1 & N2 & N3 & M & Rt & Bd & P). cbv zeta in B. rewrite H in R. injection R as <-.
  assert (W1 : wf s1) by (pose proof (wf_run _ k (permissions_impl cf true p prms (perm_opts a nf)) s Hw) as W; rewrite H in W; exact W).
  assert (E1 : find_at k s1 (negb nf) (native p) = Found l q).
  { rewrite <- E. unfold find_at, resolve_comps, link_text. rewrite Rt, Bd. destruct P as (-> & _). reflexivity. }
  assert (L1 : look (f_root s1) q = Some x) by (rewrite Rt; exact L).
  assert (T1 : type_of s1 x <> ft_symlink) by (unfold type_of in *; rewrite Bd; exact T).
  destruct (proj1 (C39_permissions cf k s1 p prms a nf W1) q x l E1 L1 T1) as (s2 & R2 & B2 & O1 & O2 & O3 & M2 & Rt2 & Bd2 & P2). cbv zeta in B2.
  exists s2. split; [exact R2|]. split; [exact Rt2|]. split; [intros i; rewrite Bd2; reflexivity|]. split; [|exact P2].
  intros i. destruct (N.eq_dec i (number x)) as [->|Hi]; [|apply M2; exact Hi].
    assert (Q : m_perm (f_meta s2 (number x)) = m_perm (f_meta s1 (number x))).
    { apply N.bits_inj. intros j. rewrite B2, B. destruct (N.ltb j 12); [|reflexivity]. destruct a, (N.testbit (m_perm (f_meta s (number x))) j), (N.testbit prms j); reflexivity. }
    destruct (f_meta s2 (number x)) as [a1 a2 a3 a4], (f_meta s1 (number x)) as [b1 b2 b3 b4]. cbn in *. congruence.
Qed.

(** An absolute path. *)
Theorem C109_current_path : forall k s s1 has has' p, starts_slash (native p) = true -> run (fsk k) (set_current_path_impl has p) s = Done (tt, None) s1 ->
  settled k (set_current_path_impl has' p) tt s1.
Proof.
  intros k s s1 has has' p Hp H. unfold settled, set_current_path_impl in *. rewrite run_sys in *. cbn [fsk] in *. unfold sys_chdir in H.
  destruct (find_at k s true (native p)) as [l q|q n|e] eqn:E; try (destruct has; discriminate).
  destruct (look (f_root s) q) as [[i|i]|] eqn:L; try (destruct has; discriminate). cbn in H. injection H as <-.
  unfold sys_chdir. replace (find_at k (set_cwd s q) true (native p)) with (Found l q).
  2: { symmetry. unfold find_at, resolve_comps in *. destruct (is_nil (native p)); [discriminate|]. rewrite Hp in *. exact E. }
  cbn [set_cwd f_root]. rewrite L. eexists. split; [reflexivity|]. repeat split.
Qed.

(** A relative path is taken from the new directory: asked for again, a single name fails unless the new directory has that name too. *)
Theorem C109_current_path_refuted : forall k s has p q i, good_name (native p) = true -> leads_to k s (native p) q (NDir i) ->
  look (f_root s) (q ++ [native p]) = None ->
  exists s1, run (fsk k) (set_current_path_impl has p) s = Done (tt, None) s1 /\
    forall has', run (fsk k) (set_current_path_impl has' p) s1 = run (fsk k) (report has' [p] tt (Some ENOENT)) s1.
Proof.
  intros k s has p q i Hn (l & E & L) Hm. exists (set_cwd s q). unfold set_current_path_impl. split.
  - rewrite run_sys. cbn [fsk]. unfold sys_chdir. rewrite E, L. reflexivity.
  - intros has'. rewrite run_sys. cbn [fsk]. unfold sys_chdir.
    assert (N : find_at k (set_cwd s q) true (native p) = Missing q (native p)).
    { pose proof (good_plain _ Hn) as (_ & P2 & P3 & _). unfold find_at, resolve_comps, comps. rewrite (names_noslash _ P2 P3).
      assert (S0 : starts_slash (native p) = false) by (destruct (native p); [congruence|]; apply noslash_cons in P2 as [P2 _]; exact P2).
      assert (S1 : ends_slash (native p) = false) by (apply noslash_ends; auto).
      rewrite S0, S1. destruct (is_nil (native p)) eqn:Z; [destruct (native p); [congruence|discriminate]|]. cbn [andb app set_cwd f_cwd f_root].
      rewrite (steps_child _ _ _ _ _ _ i L Hn), Hm. reflexivity. }
    rewrite N. reflexivity.
Qed.

(** * copy_file, create_symlink, create_hard_link *)

(** A copy to a place where there was nothing: asked for again with skip_existing it succeeds without doing anything, without an option for
    existing files it is refused with file_exists. *)
Theorem C109_copy_file : forall cf k s n has from to l q i d p m, wf s -> is_file k s (native from) q i d -> length d < n ->
  leads_nowhere k s (native to) p m ->
  exists s1, run (fsk k) (copy_file_impl cf n has from to (options l)) s = Done (true, None) s1 /\
    (forall has' l', In co_skip_existing l' -> settled k (copy_file_impl cf n has' from to (options l')) false s1) /\
    (forall has' l', ~ In co_skip_existing l' -> ~ In co_update_existing l' -> ~ In co_overwrite_existing l' ->
       exists s2, run (fsk k) (copy_file_impl cf n has' from to (options l')) s1 = refusal has' from to EEXIST s2 /\ alike s1 s2).
Proof.
  intros cf k s n has from to l q i d p m Hw Hf Hn Ht.
  destruct (run_copy_new_root cf k s n has from to (options l) q i d p m Hw Hf Hn Ht) as (s1 & d' & R & C & L & L0 & _ & Rt & _).
  pose proof (wf_run _ k (copy_file_impl cf n has from to (options l)) s Hw) as W. rewrite R in W. cbn in W.
  destruct C as (q2 & j & (lk & C1 & C1') & C2 & C3 & _ & C4 & _ & _ & _ & C5 & _). destruct L as (lk' & L1 & L2). rewrite C1 in L1. injection L1 as -> ->.
  rewrite C1' in L2. injection L2 as ->.
  pose proof (find_missing _ _ _ _ _ _ Ht) as (di & dl & G1 & G2 & _).
  assert (X : extends s s1).
  { apply (insert_extends s s1 p m (Leaf (f_next s)) di dl Hw G1 G2 Rt); [|exact C5]. intros x Hx. apply C4. lia. }
  destruct Hf as (l0 & F1 & F2 & F3).
  assert (F : is_file k s1 (native from) q i d).
  { exists l0. split; [exact (find_extends _ _ _ _ _ _ _ X F1)|]. split; [apply X; exact F2|]. rewrite C4; [exact F3|auto]. }
  assert (A : forall a b, same_state a b -> alike a b).
  { intros a b (A1 & A2 & A3 & _ & A4). split; [exact A1|]. split; [intros; rewrite A2; reflexivity|]. split; [intros; rewrite A3; reflexivity|exact A4]. }
  exists s1. split; [exact R|].
  assert (T : leads_to k s1 (native to) (p ++ [m]) (NLeaf (f_next s))) by (exists lk'; auto).
  split; intros has' l'.
  - intros H1. destruct (proj2 (C31_table_partial cf k s1 n has' from to l' W) q i d F Hn) as (_ & _ & _ & D & _).
    destruct (proj1 (D _ _ _ T C3 C2) H1) as (s2 & D1 & D2). exists s2. split; auto.
  - intros H1 H2 H3. destruct (proj2 (C31_table_partial cf k s1 n has' from to l' W) q i d F Hn) as (_ & _ & _ & D & _).
    destruct (proj2 (proj2 (D _ _ _ T C3 C2)) H1 H2 H3) as (s2 & D1 & D2). exists s2. split; auto.
Qed.

(** Links are not made twice: the second time the name is there. *)
Theorem C109_links_refuted : forall k s s1 has has' target link, wf s ->
  (run (fsk k) (create_symlink_impl has target link) s = Done (tt, None) s1 ->
   run (fsk k) (create_symlink_impl has' target link) s1 = run (fsk k) (report has' [target; link] tt (Some EEXIST)) s1) /\
  (run (fsk k) (create_directory_symlink_impl has target link) s = Done (tt, None) s1 ->
   run (fsk k) (create_directory_symlink_impl has' target link) s1 = run (fsk k) (report has' [target; link] tt (Some EEXIST)) s1) /\
  (run (fsk k) (create_hard_link_impl has target link) s = Done (tt, None) s1 ->
   run (fsk k) (create_hard_link_impl has' target link) s1 = run (fsk k) (report has' [target; link] tt (Some EEXIST)) s1).
Proof.
  intros k s s1 has has' target link Hw.
  assert (S : run (fsk k) (create_symlink_impl has target link) s = Done (tt, None) s1 ->
    run (fsk k) (create_symlink_impl has' target link) s1 = run (fsk k) (report has' [target; link] tt (Some EEXIST)) s1).
  { unfold create_symlink_impl. rewrite !run_sys. cbn [fsk]. unfold sys_symlink. destruct (is_nil (native target)); [destruct has; discriminate|].
    destruct (find_at k s false (native link)) as [l q|q n|e] eqn:E; try (destruct has; discriminate). cbn [fst snd simple run]. intros H. injection H as <-.
    pose proof (find_missing _ _ _ _ _ _ E) as (i & m & H1 & H2 & _).
    destruct (make_leaf_look k s q n (BLink (native target)) 511 1 i m Hw H1 H2) as (G1 & G2 & G3 & G4 & _). cbv zeta in *.
    match goal with |- context [find_at k ?u false _] => set (s1 := u) in * end.
    assert (L : exists x, look (f_root s1) (q ++ [n]) = Some x) by eauto. destruct L as [x L].
    destruct (resolve_fill k s s1 false (native link) (comps (native link)) q n x G4 E L) as [l Hl]; [auto|].
    unfold find_at. rewrite Hl. reflexivity. }
  split; [exact S|]. split; [exact S|].
  unfold create_hard_link_impl. rewrite !run_sys. cbn [fsk]. unfold sys_link.
  destruct (node_at s (find_at k s false (native target))) as [e|x] eqn:Ex; [destruct has; discriminate|].
  destruct (find_at k s false (native link)) as [l q|q n|e] eqn:E; try (destruct has; discriminate).
  destruct x as [i|i]; [|destruct has; discriminate]. cbn [fst snd simple run]. intros H. injection H as <-.
  pose proof (find_missing _ _ _ _ _ _ E) as (di & dl & H1 & H2 & _).
  match goal with |- context [find_at k ?u false (native link)] => set (s1 := u) in * end.
  assert (X : extends s s1) by (apply (insert_extends s s1 q n (Leaf i) di dl Hw H1 H2 eq_refl); [intros z _; reflexivity|reflexivity]).
  assert (L : look (f_root s1) (q ++ [n]) = Some (NLeaf i)) by (unfold look; cbn; rewrite (get_insert_new q n (Leaf i) (f_root s) di dl [] H1 H2); reflexivity).
  destruct (resolve_fill k s s1 false (native link) (comps (native link)) q n _ X E L) as [l Hl]; [auto|].
  assert (V : node_at s1 (find_at k s1 false (native target)) = Val (NLeaf i)).
  { unfold node_at in Ex |- *. destruct (find_at k s false (native target)) as [lt qt| |] eqn:Et; try discriminate. rewrite (find_extends _ _ _ _ _ _ _ X Et).
    destruct (look (f_root s) qt) as [y|] eqn:Ly; [|discriminate]. injection Ex as ->. rewrite (proj1 X _ _ Ly). reflexivity. }
  rewrite V. unfold find_at. rewrite Hl. reflexivity.
Qed.

(** * Examples *)

(** In the state of FSSpec.v (current directory /a, whose entry l is a symlink to /b). *)
Example C109_example : wf demo /\
  (exists s1, run (fsk demo_choices) (create_directory_impl true (topath (lit "l/x"))) demo = Done (true, None) s1 /\
     run (fsk demo_choices) (create_directory_impl false (topath (lit "l/x"))) s1 = Done (false, None) s1) /\
  (exists s1, run (fsk demo_choices) (create_directory_like_impl true (topath (lit "l/x")) (topath (lit "d"))) demo = Done (true, None) s1) /\
  (exists s1, run (fsk demo_choices) (remove_impl true (topath (lit "l/h"))) demo = Done (true, None) s1 /\
     run (fsk demo_choices) (remove_impl false (topath (lit "l/h"))) s1 = Done (false, None) s1) /\
  (exists s1, run (fsk demo_choices) (resize_file_impl true (topath (lit "l/h")) 7) demo = Done (tt, None) s1 /\ f_body s1 3 = BReg (lit "hello" ++ [zero; zero])) /\
  (exists s1, run (fsk demo_choices) (set_last_write_time_impl plain_config true (topath (lit "l/h")) 1500000000) demo = Done (tt, None) s1) /\
  (exists s1, run (fsk demo_choices) (permissions_impl plain_config true (topath (lit "l/h")) 73 (perm_opts FSProps3.Add false)) demo = Done (tt, None) s1 /\
     m_perm (f_meta s1 3) = 493%N) /\
  (exists s1, run (fsk demo_choices) (set_current_path_impl true (topath (lit "/a/d"))) demo = Done (tt, None) s1 /\ f_cwd s1 = [lit "a"; lit "d"]) /\
  (good_name (native (topath (lit "d"))) = true /\ leads_to demo_choices demo (native (topath (lit "d"))) [lit "a"; lit "d"] (NDir 5) /\
     look (f_root demo) ([lit "a"; lit "d"] ++ [native (topath (lit "d"))]) = None) /\
  (is_file demo_choices demo (native (topath (lit "f"))) [lit "a"; lit "f"] 3 (lit "hello") /\
     leads_nowhere demo_choices demo (native (topath (lit "l/x"))) [lit "b"] (lit "x")) /\
  (exists s1, run (fsk demo_choices) (create_symlink_impl true (topath (lit "f")) (topath (lit "l/x"))) demo = Done (tt, None) s1) /\
  (exists s1, run (fsk demo_choices) (create_hard_link_impl true (topath (lit "f")) (topath (lit "l/x"))) demo = Done (tt, None) s1).
Proof.
  split; [exact demo_wf|].
  split; [eexists; split; [vm_compute; reflexivity|vm_compute; reflexivity]|].
  split; [eexists; vm_compute; reflexivity|].
  split; [eexists; split; [vm_compute; reflexivity|vm_compute; reflexivity]|].
  split; [eexists; split; [vm_compute; reflexivity|vm_compute; reflexivity]|].
  split; [eexists; vm_compute; reflexivity|].
  split; [eexists; split; [vm_compute; reflexivity|vm_compute; reflexivity]|].
  split; [eexists; split; [vm_compute; reflexivity|vm_compute; reflexivity]|].
  split; [split; [reflexivity|split; [eexists; split; vm_compute; reflexivity|reflexivity]]|].
  split; [split; [eexists; split; [vm_compute; reflexivity|split; reflexivity]|vm_compute; reflexivity]|].
  split; eexists; vm_compute; reflexivity.
Qed.

(** The subtree /a, with five objects, by a path with "..". *)
Example C109_remove_all_example : canon (topath (lit "/b/../a")) /\ get (f_root demo) [lit "a"] <> None /\
  reaches demo_choices demo (native (topath (lit "/b/../a"))) [lit "a"] /\ plain (FS.last_name (native (topath (lit "/b/../a")))) = true.
Proof.
  split; [right; exists (lit "/b/../a"); reflexivity|]. split; [discriminate|]. split; [|reflexivity]. split; eexists; vm_compute; reflexivity.
Qed.

(** * rename *)

(** A rename to a free name, asked for again, fails: there is nothing left to rename. (The path is absolute: a relative one starts from a
    current directory that may have moved along.) *)
Theorem C109_rename_refuted : forall k s s1 has has' from to p n, wf s -> starts_slash (native from) = true -> names_missing k s (native to) p n ->
  run (fsk k) (rename_impl has from to) s = Done (tt, None) s1 ->
  run (fsk k) (rename_impl has' from to) s1 = run (fsk k) (report has' [from; to] tt (Some ENOENT)) s1.
Proof.
  intros k s s1 has has' from to p n Hw Hs Hm H. pose proof (C36_rename k s has from to Hw) as C. rewrite H in C.
  destruct C as (q & c & [l Hf] & Hg & [(_ & q2 & l2 & X & _)|(r & Hr & M & Hb & _)]); [unfold names_missing in Hm; congruence|].
  assert (r = p ++ [n]) as ->.
  { destruct Hr as [[l2 X]|(p' & n' & X & ->)]; unfold names_missing in *; [congruence|]. rewrite Hm in X. injection X as <- <-. reflexivity. }
  destruct M as (M1 & M2 & M3). pose proof (entry_missing _ _ _ _ _ Hm) as (di & dl & L0 & L2 & _).
  assert (L : look (f_root s) (p ++ [n]) = None) by (unfold look; rewrite get_snoc, L0, L2; reflexivity).
  assert (Hq : q <> []) by (intros ->; cbn in M2; unfold look in M2; destruct (f_root s1); discriminate).
  assert (N : nowhere (find_entry k s1 (native from))).
  { refine (resolve_gone_gen k s s1 false (native from) (names (native from)) l q Hq (fun e => e) _ _ Hb _ Hf); [| |congruence].
    - intros z Hz. exact (below_trans_missing _ _ _ M2 Hz).
    - intros z x Hz Hx. rewrite M3; auto. destruct (below (p ++ [n]) z) eqn:Z; [|reflexivity]. pose proof (below_trans_missing _ _ _ L Z). congruence. }
  unfold rename_impl. rewrite run_sys. cbn [fsk]. unfold sys_rename. destruct N as [(a & b & ->)| ->]; reflexivity.
Qed.

Example C109_rename_example : names_missing demo_choices demo (lit "l/e") [lit "b"] (lit "e") /\
  exists s1, run (fsk demo_choices) (rename_impl true (topath (lit "/a/d")) (topath (lit "l/e"))) demo = Done (tt, None) s1 /\
    get (f_root s1) [lit "b"; lit "e"] = Some (Dir 5 [(lit "g", Leaf 6)]).
Proof. split; [vm_compute; reflexivity|]. eexists. split; vm_compute; reflexivity. Qed.

Print Assumptions C109_create_directory.
Print Assumptions C109_remove.
Print Assumptions C109_remove_all.
Print Assumptions C109_resize_file.
Print Assumptions C109_last_write_time.
Print Assumptions C109_permissions.
Print Assumptions C109_current_path.
Print Assumptions C109_current_path_refuted.
Print Assumptions C109_copy_file.
Print Assumptions C109_links_refuted.
Print Assumptions C109_rename_refuted.
