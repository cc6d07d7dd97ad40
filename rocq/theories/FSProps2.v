(** More properties of single operations on the file system of FS.v: links, rename, equivalence, permissions, times. *)
From Coq Require Import Ascii String Bool Arith NArith ZArith Lia.
From Verif Require Import Str PathModel PathSpec StrProofs PathProofs PathOps PathLaws FlagsModel TimeModel ArithProps Prog DirModel
  OpsModel OpsProps FS FSProofs FSSpec FSOps FSProps.
From Coq Require Import List.
Import ListNotations.

(** * C35 symlinks and hard links *)

(** create_symlink makes a new entry holding the text of the target, or changes nothing. *)
Theorem C35_create_symlink : forall k s has target link, wf s ->
  match run (fsk k) (create_symlink_impl has target link) s with
  | Done (_, None) s' =>
      exists q n, find_at k s false (native link) = Missing q n /\
        look (f_root s') (q ++ [n]) = Some (NLeaf (f_next s)) /\ f_body s' (f_next s) = BLink (native target) /\
        same_outside s s' (q ++ [n]) /\ same_bodies s s' /\ same_metas s s' /\ same_process s s'
  | Done (_, Some _) s' => s' = s /\ has = true
  | Failed f s' => s' = s /\ has = false /\ exists e, f = FThrow (Some e) [target; link]
  end.
Proof.
  intros k s has target link Hw. unfold create_symlink_impl. rewrite run_sys. cbn [fsk]. unfold sys_symlink.
  destruct (is_nil (native target)); [cbn; destruct has; cbn; eauto|].
  destruct (find_at k s false (native link)) as [l q|q n|e] eqn:E; cbn [fst snd].
  - cbn. destruct has; cbn; eauto.
  - cbn [simple run]. exists q, n. pose proof (find_missing _ _ _ _ _ _ E) as (i & m & H1 & H2 & H3).
    destruct (make_leaf_look k s q n (BLink (native target)) 511 1 i m Hw H1 H2) as (G1 & G2 & G3 & G4 & G5 & G6 & G7 & G8).
    repeat match goal with |- _ /\ _ => split end; auto.
  - cbn. destruct has; cbn; eauto.
Qed.

Lemma run_read_made : forall cf k s has target link s1, wf s -> (0 < k_path_max k)%Z ->
  run (fsk k) (create_symlink_impl has target link) s = Done (tt, None) s1 ->
  run (fsk k) (read_symlink_impl cf true link) s1 = Done (topath (firstn (Z.to_nat (k_path_max k)) (native target)), None) s1.
Proof.
  intros cf k s has target link s1 Hw Hk H.
  unfold create_symlink_impl in H. rewrite run_sys in H. cbn [fsk] in H. unfold sys_symlink in H.
  destruct (is_nil (native target)) eqn:Hnil; [cbn in H; destruct has; discriminate|].
  destruct (find_at k s false (native link)) as [l q|q n|e] eqn:E; cbn in H; try (destruct has; discriminate).
  injection H as <-. pose proof (find_missing _ _ _ _ _ _ E) as (i & m & H1 & H2 & H3).
  destruct (make_leaf_look k s q n (BLink (native target)) 511 1 i m Hw H1 H2) as (G1 & G2 & G3 & G4 & G5 & G6 & G7 & G8).
  cbv zeta in *. set (s1 := set_body _ _ _) in *.
  destruct (resolve_fill k s s1 false (native link) (comps (native link)) q n _ G4 E G1) as [l' Hl]; [auto|].
  assert (Hpos : (0 < Z.of_nat (length (native target)))%Z) by (destruct (native target); [discriminate|cbn; lia]).
  unfold read_symlink_impl. rewrite run_sys. cbn [fsk fst snd]. unfold asap_assert.
  assert (Hb1 : (0 <? k_path_max k)%Z = true) by (apply Z.ltb_lt; lia).
  assert (Hb2 : (k_path_max k <? 0)%Z = false) by (apply Z.ltb_ge; lia).
  rewrite Hb1, Hb2. cbn [negb]. rewrite andb_false_r. cbn [pbind]. rewrite run_sys. cbn [fsk fst snd].
  unfold sys_readlink, node_at. unfold find_at. rewrite Hl, G1, G2.
  set (f := firstn (Z.to_nat (k_path_max k)) (native target)).
  assert (Hf : (0 < Z.of_nat (length f) <= k_path_max k)%Z).
  { unfold f. rewrite firstn_length. lia. }
  assert (Hb3 : (Z.of_nat (length f) <=? k_path_max k)%Z = true) by (apply Z.leb_le; lia).
  assert (Hb4 : (0 <? Z.of_nat (length f))%Z = true) by (apply Z.ltb_lt; lia).
  assert (Hb5 : (k_path_max k <? Z.of_nat (length f))%Z = false) by (apply Z.ltb_ge; lia).
  rewrite Hb3, Hb4, Hb5. cbn [negb]. rewrite andb_false_r. reflexivity.
Qed.

(** read_symlink after create_symlink gives back the text, for a text the buffer of pathconf can hold. *)
Theorem C35_symlink_round_trip_partial : forall cf k s has target link s1, wf s ->
  run (fsk k) (create_symlink_impl has target link) s = Done (tt, None) s1 ->
  (Z.of_nat (length (native target)) <= k_path_max k)%Z ->
  run (fsk k) (read_symlink_impl cf true link) s1 = Done (topath (native target), None) s1 /\
  native (topath (native target)) = reported_text (native target).
Proof.
  intros cf k s has target link s1 Hw H Hlen. split; [|apply native_mkpath].
  assert (Hpos : (0 < k_path_max k)%Z).
  { unfold create_symlink_impl in H. rewrite run_sys in H. cbn [fsk] in H. unfold sys_symlink in H.
    destruct (native target); [cbn in H; destruct has; discriminate|]. cbn [length] in Hlen. lia. }
  rewrite (run_read_made cf k s has target link s1 Hw Hpos H). rewrite firstn_all2 by lia. reflexivity.
Qed.

(** Every longer text is cut at the size of the buffer, without an error: another text is read back. *)
Theorem C35_long_target_refuted : forall cf k s has target link s1, wf s -> (0 < k_path_max k)%Z ->
  run (fsk k) (create_symlink_impl has target link) s = Done (tt, None) s1 ->
  (k_path_max k < Z.of_nat (length (native target)))%Z ->
  exists x, run (fsk k) (read_symlink_impl cf true link) s1 = Done (topath x, None) s1 /\
    (exists y, native target = x ++ y /\ y <> []) /\ Z.of_nat (length x) = k_path_max k.
Proof.
  intros cf k s has target link s1 Hw Hk H Hlen. exists (firstn (Z.to_nat (k_path_max k)) (native target)).
  split; [apply (run_read_made cf k s has); auto|]. split.
  - exists (skipn (Z.to_nat (k_path_max k)) (native target)). rewrite firstn_skipn. split; auto. intros Hx.
    pose proof (firstn_skipn (Z.to_nat (k_path_max k)) (native target)) as Hs. rewrite Hx, app_nil_r in Hs.
    apply (f_equal (@length _)) in Hs. rewrite firstn_length in Hs. lia.
  - rewrite firstn_length. lia.
Qed.
Example C35_long_target_example : exists s1,
  let k := Choices (fun _ => 3) (fun _ => 100) (fun n => S n) 40 true (StatVfs 0 0 0 0) 3 (TimeSpec 2000 0) in
  run (fsk k) (create_symlink_impl true (topath (lit "abcdef")) (topath (lit "x"))) demo = Done (tt, None) s1 /\
  run (fsk k) (read_symlink_impl plain_config true (topath (lit "x"))) s1 = Done (topath (lit "abc"), None) s1.
Proof. eexists. cbv zeta. split; [vm_compute; reflexivity|]. reflexivity. Qed.

Example C35_symlink_example : exists s1, wf demo /\
  run (fsk demo_choices) (create_symlink_impl true (topath (lit "../b/h")) (topath (lit "d/new"))) demo = Done (tt, None) s1 /\
  run (fsk demo_choices) (read_symlink_impl plain_config true (topath (lit "d/new"))) s1 = Done (topath (lit "../b/h"), None) s1 /\
  run (fsk demo_choices) (create_symlink_impl true (topath (lit "x")) (topath (lit "f"))) demo = Done (tt, Some EEXIST) demo.
Proof.
  eexists. split; [apply demo_wf|]. split; [vm_compute; reflexivity|]. split; reflexivity.
Qed.

(** create_hard_link gives the object a second name and one more link, or changes nothing. *)
Theorem C35_create_hard_link : forall k s has target link, wf s ->
  match run (fsk k) (create_hard_link_impl has target link) s with
  | Done (_, None) s' =>
      exists i q n qt l, find_at k s false (native target) = Found l qt /\ look (f_root s) qt = Some (NLeaf i) /\
        find_at k s false (native link) = Missing q n /\
        look (f_root s') (q ++ [n]) = Some (NLeaf i) /\ look (f_root s') qt = Some (NLeaf i) /\
        f_meta s' i = add_link (f_meta s i) 1 /\ same_metas_but s s' i /\
        same_outside s s' (q ++ [n]) /\ f_body s' = f_body s /\ same_process s s'
  | Done (_, Some _) s' => s' = s /\ has = true
  | Failed f s' => s' = s /\ has = false /\ exists e, f = FThrow (Some e) [target; link]
  end.
Proof.
  intros k s has target link Hw. unfold create_hard_link_impl. rewrite run_sys. cbn [fsk]. unfold sys_link.
  destruct (node_at s (find_at k s false (native target))) as [e|x] eqn:Ex; [cbn; destruct has; cbn; eauto|].
  destruct (find_at k s false (native link)) as [l q|q n|e] eqn:E; cbn [fst snd]; [cbn; destruct has; cbn; eauto| |cbn; destruct has; cbn; eauto].
  destruct x as [i|i]; [|cbn; destruct has; cbn; eauto].
  cbn [simple run fst snd]. pose proof (find_missing _ _ _ _ _ _ E) as (j & m & H1 & H2 & H3).
  apply node_at_Val in Ex as (lt & qt & Ht & Hlt).
  exists i, q, n, qt, lt. unfold same_process. cbn. repeat match goal with |- _ /\ _ => split end; auto.
  - unfold look. erewrite get_insert_new; eauto.
  - eapply look_insert; eauto.
  - apply upd_same.
  - intros v Hv. cbn. apply upd_other. auto.
  - intros r Hr. cbn. eapply look_insert_out; eauto.
Qed.

(** What hard_link_count and equivalent say about existing paths. *)
Lemma run_hard_link_count : forall k s p,
  run (fsk k) (hard_link_count_impl true p) s =
  Done (match node_at s (find_at k s true (native p)) with
        | Val x => (to_u64 (m_nlink (f_meta s (number x))), None)
        | Err e => (u64_max, Some e) end) s.
Proof.
  intros. unfold hard_link_count_impl. rewrite run_bind, run_GetFileStatus.
  destruct (node_at s (find_at k s true (native p))) as [e|x]; [reflexivity|]. destruct x; reflexivity.
Qed.

Lemma run_equivalent : forall k s a b,
  run (fsk k) (equivalent_impl true a b) s =
  Done (match node_at s (find_at k s true (native a)), node_at s (find_at k s true (native b)) with
        | Val x, Val y => (N.eqb (number x) (number y), None)
        | _, _ => (false, Some ENOTSUP) end) s.
Proof.
  intros. unfold equivalent_impl.
  assert (Hp : forall p, native (topath (native p)) = reported_text (native p)) by (intros; apply native_mkpath).
  rewrite run_bind, run_GetFileStatus, Hp, find_reported.
  destruct (node_at s (find_at k s true (native a))) as [e|x]; cbn [stat_result fst snd].
  - rewrite missing_not_exists. reflexivity.
  - destruct (status_of_exists s x) as [-> _]. cbn [negb]. rewrite run_bind, run_GetFileStatus, Hp, find_reported.
    destruct (node_at s (find_at k s true (native b))) as [e|y]; cbn [stat_result fst snd].
    + rewrite missing_not_exists. reflexivity.
    + destruct (status_of_exists s y) as [-> _]. cbn [negb run]. unfold stat_equivalent.
      destruct (stat_of_ino s x) as [-> ->], (stat_of_ino s y) as [-> ->]. reflexivity.
Qed.

(** After create_hard_link(target, link) of an object that is no symlink the two names are equivalent and the count is
    one more; after removing the link again the count is as before. *)
Theorem C35_hard_link_counts : forall k s target link s1 i qt l, wf s ->
  find_at k s false (native target) = Found l qt -> look (f_root s) qt = Some (NLeaf i) -> link_text s i = None ->
  run (fsk k) (create_hard_link_impl true target link) s = Done (tt, None) s1 ->
  run (fsk k) (equivalent_impl true target link) s1 = Done (true, None) s1 /\
  run (fsk k) (hard_link_count_impl true target) s = Done (to_u64 (m_nlink (f_meta s i)), None) s /\
  run (fsk k) (hard_link_count_impl true target) s1 = Done (to_u64 (m_nlink (f_meta s i) + 1), None) s1 /\
  (forall s2, run (fsk k) (remove_impl true link) s1 = Done (true, None) s2 ->
     forall j, m_nlink (f_meta s2 j) = m_nlink (f_meta s j)).
Proof.
  intros k s target link s1 i qt l Hw Ht Hlt Htxt H.
  assert (Hno : forall j, look (f_root s) qt = Some (NLeaf j) -> link_text s j = None).
  { intros j Hj. rewrite Hlt in Hj. inversion Hj; subst. auto. }
  assert (Ht' : find_at k s true (native target) = Found l qt).
  { unfold find_at, resolve_comps in *. destruct (is_nil (native target)); [discriminate|]. apply steps_last; auto. }
  unfold create_hard_link_impl in H. rewrite run_sys in H. cbn [fsk] in H. unfold sys_link in H.
  assert (Hn : node_at s (find_at k s false (native target)) = Val (NLeaf i)) by (unfold node_at; rewrite Ht, Hlt; reflexivity).
  rewrite Hn in H.
  destruct (find_at k s false (native link)) as [l' q|q n|e] eqn:E; cbn in H; try discriminate.
  injection H as H. pose proof (find_missing _ _ _ _ _ _ E) as (j & m & H1 & H2 & H3).
  assert (Hext : extends s s1).
  { subst s1. repeat split; auto. intros q0 x Hq. cbn. eapply look_insert; eauto. }
  assert (Hnew : look (f_root s1) (q ++ [n]) = Some (NLeaf i)).
  { subst s1. cbn. unfold look. erewrite get_insert_new; eauto. }
  assert (Htxt1 : link_text s1 i = None) by (subst s1; exact Htxt).
  assert (Hf1 : find_at k s1 true (native target) = Found l qt) by (eapply find_extends; eauto).
  assert (Hf2 : exists l2, find_at k s1 false (native link) = Found l2 (q ++ [n])).
  { eapply resolve_fill; eauto. }
  destruct Hf2 as [l2 Hf2].
  assert (Hf3 : find_at k s1 true (native link) = Found l2 (q ++ [n])).
  { unfold find_at, resolve_comps in *. destruct (is_nil (native link)); [discriminate|]. apply steps_last; auto.
    intros v Hv. rewrite Hnew in Hv. inversion Hv; subst. auto. }
  assert (Hqt : look (f_root s1) qt = Some (NLeaf i)) by (destruct Hext as [He _]; apply He; auto).
  repeat match goal with |- _ /\ _ => split end.
  - rewrite run_equivalent, Hf1, Hf3. unfold node_at. rewrite Hqt, Hnew. cbn. rewrite N.eqb_refl. reflexivity.
  - rewrite run_hard_link_count, Ht'. unfold node_at. rewrite Hlt. reflexivity.
  - rewrite run_hard_link_count, Hf1. unfold node_at. rewrite Hqt. cbn [number]. subst s1. cbn [f_meta set_meta]. rewrite upd_same. reflexivity.
  - intros s2 Hr v.
    assert (Hw1 : wf s1) by (pose proof (wf_step k (c_link (native target) (native link)) s Hw) as W; cbn [fsk] in W; unfold sys_link in W; rewrite Hn, E in W; rewrite <- H; exact W).
    pose proof (C27_remove k s1 true link Hw1) as C. rewrite Hr in C.
    destruct C as [_ (qr & x & (lr & Hr1 & Hr2) & Hne & _ & _ & _ & _ & Hm)].
    assert (Hq : qr = q ++ [n]).
    { unfold find_entry, resolve_comps in Hr1. unfold find_at, resolve_comps, comps in Hf2.
      destruct (is_nil (native link)); [discriminate|]. destruct (ends_slash (native link) && negb (is_nil (names (native link)))) eqn:Es.
      - rewrite steps_app in Hf2 by discriminate.
        unfold find_at, resolve_comps, comps in E. rewrite Es in E. destruct (is_nil (native link)) eqn:En; [discriminate|].
        rewrite steps_app in E by discriminate.
        destruct (steps (look (f_root s)) (link_text s) true (k_links k) (if starts_slash (native link) then [] else f_cwd s) (names (native link))) as [? ?|? ?|?]; try discriminate.
        rewrite steps_cons in E. destruct (look (f_root s) p) as [[?|?]|]; try discriminate.
        cbn in E. rewrite ?steps_nil in E. discriminate.
      - rewrite app_nil_r in Hf2. congruence. }
    subst qr. rewrite Hnew in Hr2. injection Hr2 as <-. destruct Hm as [Hm1 Hm2].
    destruct (N.eq_dec v i) as [->|Hv].
    + rewrite Hm1. subst s1. cbn. rewrite upd_same. cbn. lia.
    + rewrite (Hm2 v Hv). subst s1. cbn. rewrite upd_other; auto.
Qed.

Example C35_hard_link_example : exists s1, wf demo /\
  find_at demo_choices demo false (native (topath (lit "f"))) = Found 40 [lit "a"; lit "f"] /\ link_text demo 3 = None /\
  run (fsk demo_choices) (create_hard_link_impl true (topath (lit "f")) (topath (lit "l/x"))) demo = Done (tt, None) s1 /\
  run (fsk demo_choices) (hard_link_count_impl true (topath (lit "f"))) s1 = Done (3%Z, None) s1 /\
  run (fsk demo_choices) (create_hard_link_impl true (topath (lit "f")) (topath (lit "/b/h"))) demo = Done (tt, Some EEXIST) demo.
Proof.
  eexists. split; [apply demo_wf|]. split; [reflexivity|]. split; [reflexivity|].
  split; [vm_compute; reflexivity|]. split; reflexivity.
Qed.

(** * C38 equivalent *)

(** equivalent is true exactly when both paths lead to one object; a path that leads nowhere is an error. *)
Theorem C38_equivalent : forall k s a b,
  (forall x y, (exists q, leads_to k s (native a) q x) -> (exists q, leads_to k s (native b) q y) ->
     run (fsk k) (equivalent_impl true a b) s = Done (N.eqb (number x) (number y), None) s) /\
  ((~ exists q x, leads_to k s (native a) q x) \/ (~ exists q x, leads_to k s (native b) q x) ->
     run (fsk k) (equivalent_impl true a b) s = Done (false, Some ENOTSUP) s).
Proof.
  intros k s a b. rewrite run_equivalent. split.
  - intros x y Hx Hy. apply node_at_leads in Hx, Hy. rewrite Hx, Hy. reflexivity.
  - assert (Hn : forall p, (~ exists q x, leads_to k s p q x) -> exists e, node_at s (find_at k s true p) = Err e).
    { intros p Hp. destruct (node_at s (find_at k s true p)) as [e|x] eqn:E; [eauto|].
      exfalso. apply Hp. apply node_at_leads in E as [q Hq]. eauto. }
    intros [H|H]; apply Hn in H as [e He]; rewrite He; auto.
    destruct (node_at s (find_at k s true (native a))); auto.
Qed.

(** Hence it is an equivalence relation on the paths that exist. *)
Definition equivalent_in (k : choices) (s : fs) (a b : path) : Prop :=
  run (fsk k) (equivalent_impl true a b) s = Done (true, None) s.
Theorem C38_relation : forall k s a b c,
  ((exists q x, leads_to k s (native a) q x) -> equivalent_in k s a a) /\
  (equivalent_in k s a b -> equivalent_in k s b a) /\
  (equivalent_in k s a b -> equivalent_in k s b c -> equivalent_in k s a c).
Proof.
  intros k s a b c. unfold equivalent_in. rewrite !run_equivalent. repeat split.
  - intros (q & x & H). assert (E : node_at s (find_at k s true (native a)) = Val x) by (apply node_at_leads; eauto).
    rewrite E, N.eqb_refl. reflexivity.
  - destruct (node_at s (find_at k s true (native a))), (node_at s (find_at k s true (native b))); auto.
    rewrite N.eqb_sym. auto.
  - destruct (node_at s (find_at k s true (native a))) as [|x], (node_at s (find_at k s true (native b))) as [|y],
      (node_at s (find_at k s true (native c))) as [|z]; try discriminate.
    intros H1 H2. injection H1 as H1. injection H2 as H2. apply N.eqb_eq in H1, H2. rewrite H1, H2, N.eqb_refl. reflexivity.
Qed.

Example C38_example :
  leads_to demo_choices demo (native (topath (lit "/a/f"))) [lit "a"; lit "f"] (NLeaf 3) /\
  leads_to demo_choices demo (native (topath (lit "l/h"))) [lit "b"; lit "h"] (NLeaf 3) /\
  equivalent_in demo_choices demo (topath (lit "/a/f")) (topath (lit "l/h")) /\
  run (fsk demo_choices) (equivalent_impl true (topath (lit "f")) (topath (lit "d/g"))) demo = Done (false, None) demo /\
  run (fsk demo_choices) (equivalent_impl true (topath (lit "f")) (topath (lit "none"))) demo = Done (false, Some ENOTSUP) demo.
Proof.
  split; [exists 40; split; reflexivity|]. split; [exists 39; split; reflexivity|]. repeat split; reflexivity.
Qed.
Print Assumptions C35_create_symlink.
Print Assumptions C35_symlink_round_trip_partial.
Print Assumptions C35_long_target_refuted.
Print Assumptions C35_create_hard_link.
Print Assumptions C35_hard_link_counts.
Print Assumptions C38_equivalent.
Print Assumptions C38_relation.
