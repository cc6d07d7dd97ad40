(** Properties of absolute, current_path, canonical and weakly_canonical on the file system of FS.v. *)
From Coq Require Import Ascii String Bool Arith NArith ZArith Lia.
From Verif Require Import Str PathModel PathSpec StrProofs PathProofs PathOps PathOps2 PathNormal PathNormal2 PathMisc
  PathReach PathLaws FlagsModel TimeModel ArithProps Prog DirModel
  OpsModel OpsProps FS FSProofs FSSpec FSOps FSPlace FSProps.
From Coq Require Import List.
Import ListNotations.

(** The current directory exists and its text fits the buffer of the size pathconf tells. *)
Definition has_cwd (k : choices) (s : fs) : Prop :=
  (exists i, look (f_root s) (f_cwd s) = Some (NDir i)) /\
  (Z.of_nat (length (place_text (f_cwd s))) < k_path_max k)%Z.

Lemma run_current_path : forall cf k s has, has_cwd k s ->
  run (fsk k) (current_path_impl cf has) s = Done (topath (place_text (f_cwd s)), None) s.
Proof.
  intros cf k s has [[i Hi] Hl]. unfold current_path_impl. rewrite run_sys. cbn [fsk fst snd].
  rewrite run_bind. unfold asap_assert. replace (0 <? k_path_max k)%Z with true by (symmetry; apply Z.ltb_lt; lia).
  rewrite andb_false_r. cbn [run]. replace (k_path_max k <? 0)%Z with false by (symmetry; apply Z.ltb_ge; lia).
  rewrite run_sys. cbn [fsk fst snd]. unfold sys_getcwd. rewrite Hi.
  replace (k_path_max k <=? _)%Z with false by (symmetry; apply Z.leb_gt; lia). reflexivity.
Qed.

Lemma reported_id : forall t, is_text t -> reported_text t = t.
Proof. intros t H. rewrite <- native_mkpath. apply native_is_text. auto. Qed.

Lemma canon_absolute : forall E p, canon p -> is_absolute Posix E p = starts_slash (native p).
Proof.
  intros E p [->|[t ->]]; [destruct E as [[] [] []]; reflexivity|].
  rewrite is_absolute_mkpath, native_mkpath, starts_reported. reflexivity.
Qed.

Lemma place_is_text : forall q, good_place q -> is_text (place_text q).
Proof. intros q H. rewrite <- text_place by auto. rewrite native_mkpath. apply reported_is_text. Qed.

Lemma place_canon : forall q, canon (topath (place_text q)).
Proof. intros. apply canon_mkpath. Qed.

Lemma find_relative : forall k s last t i, wf s -> look (f_root s) (f_cwd s) = Some (NDir i) ->
  starts_slash t = false -> t <> [] ->
  find_at k s last (append_text (place_text (f_cwd s)) t) = find_at k s last t.
Proof.
  intros k s last t i Hw Hi Ht Hne.
  rewrite (find_under k s last _ t (k_links k) (f_cwd s) i); auto.
  - destruct (FS.comps t) eqn:Hc.
    + apply comps_nil in Hc. apply only_slashes_names in Hc. destruct t; [congruence|]. cbn in *. rewrite Ht in Hc. discriminate.
    + cbn [is_nil]. rewrite <- Hc. unfold find_at, resolve_comps. rewrite Ht. destruct t; [congruence|]. reflexivity.
  - eapply find_place; eauto. intros; discriminate.
Qed.

(** * C44 absolute and current_path *)

Theorem C44_absolute : forall cf k s has p, wf s -> canon p ->
  (starts_slash (native p) = true -> run (fsk k) (absolute_impl cf has p) s = Done (p, None) s) /\
  (starts_slash (native p) = false -> has_cwd k s ->
   exists r, run (fsk k) (absolute_impl cf has p) s = Done (r, None) s /\ canon r /\
     native r = append_text (place_text (f_cwd s)) (native p) /\
     is_absolute Posix (cf_el cf) r = true /\
     (native p <> [] -> forall last, find_at k s last (native r) = find_at k s last (native p))).
Proof.
  intros cf k s has p Hw Hp. unfold absolute_impl, do_absolute_impl. rewrite canon_absolute by auto. split.
  - intros ->. reflexivity.
  - intros Hs Hc. rewrite Hs. rewrite run_bind, run_bind, run_current_path by auto.
    destruct Hc as [[i Hi] _].
    pose proof (wf_place _ _ _ (wf_root s Hw) Hi) as Hg.
    destruct (gives_div (cf_el cf) (topath (place_text (f_cwd s))) p (place_canon _) Hp) as (r & Hr & Hrc & Hn).
    cbn [failed]. cbn iota. rewrite run_bind, Hr. cbn [lift run fst snd].
    unfold topath in Hn. change (split_components Posix (place_text (f_cwd s))) with (mkpath (place_text (f_cwd s))) in Hn.
    rewrite text_place in Hn by auto.
    assert (Ht : is_text (append_text (place_text (f_cwd s)) (native p))).
    { apply append_text_text; [apply place_is_text; auto|]. apply canon_native. auto. }
    rewrite reported_id in Hn by auto.
    exists r. split; [reflexivity|]. split; [auto|]. split; [auto|]. split.
    + rewrite canon_absolute, Hn by auto. rewrite append_text_before, starts_before by auto. reflexivity.
    + intros Hne last. rewrite Hn. eapply find_relative; eauto.
Qed.

(** Without a current directory there is an error. *)
Theorem C44_no_directory : forall cf k s has, (0 < k_path_max k)%Z -> ~ has_cwd k s ->
  exists e, run (fsk k) (current_path_impl cf has) s =
    if has then Done (path_default, Some e) s else Failed (FThrow (Some e) []) s.
Proof.
  intros cf k s has Hm Hc. unfold current_path_impl. rewrite run_sys. cbn [fsk fst snd].
  rewrite run_bind. unfold asap_assert. replace (0 <? k_path_max k)%Z with true by (symmetry; apply Z.ltb_lt; lia).
  rewrite andb_false_r. cbn [run]. replace (k_path_max k <? 0)%Z with false by (symmetry; apply Z.ltb_ge; lia).
  rewrite run_sys. cbn [fsk fst snd]. unfold sys_getcwd.
  destruct (look (f_root s) (f_cwd s)) as [[i|i]|] eqn:Hi; try (destruct has; eexists; reflexivity).
  destruct (k_path_max k <=? Z.of_nat (length (place_text (f_cwd s))))%Z eqn:Hl; [destruct has; eexists; reflexivity|].
  destruct Hc. split; [eauto|]. apply Z.leb_gt in Hl. lia.
Qed.

(** current_path(p) changes the current directory to the directory [p] leads to and nothing else, and current_path() then
    gives the place of this directory, which leads to it; it fails when p leads to no directory, changing nothing. *)
Theorem C44_change_directory : forall cf k s has p, wf s ->
  (forall q i, leads_to k s (native p) q (NDir i) ->
     exists s1, run (fsk k) (set_current_path_impl has p) s = Done (tt, None) s1 /\
       f_cwd s1 = q /\ f_root s1 = f_root s /\ f_body s1 = f_body s /\ f_meta s1 = f_meta s /\ f_fds s1 = f_fds s /\
       f_dirs s1 = f_dirs s /\ f_env s1 = f_env s /\
       ((Z.of_nat (length (place_text q)) < k_path_max k)%Z ->
        exists c, run (fsk k) (current_path_impl cf has) s1 = Done (c, None) s1 /\
          native c = place_text q /\ leads_to k s1 (native c) q (NDir i))) /\
  ((forall q i, ~ leads_to k s (native p) q (NDir i)) ->
     exists e, run (fsk k) (set_current_path_impl has p) s =
       if has then Done (tt, Some e) s else Failed (FThrow (Some e) [p]) s).
Proof.
  intros cf k s has p Hw. split.
  - intros q i (l & Hf & Hq). exists (set_cwd s q).
    assert (Hr : run (fsk k) (set_current_path_impl has p) s = Done (tt, None) (set_cwd s q)).
    { unfold set_current_path_impl. rewrite run_sys. cbn [fsk fst snd]. unfold sys_chdir. rewrite Hf, Hq. reflexivity. }
    split; [exact Hr|]. repeat match goal with |- _ /\ _ => split end; try reflexivity.
    intros Hl. pose proof (wf_place _ _ _ (wf_root s Hw) Hq) as Hg.
    exists (topath (place_text q)). split; [apply run_current_path; split; cbn; eauto|].
    unfold topath. change (split_components Posix (place_text q)) with (mkpath (place_text q)).
    rewrite text_place by auto. split; [reflexivity|].
    assert (Hw1 : wf (set_cwd s q)) by (destruct Hw; constructor; auto).
    exists (k_links k). split; [|exact Hq]. eapply find_place; eauto. intros; discriminate.
  - intros Hno. unfold set_current_path_impl. rewrite run_sys. cbn [fsk fst snd]. unfold sys_chdir.
    destruct (find_at k s true (native p)) as [l q|q n|e] eqn:Hf; try (destruct has; eexists; reflexivity).
    destruct (look (f_root s) q) as [[i|i]|] eqn:Hq; try (destruct has; eexists; reflexivity).
    destruct (Hno q i). exists l. auto.
Qed.

(** A relative path with a symlink and dot-dot, from /a. *)
Example C44_example : wf demo /\ has_cwd demo_choices demo /\
  (exists r, run (fsk demo_choices) (absolute_impl plain_config false (topath (lit "l/../x"))) demo = Done (r, None) demo /\
     native r = lit "/a/l/../x") /\
  (exists s1, run (fsk demo_choices) (set_current_path_impl false (topath (lit "l"))) demo = Done (tt, None) s1 /\
     f_cwd s1 = [lit "b"] /\ run (fsk demo_choices) (current_path_impl plain_config false) s1 = Done (topath (lit "/b"), None) s1).
Proof.
  split; [exact demo_wf|]. split; [split; [eexists; reflexivity|reflexivity]|].
  split; eexists; repeat split; reflexivity.
Qed.

(** * C45 canonical and weakly_canonical *)

Lemma run_realpath : forall k s t, wf s ->
  (forall q x, leads_to k s t q x -> fsk k (c_realpath t) s = (Val (place_text q), s)) /\
  ((forall q x, ~ leads_to k s t q x) -> exists e, fsk k (c_realpath t) s = (Err e, s)).
Proof.
  intros k s t Hw. cbn [fsk]. unfold sys_realpath. split.
  - intros q x (l & -> & ->). reflexivity.
  - intros Hno. destruct (find_at k s true t) as [l q|q n|e] eqn:Hf; eauto.
    destruct (look (f_root s) q) as [x|] eqn:Hq; eauto. destruct (Hno q x). exists l. auto.
Qed.

Lemma run_do_absolute : forall cf k s has p, wf s -> canon p -> native p <> [] ->
  (starts_slash (native p) = true \/ has_cwd k s) ->
  exists r c, run (fsk k) (do_absolute_impl cf has p) s = Done (r, c, None) s /\
    forall last, find_at k s last (native r) = find_at k s last (native p).
Proof.
  intros cf k s has p Hw Hp Hne Hc. destruct (C44_absolute cf k s has p Hw Hp) as [H1 H2].
  unfold absolute_impl in *. rewrite run_bind in *. destruct (starts_slash (native p)) eqn:Hs.
  - specialize (H1 eq_refl). destruct (run (fsk k) (do_absolute_impl cf has p) s) as [[[r c] e] s'|]; [|discriminate].
    cbn in H1. injection H1 as -> -> ->. exists p, c. auto.
  - destruct Hc as [Hc|Hc]; [congruence|]. destruct (H2 eq_refl Hc) as (r & H & _ & _ & _ & Hf).
    destruct (run (fsk k) (do_absolute_impl cf has p) s) as [[[r' c] e] s'|]; [|discriminate].
    cbn in H. injection H as -> -> ->. exists r, c. auto.
Qed.

(** canonical(p) succeeds exactly when [p] exists, with the text of the place [p] leads to: an absolute path whose names
    are no dots, and whose every prefix is a directory and not a symlink; it leads to the same object and is its own
    canonical path. *)
Theorem C45_canonical_partial : forall cf k s has p, wf s -> canon p -> native p <> [] ->
  (starts_slash (native p) = true \/ has_cwd k s) ->
  (forall q x, leads_to k s (native p) q x ->
     exists r, run (fsk k) (canonical_impl cf has p) s = Done (r, None) s /\
       canon r /\ is_absolute Posix (cf_el cf) r = true /\
       names (native r) = q /\ native r = [slash] ++ join q /\
       Forall (fun n => plain n = true) (names (native r)) /\
       (forall a b, q = a ++ b -> b <> [] -> exists i, look (f_root s) a = Some (NDir i)) /\
       type_of s x <> ft_symlink /\
       leads_to k s (native r) q x /\
       forall has', run (fsk k) (canonical_impl cf has' r) s = Done (r, None) s) /\
  ((forall q x, ~ leads_to k s (native p) q x) ->
     exists e c, run (fsk k) (canonical_impl cf has p) s =
       if has then Done (path_default, Some e) s else Failed (FThrow (Some e) [p; c]) s).
Proof.
  intros cf k s has p Hw Hp Hne Hc.
  destruct (run_do_absolute cf k s has p Hw Hp Hne Hc) as (r & c & Hr & Hf).
  split.
  - intros q x Hl. pose proof Hl as (l & Hfq & Hq).
    pose proof (wf_place _ _ _ (wf_root s Hw) Hq) as Hg.
    exists (topath (place_text q)).
    assert (Hn : native (topath (place_text q)) = place_text q) by (apply text_place; auto).
    assert (Hnl : forall i, x = NLeaf i -> link_text s i = None).
    { intros i ->. eapply find_no_link; eauto. }
    assert (Hl2 : leads_to k s (place_text q) q x).
    { exists (k_links k). split; auto. eapply find_place; eauto. }
    assert (Ha : is_absolute Posix (cf_el cf) (topath (place_text q)) = true).
    { rewrite canon_absolute, Hn by apply place_canon. reflexivity. }
    rewrite Hn, names_place by auto.
    repeat match goal with |- _ /\ _ => split end; auto.
    + unfold canonical_impl. rewrite run_bind, Hr. cbn iota. rewrite run_sys.
      destruct (run_realpath k s (native r) Hw) as [Hrp _].
      rewrite (Hrp q x); [reflexivity|]. exists l. rewrite Hf. auto.
    + apply place_canon.
    + eapply Forall_impl; [|exact Hg]. intros n Hgn. apply good_plain in Hgn. tauto.
    + intros a b -> Hb. eapply look_prefix; eauto.
    + destruct x as [i|i]; [|discriminate]. specialize (Hnl i eq_refl). unfold link_text in Hnl. cbn.
      destruct (f_body s i) as [|?|[]]; try discriminate.
    + intros has'.
      assert (Hd : run (fsk k) (do_absolute_impl cf has' (topath (place_text q))) s =
        Done (topath (place_text q), path_default, None) s) by (unfold do_absolute_impl; rewrite Ha; reflexivity).
      unfold canonical_impl. rewrite run_bind, Hd. cbn iota. rewrite run_sys, Hn.
      destruct (run_realpath k s (place_text q) Hw) as [Hrp _]. rewrite (Hrp q x Hl2). reflexivity.
  - intros Hno. unfold canonical_impl. rewrite run_bind, Hr. cbn iota. rewrite run_sys.
    destruct (run_realpath k s (native r) Hw) as [_ Hrp]. destruct Hrp as [e He].
    { intros q x (l & H1 & H2). apply (Hno q x). exists l. rewrite <- Hf. auto. }
    exists e, c. rewrite He. destruct has; reflexivity.
Qed.

Lemma comps_before : forall t x, starts_slash x = false -> t <> [] -> exists c,
  FS.comps (before t ++ x) = names t ++ c /\ (c = [] -> names t = [] /\ names x = []).
Proof.
  intros t x Hx Ht. unfold FS.comps. rewrite names_before, ends_before by auto.
  eexists. rewrite <- app_assoc. split; [reflexivity|]. intros E. apply app_eq_nil in E as [E1 E2]. split; auto.
  rewrite E1, app_nil_r in E2. destruct t as [|a t]; [congruence|].
  destruct x as [|b x].
  - cbn [is_nil negb andb] in E2. destruct (names (a :: t)); auto. discriminate.
  - apply only_slashes_names in E1. cbn in Hx, E1. rewrite Hx in E1. discriminate.
Qed.

Lemma find_place_slash : forall k s q i, wf s -> look (f_root s) q = Some (NDir i) ->
  find_at k s true (append_text (place_text q) []) = Found (k_links k) q.
Proof.
  intros k s q i Hw Hq. pose proof (wf_place _ _ _ (wf_root s Hw) Hq) as Hg.
  rewrite append_text_before by reflexivity. destruct (comps_before (place_text q) [] eq_refl) as (c & Hc & Hcn); [discriminate|].
  assert (Hs : forall c, steps (look (f_root s)) (link_text s) true (k_links k) [] (q ++ c) =
    match c with [] => Found (k_links k) q | _ => steps (look (f_root s)) (link_text s) true (k_links k) q c end).
  { intros [|y c0].
    - rewrite app_nil_r. apply (steps_place _ _ _ _ q [] (NDir i)); auto. discriminate.
    - rewrite steps_app by discriminate. rewrite (steps_place _ _ true _ q [] (NDir i)); auto. discriminate. }
  unfold find_at, resolve_comps. rewrite Hc, starts_before by (first [reflexivity|discriminate]). replace (is_nil (before (place_text q) ++ [])) with false by reflexivity.
  rewrite names_place by auto. change (starts_slash (place_text q)) with true. cbv iota. rewrite Hs.
  destruct c as [|y c0]; [reflexivity|].
  unfold FS.comps in Hc. rewrite names_before in Hc by auto. change (names []) with (@nil str) in Hc. rewrite !app_nil_r in Hc. apply app_inv_head in Hc.
  destruct (ends_slash (before (place_text q)) && negb (is_nil (names (place_text q)))); [|discriminate].
  injection Hc as <- <-. rewrite steps_cons, Hq. change (str_eqb (lit ".") (lit ".")) with true. cbv iota. apply steps_nil.
Qed.

(** The empty path names nothing, and yet canonical gives the current directory for it, in every state that has one. *)
Theorem C45_empty_refuted : forall cf k s has, wf s -> has_cwd k s ->
  (forall q x, ~ leads_to k s [] q x) /\
  exists r, run (fsk k) (canonical_impl cf has (topath [])) s = Done (r, None) s /\ native r = place_text (f_cwd s).
Proof.
  intros cf k s has Hw Hc. split; [intros q x (l & H & _); discriminate|].
  assert (Hp : canon (topath [])) by (right; exists []; reflexivity).
  destruct (C44_absolute cf k s has (topath []) Hw Hp) as [_ H2]. destruct (H2 eq_refl Hc) as (r & H & Hrc & Hn & Ha & _).
  destruct Hc as [[i Hi] _]. pose proof (wf_place _ _ _ (wf_root s Hw) Hi) as Hg.
  exists (topath (place_text (f_cwd s))). split; [|apply text_place; auto].
  unfold absolute_impl in H. rewrite run_bind in H. unfold canonical_impl. rewrite run_bind.
  destruct (run (fsk k) (do_absolute_impl cf has (topath [])) s) as [[[r' c] e] s'|]; [|discriminate].
  cbn in H. injection H as -> -> ->. rewrite run_sys. change (native (topath [])) with (@nil ascii) in Hn. rewrite Hn.
  destruct (run_realpath k s (append_text (place_text (f_cwd s)) []) Hw) as [Hrp _].
  rewrite (Hrp (f_cwd s) (NDir i)); [reflexivity|]. exists (k_links k). split; auto. eapply find_place_slash; eauto.
Qed.
Example C45_empty_example : has_cwd demo_choices demo /\
  exists r, run (fsk demo_choices) (canonical_impl plain_config false (topath [])) demo = Done (r, None) demo /\ native r = lit "/a".
Proof. split; [split; [eexists; reflexivity|vm_compute; reflexivity]|]. eexists. split; reflexivity. Qed.

Example C45_canonical_example : exists r, leads_to demo_choices demo (lit "./l/../a/./d/g") [lit "a"; lit "d"; lit "g"] (NLeaf 6) /\
  run (fsk demo_choices) (canonical_impl plain_config false (topath (lit "./l/../a/./d/g"))) demo = Done (r, None) demo /\
  native r = lit "/a/d/g".
Proof. eexists. split; [exists 39; split; vm_compute; reflexivity|]. split; reflexivity. Qed.

(** ** weakly_canonical *)

(** The elements [l] joined to [t] one after the other. *)
Definition joined (t : str) (l : list str) : str := fold_left append_text l t.

Lemma joined_names : forall l t, Forall goodname l -> l <> [] -> joined t l = before t ++ join l.
Proof.
  induction l as [|n l IH]; intros t HF Hne; [congruence|]. inversion HF as [|? ? [H1 H2] HF']; subst.
  assert (Hs : starts_slash n = false) by (destruct n; [congruence|apply noslash_cons in H1; cbn; tauto]).
  cbn [joined fold_left]. fold (joined (append_text t n) l). rewrite append_text_before by auto.
  destruct l as [|m l]; [reflexivity|]. rewrite IH by (auto; congruence).
  rewrite (join_cons n) by congruence. unfold before at 1.
  replace (is_nil (after_last_slash (before t ++ n))) with false; [rewrite <- !app_assoc; reflexivity|].
  rewrite after_before by auto. rewrite after_last_slash_noslash by auto. destruct n; [congruence|reflexivity].
Qed.

Lemma joined_app : forall t a b, joined t (a ++ b) = joined (joined t a) b.
Proof. intros. apply fold_left_app. Qed.

Lemma joined_parts : forall (st en : bool) ns, Forall goodname ns ->
  joined [] ((if st then [[slash]] else []) ++ ns ++ (if en && negb (is_nil ns) then [[]] else [])) =
  (if st then [slash] else []) ++ join ns ++ (if en && negb (is_nil ns) then [slash] else []).
Proof.
  intros st en ns HF. rewrite !joined_app. destruct ns as [|n ns].
  { rewrite andb_false_r. destruct st; reflexivity. }
  assert (Hne : n :: ns <> []) by congruence. revert HF Hne. generalize (n :: ns) as l. intros l HF Hne.
  pose proof (join_ne _ HF Hne) as Hj. rewrite (joined_names l) by auto.
  assert (Hb : forall a, before (joined [] (if st then [[slash]] else [])) ++ a = (if st then [slash] else []) ++ a)
    by (intros; destruct st; reflexivity).
  rewrite Hb. replace (is_nil l) with false by (destruct l; [congruence|reflexivity]). rewrite andb_true_r.
  destruct en; [|rewrite app_nil_r; reflexivity].
  cbn [joined fold_left]. rewrite append_text_before by reflexivity. rewrite app_nil_r.
  unfold before. rewrite app_assoc. f_equal.
  destruct (after_last_slash ((if st then [slash] else []) ++ join l)) eqn:Ha; auto. apply after_last_nil in Ha as [Ha|Ha].
  - apply app_eq_nil in Ha as [_ Ha]. congruence.
  - rewrite ends_slash_app in Ha by auto. rewrite ends_join in Ha by auto. discriminate.
Qed.

Lemma joined_elements : forall t, joined [] (elements t) = squeezed t.
Proof. intros t. apply joined_parts. apply names_all. Qed.

Lemma squeezed_same : forall t, names (squeezed t) = names t /\ starts_slash (squeezed t) = starts_slash t /\
  is_nil (squeezed t) = is_nil t /\ (names t <> [] -> ends_slash (squeezed t) = ends_slash t).
Proof.
  intros t. pose proof (names_all t) as HF. unfold squeezed. destruct (names t) as [|n ns] eqn:Hn.
  - cbn [join is_nil negb]. rewrite andb_false_r. apply only_slashes_names in Hn.
    destruct t as [|c t]; [repeat split; auto; congruence|]. cbn in Hn. apply andb_true_iff in Hn as [Hc _].
    cbn [starts_slash]. rewrite Hc. repeat split; auto. intros; congruence.
  - rewrite <- Hn in *. assert (Hne : names t <> []) by congruence. pose proof (join_ne _ HF Hne) as Hj.
    pose proof (names_join _ HF) as Hnj. pose proof (starts_join _ HF) as Hsj.
    assert (Htn : is_nil t = false) by (destruct t; [discriminate Hne|reflexivity] || (destruct t; auto; rewrite names_nil in Hne; congruence)).
    replace (negb (is_nil (names t))) with true by (rewrite Hn; reflexivity). rewrite andb_true_r.
    assert (HN : names (join (names t) ++ (if ends_slash t then [slash] else [])) = names t).
    { destruct (ends_slash t); [rewrite names_app_slash, names_nil, app_nil_r|rewrite app_nil_r]; auto. }
    repeat split.
    + destruct (starts_slash t); cbn [app]; rewrite ?names_cons_slash; auto.
    + destruct (starts_slash t); [reflexivity|]. cbn [app]. destruct (join (names t)); [congruence|exact Hsj].
    + rewrite Htn. destruct (starts_slash t), (join (names t)); try reflexivity. congruence.
    + intros _. rewrite ends_slash_app by (intros E; apply app_eq_nil in E as [E _]; auto).
      destruct (ends_slash t); [rewrite ends_slash_snoc; reflexivity|]. rewrite app_nil_r. apply ends_join. auto.
Qed.

Lemma find_joined : forall k s last t, find_at k s last (joined [] (elements t)) = find_at k s last t.
Proof.
  intros. rewrite joined_elements. destruct (squeezed_same t) as (H1 & H2 & H3 & H4).
  unfold find_at, resolve_comps, FS.comps. rewrite H1, H2, H3. destruct (names t); [rewrite !andb_false_r; reflexivity|].
  rewrite H4 by congruence. reflexivity.
Qed.

(** The error of a path is one that says that it does not exist. *)
Definition absent (e : errno) : Prop := e = ENOENT \/ e = ENOTDIR.

(** What does not exist has nothing below it. *)
Lemma absent_below : forall k s t x e, wf s -> t <> [] -> starts_slash x = false ->
  node_at s (find_at k s true t) = Err e ->
  exists e', node_at s (find_at k s true (append_text t x)) = Err e' /\ (absent e' -> absent e).
Proof.
  intros k s t x e Hw Ht Hx He. rewrite append_text_before by auto.
  destruct (comps_before t x Hx Ht) as (c & Hc & Hcn).
  destruct (is_nil c) eqn:Hnc.
  { apply is_nil_true in Hnc. destruct (Hcn Hnc) as [Hnt _]. exfalso. unfold find_at, FS.comps in He. rewrite Hnt in He.
    rewrite andb_false_r in He. unfold resolve_comps in He. destruct t as [|a t]; [congruence|]. cbn [is_nil] in He.
    apply only_slashes_names in Hnt. cbn in Hnt. apply andb_true_iff in Hnt as [Hnt _]. cbn [starts_slash] in He. rewrite Hnt in He.
    rewrite steps_nil in He. cbn [node_at] in He. destruct (look_root s Hw) as [i Hi]. rewrite Hi in He. discriminate. }
  assert (Hcne : c <> []) by (intros ->; discriminate).
  unfold find_at at 1, resolve_comps. rewrite Hc, starts_before by auto.
  replace (is_nil (before t ++ x)) with false by (destruct t; [congruence|reflexivity]).
  rewrite steps_app by auto.
  unfold find_at, resolve_comps in He. replace (is_nil t) with false in He by (destruct t; [congruence|reflexivity]).
  unfold FS.comps in He. destruct (ends_slash t && negb (is_nil (names t))) eqn:Hd.
  - rewrite steps_app in He by discriminate.
    destruct (steps (look (f_root s)) (link_text s) true (k_links k) (if starts_slash t then [] else f_cwd s) (names t))
      as [l q|q n|e1] eqn:Hs.
    + rewrite steps_cons in He. destruct c as [|n c]; [congruence|]. rewrite steps_cons.
      destruct (look (f_root s) q) as [[i|i]|] eqn:Hq; [eexists; split; [reflexivity|auto]| |].
      * cbn in He. inversion He. unfold absent. auto.
      * change (str_eqb (lit ".") (lit ".")) with true in He. cbn iota in He. rewrite steps_nil in He. cbn [node_at] in He.
        rewrite Hq in He. discriminate.
      * eexists. split; [reflexivity|]. cbn in He. inversion He. unfold absent. auto.
    + eexists. split; [reflexivity|]. cbn in He. inversion He. auto.
    + eexists. split; [reflexivity|]. cbn in He. inversion He. auto.
  - rewrite app_nil_r in He.
    destruct (steps (look (f_root s)) (link_text s) true (k_links k) (if starts_slash t then [] else f_cwd s) (names t))
      as [l q|q n|e1] eqn:Hs; cbn in He.
    + destruct c as [|n c]; [congruence|]. rewrite steps_cons.
      destruct (look (f_root s) q) as [[i|i]|] eqn:Hq; try discriminate.
      eexists. split; [reflexivity|]. inversion He. unfold absent. auto.
    + eexists. split; [reflexivity|]. inversion He. unfold absent. auto.
    + eexists. split; [reflexivity|]. inversion He. auto.
Qed.

Lemma absent_joined : forall k s l t e, wf s -> t <> [] -> Forall (fun x => starts_slash x = false) l ->
  node_at s (find_at k s true t) = Err e ->
  exists e', node_at s (find_at k s true (joined t l)) = Err e' /\ (absent e' -> absent e).
Proof.
  intros k s. induction l as [|x l IH]; intros t e Hw Ht HF He; [exists e; auto|].
  inversion HF; subst. destruct (absent_below k s t x e) as (e1 & H3 & H4); auto.
  destruct (IH (append_text t x) e1) as (e2 & H5 & H6); auto.
  - rewrite append_text_before by auto. destruct t; [congruence|discriminate].
  - exists e2. auto.
Qed.

(** An element of a path. *)
Definition is_elem (x : str) : Prop := x = [slash] \/ x = [] \/ goodname x.
Lemma elem_text : forall x, is_elem x -> is_text x /\ native (mkpath x) = x.
Proof.
  intros x [->|[->|[H1 H2]]]; [split; reflexivity|split; reflexivity|].
  split; [apply noslash_text; auto|]. apply native_is_text, noslash_text. auto.
Qed.

Lemma append_all_joined : forall E l r, canon r -> Forall is_elem l ->
  exists r', append_all Posix E (map mkpath l) r = Ok r' /\ canon r' /\ native r' = joined (native r) l.
Proof.
  intros E. induction l as [|x l IH]; intros r Hr HF; [exists r; auto|].
  inversion HF as [|? ? Hx HF']; subst. destruct (elem_text x Hx) as [Hxt Hxn].
  cbn [map append_all]. rewrite path_append_canon by (auto using canon_mkpath). cbn [bind]. rewrite Hxn.
  destruct (IH (mkpath (append_text (native r) x)) (canon_mkpath _) HF') as (r' & H1 & H2 & H3).
  exists r'. split; auto. split; auto. rewrite H3. cbn [joined fold_left].
  rewrite native_is_text; auto. apply append_text_text; auto. apply canon_native. auto.
Qed.

Lemma run_existing_prefix : forall cf k s l r e, wf s -> canon r -> Forall is_elem l ->
  Forall (fun x => starts_slash x = false) (tl l) ->
  (native r <> [] -> Forall (fun x => starts_slash x = false) l) ->
  (native r = [] -> hd [] l <> []) ->
  (native r = [] \/ exists q x, leads_to k s (native r) q x) ->
  node_at s (find_at k s true (joined (native r) l)) = Err e -> absent e ->
  exists a b r' e', l = a ++ b /\ b <> [] /\
    run (fsk k) (existing_prefix cf (map mkpath l) r) s = Done (r', map mkpath b, None) s /\ canon r' /\
    native r' = joined (native r) a /\
    (a = [] \/ exists q x, leads_to k s (joined (native r) a) q x) /\
    joined (native r) (a ++ [hd [] b]) <> [] /\
    node_at s (find_at k s true (joined (native r) (a ++ [hd [] b]))) = Err e'.
Proof.
  intros cf k s. induction l as [|x l IH]; intros r e Hw Hr HF Htl Hrel Hnil Hex He Ha.
  { destruct Hex as [Hex|(q & y & Hex)].
    - specialize (Hnil Hex). cbn in Hnil. congruence.
    - cbn [joined fold_left] in He. assert (node_at s (find_at k s true (native r)) = Val y) by (apply node_at_leads; eauto).
      congruence. }
  inversion HF as [|? ? Hx HF']; subst. destruct (elem_text x Hx) as [Hxt Hxn].
  cbn [map existing_prefix]. rewrite run_bind.
  destruct (gives_div (cf_el cf) r (mkpath x) Hr (canon_mkpath x)) as (t1 & Ht1 & Hc1 & Hn1).
  rewrite Hxn in Hn1. rewrite reported_id in Hn1 by (apply append_text_text; auto; apply canon_native; auto).
  rewrite Ht1. cbn [lift run].
  assert (Hne1 : append_text (native r) x <> []).
  { unfold append_text. destruct (starts_slash x) eqn:Hs; [intros ->; discriminate|].
    destruct (native r) eqn:Hnr; [|discriminate]. cbn. apply (Hnil eq_refl). }
  cbn [tl] in Htl.
  rewrite run_bind, run_status, Hn1. cbn [joined fold_left] in He. fold (joined (append_text (native r) x) l) in He.
  destruct (node_at s (find_at k s true (append_text (native r) x))) as [e1|y] eqn:Hy.
  - exists [], (x :: l), r, e1. cbn [stat_result fst snd]. rewrite missing_not_exists.
    destruct (absent_joined k s l _ e1 Hw Hne1 Htl Hy) as (e2 & H2 & H3). rewrite H2 in He. inversion He; subst e2.
    assert (status_known (missing_status e1) = true) as ->.
    { destruct (H3 Ha) as [->| ->]; reflexivity. }
    cbn [app hd joined fold_left]. repeat split; auto. congruence.
  - cbn [stat_result fst snd]. rewrite (proj1 (status_of_exists s y)).
    destruct (IH t1 e) as (a & b & r' & e' & H1 & H2 & H3 & H4 & H5 & H6 & H7 & H8); auto.
    + destruct l; [constructor|]. inversion Htl; auto.
    + intros E. congruence.
    + right. rewrite Hn1. destruct (proj1 (node_at_leads _ _ _ _) Hy) as [q Hq]. eauto.
    + rewrite Hn1. auto.
    + rewrite Hn1 in *. exists (x :: a), b, r', e'. rewrite H3. cbn [app joined fold_left].
      repeat match goal with |- _ /\ _ => split end; auto; [congruence|].
      right. destruct H6 as [->|H6]; auto. cbn. destruct (proj1 (node_at_leads _ _ _ _) Hy) as [q Hq]. eauto.
Qed.

Lemma joined_ne : forall l t, t <> [] -> joined t l <> [].
Proof.
  induction l as [|x l IH]; intros t Ht; auto. cbn [joined fold_left]. apply IH. unfold append_text.
  destruct (starts_slash x) eqn:Hs; [intros ->; discriminate|]. destruct t; [congruence|discriminate].
Qed.

Lemma joined_starts : forall l t, t <> [] -> Forall (fun x => starts_slash x = false) l ->
  starts_slash (joined t l) = starts_slash t.
Proof.
  induction l as [|x l IH]; intros t Ht HF; auto. inversion HF; subst. cbn [joined fold_left]. fold (joined (append_text t x) l).
  rewrite IH; auto.
  - rewrite append_text_before, starts_before; auto.
  - rewrite append_text_before by auto. destruct t; [congruence|discriminate].
Qed.

Lemma elements_rel : forall t, Forall (fun x => starts_slash x = false) (tl (elements t)).
Proof.
  intros t. assert (H : Forall (fun x => starts_slash x = false)
    (names t ++ (if ends_slash t && negb (is_nil (names t)) then [[]] else []))).
  { apply Forall_app. split.
    - eapply Forall_impl; [|apply names_all]. intros n [H1 H2]. destruct n; [congruence|]. apply noslash_cons in H1. cbn. tauto.
    - destruct (ends_slash t && negb (is_nil (names t))); repeat constructor. }
  unfold elements. destruct (starts_slash t); [exact H|]. cbn [app]. destruct (names t ++ _); [constructor|]. inversion H; auto.
Qed.

Lemma elements_hd : forall t, t <> [] -> hd [] (elements t) <> [].
Proof.
  intros t Ht. unfold elements. destruct (starts_slash t) eqn:Hs; [discriminate|]. cbn [app].
  destruct (names t) as [|n l] eqn:Hn.
  - apply only_slashes_names in Hn. destruct t; [congruence|]. cbn in *. rewrite Hs in Hn. discriminate.
  - cbn. pose proof (names_all t) as H. rewrite Hn in H. inversion H. tauto.
Qed.

(** weakly_canonical equals canonical for what exists. Otherwise the elements of [p] are those of its longest existing
    prefix and the rest, and the result is the canonical path of the prefix joined with the rest, normalised; when not even the
    first element exists, [p] normalised. A path that cannot be examined gives the error. *)
Theorem C45_weakly_canonical_partial : forall cf k s has p, wf s -> canon p -> native p <> [] ->
  (starts_slash (native p) = true \/ has_cwd k s) ->
  (forall q x, leads_to k s (native p) q x ->
     run (fsk k) (weakly_canonical_impl cf has p) s = run (fsk k) (canonical_impl cf has p) s) /\
  (forall e, node_at s (find_at k s true (native p)) = Err e -> absent e ->
     exists a b r, elements (native p) = a ++ b /\ b <> [] /\
       (forall c d, b = c ++ d -> c <> [] -> forall q x, ~ leads_to k s (joined [] (a ++ c)) q x) /\
       run (fsk k) (weakly_canonical_impl cf has p) s = Done (r, None) s /\
       ((a = [] /\ native r = normal_text (joined [] b)) \/
        exists q x, leads_to k s (joined [] a) q x /\ native r = normal_text (joined (place_text q) b))) /\
  (forall e, node_at s (find_at k s true (native p)) = Err e -> ~ absent e ->
     run (fsk k) (weakly_canonical_impl cf has p) s =
       if has then Done (path_default, Some e) s else Failed (FThrow (Some e) [p]) s).
Proof.
  intros cf k s has p Hw Hp Hne Hcwd. unfold weakly_canonical_impl.
  assert (Hemp : empty p = false) by (unfold empty; change (pathname p) with (native p); destruct (native p); [congruence|reflexivity]).
  rewrite Hemp. split; [|split].
  - intros q x Hl. rewrite run_bind, run_status.
    assert (H : node_at s (find_at k s true (native p)) = Val x) by (apply node_at_leads; eauto).
    rewrite H. cbn [stat_result fst snd]. destruct (status_of_exists s x) as [H1 H2]. rewrite H1, H2. reflexivity.
  - intros e He Ha. rewrite run_bind, run_status, He. cbn [stat_result fst snd].
    assert (Hk : status_known (missing_status e) = true) by (destruct Ha as [->| ->]; reflexivity).
    rewrite Hk, missing_not_exists. cbn [negb].
    assert (Hel : elems p = map mkpath (elements (native p))).
    { destruct (proj1 (canon_cases p Hp)) as [->|Hm]; [reflexivity|]. rewrite Hm at 1. apply elems_paths. }
    rewrite Hel.
    destruct (run_existing_prefix cf k s (elements (native p)) path_default e) as (a & b & r' & e' & H1 & H2 & H3 & H4 & H5 & H6 & H7 & H8).
    + auto.
    + apply canon_default.
    + apply elements_Forall.
    + apply elements_rel.
    + intros E. destruct E. reflexivity.
    + intros _. apply elements_hd. auto.
    + left. reflexivity.
    + change (native path_default) with (@nil ascii). rewrite find_joined. auto.
    + auto.
    + change (native path_default) with (@nil ascii) in *. rewrite run_bind, H3. cbn iota.
      pose proof (elements_Forall (native p)) as HE. rewrite H1 in HE. apply Forall_app in HE as [HEa HEb].
      assert (Hlong : forall c d, b = c ++ d -> c <> [] -> forall q x, ~ leads_to k s (joined [] (a ++ c)) q x).
      { intros c d Hb Hc q x Hl. destruct c as [|y c]; [congruence|]. subst b. cbn [hd app] in *.
        assert (Hrelc : Forall (fun x => starts_slash x = false) c).
        { pose proof (elements_rel (native p)) as G. rewrite H1 in G. destruct a as [|a0 a]; cbn [app tl] in G.
          - apply Forall_app in G. tauto.
          - apply Forall_app in G as [_ G]. inversion G as [|? ? _ G']. apply Forall_app in G'. tauto. }
        replace (a ++ y :: c) with ((a ++ [y]) ++ c) in Hl by (rewrite <- app_assoc; reflexivity).
        rewrite joined_app in Hl. destruct (absent_joined k s c _ e' Hw H7 Hrelc H8) as (e2 & H9 & _).
        assert (node_at s (find_at k s true (joined (joined [] (a ++ [y])) c)) = Val x) by (apply node_at_leads; eauto).
        discriminate (eq_trans (eq_sym H) H9). }
      assert (Hfin : forall r1, canon r1 -> joined (native r1) b <> [] -> exists r, run (fsk k)
         (let! r0 := lift (append_all Posix (cf_el cf) (map mkpath b) r1) in
          let! nrm := lift (lexically_normal Posix (cf_el cf) r0) in Ret (fin Posix (el_other (cf_el cf)) nrm, None)) s =
         Done (r, None : ecode) s /\ native r = normal_text (joined (native r1) b)).
      { intros r1 Hr1 Hjn. destruct (append_all_joined (cf_el cf) b r1 Hr1 HEb) as (r2 & G1 & G2 & G3).
        rewrite run_bind, G1. cbn [lift run]. rewrite run_bind.
        assert (Hr2 : native r2 <> []) by congruence.
        destruct (proj1 (canon_cases r2 G2)) as [->|Hm]; [destruct Hr2; reflexivity|].
        destruct (lexically_normal_mkpath (cf_el cf) (native r2) Hr2) as (n & L1 & L2 & _).
        rewrite Hm, L1. cbn [lift run]. eexists. split; [reflexivity|]. rewrite <- G3.
        unfold fin. destruct (el_other (cf_el cf)); auto.
        change (split_components Posix (pathname n)) with (mkpath (native n)). rewrite L2.
        apply native_is_text. apply normal_text_is_text. }
      assert (Hemp' : empty r' = is_nil (native r')) by reflexivity.
      destruct H6 as [->|(q & x & Hl)].
      * cbn [joined fold_left] in H5. rewrite Hemp', H5. cbn [is_nil negb andb failed]. rewrite run_bind. cbn [run]. cbn iota. cbn [failed].
        destruct (Hfin r' H4) as (r & R1 & R2).
        { rewrite H5. cbn [app] in H1. rewrite <- H1, joined_elements. destruct (squeezed_same (native p)) as (_ & _ & S3 & _).
          destruct (native p); [congruence|]. destruct (squeezed (a :: s0)); [discriminate|congruence]. }
        exists [], b, r. split; [auto|]. split; [auto|]. split; [auto|]. split; [exact R1|]. left. rewrite R2, H5. auto.
      * assert (Hner : native r' <> []) by (rewrite H5; intros E; destruct Hl as (l & Hl & _); rewrite E in Hl; discriminate).
        assert (Hcw : starts_slash (native r') = true \/ has_cwd k s).
        { destruct Hcwd as [Hs|]; auto. left. rewrite H5. destruct (elements (native p)) as [|y el] eqn:Hee.
          - apply (f_equal (@length str)) in H1. rewrite app_length in H1. destruct b; [congruence|]. cbn in H1. lia.
          - destruct a as [|a0 a].
            + rewrite H5 in Hner. destruct Hner; reflexivity.
            + assert (a0 = [slash]) as ->. { unfold elements in Hee. rewrite Hs in Hee. cbn in Hee. cbn in H1. congruence. }
              pose proof (elements_rel (native p)) as G. rewrite Hee, H1 in G. cbn [app tl] in G. apply Forall_app in G as [G _].
              cbn [joined fold_left]. change (append_text [] [slash]) with [slash]. apply joined_starts; auto. discriminate. }
        destruct (C45_canonical_partial cf k s true r' Hw H4 Hner Hcw) as [Hcan _].
        rewrite <- H5 in Hl. destruct (Hcan q x Hl) as (r1 & C1 & C2 & _ & _ & C3 & _).
        rewrite Hemp'. replace (is_nil (native r')) with false by (destruct (native r'); [congruence|reflexivity]).
        cbn [failed negb andb]. rewrite run_bind, C1. cbn iota. cbn [failed].
        destruct (Hfin r1 C2) as (r & R1 & R2). { apply joined_ne. rewrite C3. discriminate. }
        exists a, b, r. split; [auto|]. split; [auto|]. split; [auto|]. split; [exact R1|]. right. exists q, x. rewrite <- H5.
        split; auto. rewrite R2, C3. reflexivity.
  - intros e He Ha. rewrite run_bind, run_status, He. cbn [stat_result fst snd].
    assert (Hk : status_known (missing_status e) = false).
    { unfold absent in Ha. unfold missing_status. destruct (errno_eqb e ENOENT) eqn:E1, (errno_eqb e ENOTDIR) eqn:E2; try reflexivity;
      exfalso; apply Ha; destruct e; try discriminate; auto. }
    rewrite Hk. cbn [negb]. destruct has; reflexivity.
Qed.

(** The missing part starts after a symlink and dot-dot have been followed: x/./y is sought in the root. *)
Example C45_weakly_example : exists r,
  node_at demo (find_at demo_choices demo true (lit "l/../x/./y")) = Err ENOENT /\
  run (fsk demo_choices) (weakly_canonical_impl plain_config false (topath (lit "l/../x/./y"))) demo = Done (r, None) demo /\
  native r = lit "/x/y".
Proof. eexists. split; [vm_compute; reflexivity|]. split; [vm_compute; reflexivity|vm_compute; reflexivity]. Qed.

Print Assumptions C44_absolute.
Print Assumptions C44_no_directory.
Print Assumptions C44_change_directory.
Print Assumptions C45_canonical_partial.
Print Assumptions C45_empty_refuted.
Print Assumptions C45_weakly_canonical_partial.
