(** create_directory with a template (property C25), create_directory_symlink and copy_symlink (property C35). *)
From Coq Require Import Ascii String Bool Arith NArith ZArith Lia.
From Verif Require Import Str PathModel PathSpec StrProofs PathProofs PathOps PathLaws FlagsModel TimeModel ArithProps Prog DirModel
  OpsModel OpsProps FS FSProofs FSSpec FSOps FSProps FSProps2.
From Coq Require Import List.
Import ListNotations.

(** What the template names, links followed. *)
Definition template (k : choices) (s : fs) (t : str) : res node := node_at s (find_at k s true t).

(** Why create_directory(p, tmpl) reports [e]: the template cannot be looked at, it is no directory, or the way to [p] fails. *)
Definition no_new_directory (k : choices) (s : fs) (p tmpl : str) (e : errno) : Prop :=
  (template k s tmpl = Err e /\ e <> ENOENT /\ e <> ENOTDIR) \/
  (e = ENOTDIR /\ forall i, template k s tmpl <> Val (NDir i)) \/
  (exists i, template k s tmpl = Val (NDir i) /\ find_entry k s p = Fail e /\ e <> EEXIST).

Lemma entry_no_eexist : forall k s t, find_entry k s t <> Fail EEXIST.
Proof.
  intros k s t E. unfold find_entry, resolve_comps in E. destruct (is_nil t); [discriminate|].
  assert (Hno : forall lk tg last links cs cur, steps lk tg last links cur cs <> Fail EEXIST).
  { clear. intros lk tg last. induction links as [|links IHl];
    (induction cs as [|m r IHr]; intros cur; [rewrite steps_nil; discriminate|]).
    all: rewrite !steps_cons; destruct (lk cur) as [[j|j]|] eqn:E1; try discriminate;
      destruct (str_eqb m (lit ".")) eqn:D1; [apply IHr|]; destruct (str_eqb m (lit "..")) eqn:D2; [apply IHr|];
      destruct (lk (cur ++ [m])) as [[v|v]|] eqn:E2; [|apply IHr|destruct (is_nil r); discriminate].
    all: destruct (tg v); [|destruct (is_nil r); discriminate]; destruct (is_nil r && negb last); try discriminate; apply IHl. }
  eapply Hno; eauto.
Qed.

Lemma like_reports : forall k s has p tmpl e, no_new_directory k s (native p) (native tmpl) e ->
  match run (fsk k) (report has [p; tmpl] false (Some e)) s with
  | Done (true, _) _ | Done (false, None) _ => False
  | Done (false, Some e') s' => s' = s /\ has = true /\ no_new_directory k s (native p) (native tmpl) e'
  | Failed f s' => s' = s /\ has = false /\ exists e', f = FThrow (Some e') [p; tmpl] /\ no_new_directory k s (native p) (native tmpl) e'
  end.
Proof. intros k s has p tmpl e H. unfold report. destruct has; cbn; auto. repeat split; auto. eauto. Qed.

Ltac fin_report e :=
  match goal with |- context [run (fsk ?k) (report ?has [?p; ?tmpl] false (Some e)) ?s] =>
    let HR := fresh in let HN := fresh in
    assert (HN : no_new_directory k s (native p) (native tmpl) e);
    [|pose proof (like_reports k s has p tmpl e HN) as HR; destruct (run (fsk k) (report has [p; tmpl] false (Some e)) s) as [[[] [?|]] ?|? ?];
      try contradiction HR; exact HR] end.

(** The new directory is made exactly when the template is a directory and the last component of [p] is missing. It has the permissions of the
    template and is empty; nothing else has changed. In every other case nothing has changed at all; an error is reported unless the entry
    exists. Missing from the full property: that entry need not be a directory (C25_existing_file_refuted), and the process's umask, which FS.v leaves out. *)
Theorem C25_like_partial : forall k s has p tmpl, wf s ->
  match run (fsk k) (create_directory_like_impl has p tmpl) s with
  | Done (true, e) s' =>
      e = None /\
      exists i q n, template k s (native tmpl) = Val (NDir i) /\ names_missing k s (native p) q n /\
        names_entry k s' (native p) (q ++ [n]) (NDir (f_next s)) /\ get (f_root s') (q ++ [n]) = Some (Dir (f_next s) []) /\
        m_perm (f_meta s' (f_next s)) = mode_bits (m_perm (f_meta s i)) /\
        same_outside s s' (q ++ [n]) /\ same_bodies s s' /\ same_metas s s' /\ same_process s s'
  | Done (false, None) s' => s' = s /\ (exists i, template k s (native tmpl) = Val (NDir i)) /\ exists q x, names_entry k s (native p) q x
  | Done (false, Some e) s' => s' = s /\ has = true /\ no_new_directory k s (native p) (native tmpl) e
  | Failed f s' => s' = s /\ has = false /\ exists e, f = FThrow (Some e) [p; tmpl] /\ no_new_directory k s (native p) (native tmpl) e
  end.
Proof.
  intros k s has p tmpl Hw. unfold create_directory_like_impl. rewrite run_bind, run_GetFileStatus.
  change (node_at s (find_at k s true (native tmpl))) with (template k s (native tmpl)).
  destruct (template k s (native tmpl)) as [e|x] eqn:Et; cbn [stat_result]; cbn iota; rewrite <- Et.
  - unfold missing_status. destruct (errno_eqb e ENOENT || errno_eqb e ENOTDIR) eqn:Ee.
    + change (negb (status_known (status_of_type ft_not_found))) with false. change (negb (st_is_directory (status_of_type ft_not_found))) with true. cbn iota.
      fin_report ENOTDIR. right; left. split; auto; congruence.
    + change (negb (status_known (status_of_type ft_none))) with true. cbn iota. apply orb_false_iff in Ee as [E1 E2].
      fin_report e. left. split; auto. split; intros ->; discriminate.
  - destruct (status_of_exists s x) as [_ ->]. cbn [negb].
    destruct (st_is_directory (status_of s x)) eqn:Ed; cbn [negb].
    + assert (Hx : exists i, x = NDir i).
      { destruct x as [i|i]; eauto. exfalso. unfold st_is_directory, status_of, type_of in Ed. cbn [st_type] in Ed. destruct (f_body s i) as [?|?|[]]; discriminate Ed. }
      destruct Hx as [i ->]. rewrite run_sys. cbn [fsk]. unfold sys_mkdir.
      destruct (find_entry k s (native p)) as [l q|q n|e] eqn:E; cbn [fst snd].
      * cbn. split; auto. split; [eauto|]. destruct (entry_found _ _ _ _ _ Hw E) as [y Hy]. exists q, y, l. auto.
      * cbn [run]. split; auto. exists i, q, n.
        pose proof (entry_missing _ _ _ _ _ E) as (j & m & H1 & H2 & H3).
        destruct (make_look k s q n (Dir (f_next s) []) (mode_bits (st_mode (stat_of s (NDir i)))) 2 j m H1 H2) as (G1 & G2 & G3 & G4 & G5 & G6 & G7).
        repeat match goal with |- _ /\ _ => split end; auto.
        -- destruct (resolve_fill k s _ false (native p) (names (native p)) q n (NDir (f_next s)) G3 E) as [l Hl].
           ++ unfold look. rewrite G1. reflexivity.
           ++ discriminate.
           ++ exists l. split; auto. unfold look. rewrite G1. reflexivity.
        -- rewrite G6. cbn [m_perm]. rewrite stat_of_mode. cbn [number]. rewrite (mode_bits_mod (_ + _)). rewrite (proj2 (div_mode _ _ (mode_bits_lt (m_perm (f_meta s i))))). reflexivity.
        -- intros u _. rewrite G4. reflexivity.
      * destruct (errno_eqb e EEXIST) eqn:Ee; [exfalso; apply errno_eqb_eq in Ee; subst e; exact (entry_no_eexist _ _ _ E)|].
        assert (HN : no_new_directory k s (native p) (native tmpl) e).
        { right; right. exists i. repeat split; auto. intros ->. discriminate. }
        unfold report. destruct has; cbn; [auto|]. repeat split; auto. exists e. auto.
    + fin_report ENOTDIR. right; left. split; auto. intros i Hi. rewrite Et in Hi. injection Hi as ->. discriminate.
Qed.

(** Conversely. *)
Theorem C25_like_creates_partial : forall k s has p tmpl i q n, wf s -> template k s (native tmpl) = Val (NDir i) -> names_missing k s (native p) q n ->
  exists s', run (fsk k) (create_directory_like_impl has p tmpl) s = Done (true, None) s'.
Proof.
  intros k s has p tmpl i q n Hw Ht Hm. unfold create_directory_like_impl. rewrite run_bind, run_GetFileStatus.
  change (node_at s (find_at k s true (native tmpl))) with (template k s (native tmpl)). rewrite Ht. cbn [stat_result]. cbn iota.
  destruct (status_of_exists s (NDir i)) as [_ ->]. change (st_is_directory (status_of s (NDir i))) with true. cbn [negb].
  rewrite run_sys. cbn [fsk]. unfold sys_mkdir. rewrite Hm. cbn. eauto.
Qed.

(** The directory create_directory makes is open to all but for the umask. *)
Theorem C25_mode_partial : forall k s has p s', wf s -> run (fsk k) (create_directory_impl has p) s = Done (true, None) s' ->
  m_perm (f_meta s' (f_next s)) = 511%N.
Proof.
  intros k s has p s' Hw H. unfold create_directory_impl in H. rewrite run_sys in H. cbn [fsk] in H. unfold sys_mkdir in H.
  destruct (find_entry k s (native p)) as [l q|q n|e] eqn:E; cbn [fst snd] in H.
  - cbn in H. discriminate.
  - cbn [run] in H. injection H as <-. cbn. rewrite upd_same. reflexivity.
  - destruct (errno_eqb e EEXIST); [discriminate|]. unfold report in H. destruct has; discriminate.
Qed.

(** create_directory_symlink: as create_symlink, whatever the target is. *)
Theorem C35_create_directory_symlink : forall k s has target link, wf s ->
  match run (fsk k) (create_directory_symlink_impl has target link) s with
  | Done (_, None) s' =>
      exists q n, find_at k s false (native link) = Missing q n /\
        look (f_root s') (q ++ [n]) = Some (NLeaf (f_next s)) /\ f_body s' (f_next s) = BLink (native target) /\
        same_outside s s' (q ++ [n]) /\ same_bodies s s' /\ same_metas s s' /\ same_process s s'
  | Done (_, Some _) s' => s' = s /\ has = true
  | Failed f s' => s' = s /\ has = false /\ exists e, f = FThrow (Some e) [target; link]
  end.
Proof. intros k s has target link Hw. exact (C35_create_symlink k s has target link Hw). Qed.

(** * copy_symlink *)

(** What [t] names, a link in the last component not followed. *)
Definition entry_at (k : choices) (s : fs) (t : str) : res node := node_at s (find_at k s false t).

(** Why readlink(2) refuses: nothing can be found there, or what is found is no link. *)
Definition no_link (k : choices) (s : fs) (t : str) (e : errno) : Prop :=
  entry_at k s t = Err e \/ (e = EINVAL /\ exists x, entry_at k s t = Val x /\ type_of s x <> ft_symlink).

(** Why symlink(2) refuses: an entry exists, or its directory cannot be reached. *)
Definition no_place (k : choices) (s : fs) (t : str) (e : errno) : Prop :=
  (e = EEXIST /\ exists x, entry_at k s t = Val x) \/ find_at k s false t = Fail e.

(** A link is made exactly when [from] is a link and the last component of [to] is missing; it has the text the library reports for
    the first one. In every other case nothing has changed and the error says why. Missing: targets of PATH_MAX bytes and more, which C35_long_target_refuted
    shows to be cut. *)
Theorem C35_copy_symlink_partial : forall cf k s has from to, wf s -> (0 < k_path_max k)%Z ->
  (forall i x, entry_at k s (native from) = Val (NLeaf i) -> f_body s i = BLink x -> x <> [] /\ (Z.of_nat (length x) <= k_path_max k)%Z) ->
  match run (fsk k) (copy_symlink_impl cf has from to) s with
  | Done (_, None) s' =>
      exists i x q n, entry_at k s (native from) = Val (NLeaf i) /\ f_body s i = BLink x /\ find_at k s false (native to) = Missing q n /\
        look (f_root s') (q ++ [n]) = Some (NLeaf (f_next s)) /\ f_body s' (f_next s) = BLink (reported_text x) /\
        same_outside s s' (q ++ [n]) /\ same_bodies s s' /\ same_metas s s' /\ same_process s s'
  | Done (_, Some e) s' => s' = s /\ has = true /\ (no_link k s (native from) e \/ no_place k s (native to) e)
  | Failed f s' => s' = s /\ has = false /\ exists e args, f = FThrow (Some e) args /\
      ((no_link k s (native from) e /\ args = [from; to]) \/ (no_place k s (native to) e /\ exists i x, f_body s i = BLink x /\ args = [topath x; to]))
  end.
Proof.
  intros cf k s has from to Hw Hk Hfit. unfold copy_symlink_impl, read_symlink_impl. rewrite run_bind, run_sys. cbn [fsk fst snd]. unfold asap_assert.
  assert (Hb1 : (0 <? k_path_max k)%Z = true) by (apply Z.ltb_lt; lia). assert (Hb2 : (k_path_max k <? 0)%Z = false) by (apply Z.ltb_ge; lia).
  rewrite Hb1, Hb2. cbn [negb]. rewrite andb_false_r. cbn [pbind]. rewrite run_sys. cbn [fsk fst snd]. unfold sys_readlink.
  fold (entry_at k s (native from)).
  destruct (entry_at k s (native from)) as [e|[i|i]] eqn:Ef.
  - assert (He : no_link k s (native from) e) by (left; exact Ef).
    cbn. destruct has; cbn; auto. repeat split; auto. exists e, [from; to]. auto.
  - destruct (f_body s i) as [b|x|b] eqn:Eb.
    + assert (He : no_link k s (native from) EINVAL) by (right; split; auto; exists (NLeaf i); split; [exact Ef|cbn; rewrite Eb; discriminate]).
      cbn. destruct has; cbn; auto. repeat split; auto. exists EINVAL, [from; to]. auto.
    + destruct (Hfit i x eq_refl Eb) as [Hx Hlen].
      assert (Hpos : (0 < Z.of_nat (length x))%Z) by (destruct x; [congruence|cbn; lia]).
      assert (Hfi : firstn (Z.to_nat (k_path_max k)) x = x) by (apply firstn_all2; lia). rewrite Hfi.
      assert (Hb3 : (Z.of_nat (length x) <=? k_path_max k)%Z = true) by (apply Z.leb_le; lia).
      assert (Hb4 : (0 <? Z.of_nat (length x))%Z = true) by (apply Z.ltb_lt; lia).
      assert (Hb5 : (k_path_max k <? Z.of_nat (length x))%Z = false) by (apply Z.ltb_ge; lia).
      rewrite Hb3, Hb4, Hb5. cbn [negb]. rewrite andb_false_r. cbn [pbind run fst snd failed].
      unfold create_symlink_impl. rewrite run_sys. cbn [fsk]. unfold sys_symlink. change (topath x) with (mkpath x). rewrite native_mkpath.
      assert (Hne : is_nil (reported_text x) = false).
      { destruct (reported_same x) as [R _]. destruct (reported_text x); auto. cbn in R. destruct x; [congruence|discriminate]. }
      rewrite Hne. destruct (find_at k s false (native to)) as [l q|q n|e] eqn:Et; cbn [fst snd].
      * assert (Hp : no_place k s (native to) EEXIST).
        { left. split; auto. destruct (find_found _ _ _ _ _ _ Hw Et) as [y Hy]. exists y. unfold entry_at. rewrite Et. cbn [node_at]. rewrite Hy. auto. }
        cbn. destruct has; cbn; auto. repeat split; auto. exists EEXIST, [mkpath x; to]. split; auto. right. split; auto. exists i, x. auto.
      * cbn [simple run]. exists i, x, q, n. pose proof (find_missing _ _ _ _ _ _ Et) as (di & dl & H1 & H2 & H3).
        destruct (make_leaf_look k s q n (BLink (reported_text x)) 511 1 di dl Hw H1 H2) as (G1 & G2 & G3 & G4 & G5 & G6 & G7 & G8).
        repeat match goal with |- _ /\ _ => split end; auto.
      * assert (Hp : no_place k s (native to) e) by (right; exact Et).
        cbn. destruct has; cbn; auto. repeat split; auto. exists e, [mkpath x; to]. split; auto. right. split; auto. exists i, x. auto.
    + assert (He : no_link k s (native from) EINVAL) by (right; split; auto; exists (NLeaf i); split; [exact Ef|cbn; rewrite Eb; destruct b; discriminate]).
      cbn. destruct has; cbn; auto. repeat split; auto. exists EINVAL, [from; to]. auto.
  - assert (He : no_link k s (native from) EINVAL) by (right; split; auto; exists (NDir i); split; [exact Ef|discriminate]).
    cbn. destruct has; cbn; auto. repeat split; auto. exists EINVAL, [from; to]. auto.
Qed.

Example C25_like_example : wf demo /\ template demo_choices demo (native (topath (lit "/a"))) = Val (NDir 2) /\
  names_missing demo_choices demo (native (topath (lit "l/x"))) [lit "b"] (lit "x") /\
  (exists s', run (fsk demo_choices) (create_directory_like_impl true (topath (lit "l/x")) (topath (lit "/a"))) demo = Done (true, None) s' /\
     get (f_root s') [lit "b"] = Some (Dir 7 [(lit "h", Leaf 3); (lit "x", Dir 10 [])])) /\
  run (fsk demo_choices) (create_directory_like_impl true (topath (lit "l/x")) (topath (lit "/a/f"))) demo = Done (false, Some ENOTDIR) demo /\
  run (fsk demo_choices) (create_directory_like_impl true (topath (lit "l/x")) (topath (lit "/none"))) demo = Done (false, Some ENOTDIR) demo.
Proof.
  split; [apply demo_wf|]. repeat split; try reflexivity. eexists. split; vm_compute; reflexivity.
Qed.
Example C35_directory_symlink_example : wf demo /\
  exists s', run (fsk demo_choices) (create_directory_symlink_impl true (topath (lit "a")) (topath (lit "/b/y"))) demo = Done (tt, None) s' /\
    look (f_root s') [lit "b"; lit "y"] = Some (NLeaf 10) /\ f_body s' 10 = BLink (lit "a").
Proof. split; [apply demo_wf|]. eexists. repeat split; vm_compute; reflexivity. Qed.
Example C35_copy_symlink_example : wf demo /\ entry_at demo_choices demo (native (topath (lit "/a/l"))) = Val (NLeaf 4) /\ f_body demo 4 = BLink (lit "../b") /\
  (exists s', run (fsk demo_choices) (copy_symlink_impl plain_config true (topath (lit "/a/l")) (topath (lit "/b/m"))) demo = Done (tt, None) s' /\
     look (f_root s') [lit "b"; lit "m"] = Some (NLeaf 10) /\ f_body s' 10 = BLink (lit "../b")) /\
  run (fsk demo_choices) (copy_symlink_impl plain_config true (topath (lit "/a/f")) (topath (lit "/b/m"))) demo = Done (tt, Some EINVAL) demo /\
  run (fsk demo_choices) (copy_symlink_impl plain_config false (topath (lit "/a/l")) (topath (lit "/a/f"))) demo
    = Failed (FThrow (Some EEXIST) [topath (lit "../b"); topath (lit "/a/f")]) demo.
Proof. split; [apply demo_wf|]. repeat split; try reflexivity. eexists. repeat split; vm_compute; reflexivity. Qed.

Print Assumptions C25_like_partial.
Print Assumptions C25_like_creates_partial.
Print Assumptions C25_mode_partial.
Print Assumptions C35_create_directory_symlink.
Print Assumptions C35_copy_symlink_partial.
