(** recursive_directory_iterator where it does not walk the tree (properties C48 and C50): with follow_directory_symlink, on systems that do
    not tell the types of entries, and below directories that come after a symlink. *)
From Coq Require Import Ascii String Bool Arith NArith ZArith Lia.
From Verif Require Import Str PathModel PathSpec StrProofs PathProofs PathOps PathLaws FlagsModel TimeModel ArithProps Prog DirModel
  OpsModel OpsProps FS FSProofs FSSpec FSOps FSProps FSProps2 IterProps FSIter FSRemove FSWalk.
From Coq Require Import List.
Import ListNotations.

(** The times of the objects are ones the library can convert (C41). *)
Definition datable (cf : config) (s : fs) : Prop := forall i, exists v, extract_last_write_time (cf_mode cf) (m_mtime (f_meta s i)) = Ok v.

Lemma datable_stat : forall cf s x, datable cf s -> exists v, extract_last_write_time (cf_mode cf) (st_mtim (stat_of s x)) = Ok v.
Proof. intros cf s [i|i] H; apply H. Qed.

Section Flat.
Variable cf : config.
Variable k : choices.
Variable s : fs.
Hypothesis Ht : datable cf s.

Lemma guarded_stat : forall D A (g : res stat_t -> prog A) t u, run (guarded k D) (Sys (c_stat t) g) u = run (guarded k D) (g (sys_stat k u true t)) u.
Proof. reflexivity. Qed.

(** What the status query does to an entry of an iterator: no error, no change, the same path. *)
Lemma follow_query : forall D h ds e, cd_cache (de_data e) = CBASIC ->
  exists d, run (guarded k D) (GetFileType cf true e) (at_dirs s h ds) = Done (ft_none, None, with_data e d) (at_dirs s h ds).
Proof.
  intros D h ds e Hc. unfold GetFileType. rewrite Hc. destruct (cd_type_resolved (de_data e)) eqn:Er; cbn [negb].
  { exists (de_data e). destruct e. reflexivity. }
  unfold UpdateBasicFileInformation. rewrite Hc. cbn [cache_eqb andb]. cbn iota.
  assert (Hg : run (guarded k D) (GetFileStatus true (de_path e)) (at_dirs s h ds) = Done (stat_result s (node_at s (find_at k s true (native (de_path e))))) (at_dirs s h ds)).
  { transitivity (run (fsk k) (GetFileStatus true (de_path e)) (at_dirs s h ds)); [|exact (run_GetFileStatus k (at_dirs s h ds) (de_path e))].
    unfold GetFileStatus. rewrite guarded_stat, run_sys. cbn [fsk fst snd].
    destruct (sys_stat k (at_dirs s h ds) true (native (de_path e))) as [x|x]; rewrite !run_bind; unfold CreateFileStatus; [|reflexivity].
    destruct (errno_eqb x ENOENT || errno_eqb x ENOTDIR); reflexivity. }
  rewrite run_bind, run_bind, Hg. destruct (node_at s (find_at k s true (native (de_path e)))) as [x|x]; cbn [stat_result fst snd].
  - assert (He : st_exists (missing_status x) = false) by (unfold missing_status; destruct (errno_eqb x ENOENT || errno_eqb x ENOTDIR); reflexivity).
    rewrite He. eexists. reflexivity.
  - destruct (status_of_exists s x) as [-> _]. destruct (datable_stat cf s x Ht) as [[v|] Hv]; unfold ExtractLastWriteTime; rewrite Hv; cbn [lift pbind run report fst]; eexists; reflexivity.
Qed.

Variable opts : N.
Hypothesis Ho : has_dopt do_follow_directory_symlink opts = true.
Hypothesis Hw : wf s.
Variable D : N -> bool.
Variable p : path.
Hypothesis Hp : canon p.

(** One increment: the next entry of the same directory, or the end. *)
Lemma flat_next : forall n has h hh ds e name c es, cd_cache (de_data e) = CBASIC -> good_name name = true ->
  exists e', cd_cache (de_data e') = CBASIC /\ shown e' = (append_text (native p) name, told (dtype_of k s c)) /\
    run (guarded k D) (rdir_increment cf (S n) has (RIter (Some ([Stream (Some hh) p e], opts)) true)) (at_dirs s h ((hh, (name, dtype_of k s c) :: es) :: ds)) =
    Done (RIter (Some ([Stream (Some hh) p e'], opts)) true, None) (at_dirs s h ((hh, es) :: ds)).
Proof.
  intros n has h hh ds e name c es Hc Hn. destruct (follow_query D h ((hh, (name, dtype_of k s c) :: es) :: ds) e Hc) as [d Hd].
  destruct (fs_advance cf k n (at_dirs s h ((hh, (name, dtype_of k s c) :: es) :: ds)) hh name (dtype_of k s c) es ds p (with_data e d) eq_refl Hn (dtype_of_ok k s c) Hp)
    as (p' & Hr & Hcp & Hnp).
  eexists. split; [|split]; [| |unfold rdir_increment; cbn [r_recursion]; rewrite run_bind; unfold rdir_try; cbn [r_impl ds_entry]; rewrite Ho, run_bind, Hd; cbn iota;
    change (status_known (status_of_type ft_none)) with false; change (st_is_directory (status_of_type ft_none)) with false; cbn [failed andb negb orb pbind run r_impl ds_handle ds_root];
    unfold rdir_advance; cbn [r_impl advance_stack]; rewrite run_bind, run_bind, guarded_advance, Hr; reflexivity]; cbn [de_data iter_data cd_cache]; auto.
  unfold shown. cbn [de_path de_data iter_data cd_type]. rewrite Hnp. auto.
Qed.

Lemma flat_end : forall n has h hh ds e, cd_cache (de_data e) = CBASIC ->
  run (guarded k D) (rdir_increment cf (S n) has (RIter (Some ([Stream (Some hh) p e], opts)) true)) (at_dirs s h ((hh, []) :: ds)) =
  Done (RIter None true, None) (at_dirs s h ds).
Proof.
  intros n has h hh ds e Hc. destruct (follow_query D h ((hh, []) :: ds) e Hc) as [d Hd].
  pose proof (fs_advance_end cf k n (at_dirs s h ((hh, []) :: ds)) hh ds p (with_data e d) eq_refl) as Hr.
  unfold rdir_increment; cbn [r_recursion]; rewrite run_bind; unfold rdir_try; cbn [r_impl ds_entry]; rewrite Ho, run_bind, Hd; cbn iota;
    change (status_known (status_of_type ft_none)) with false; change (st_is_directory (status_of_type ft_none)) with false; cbn [failed andb negb orb pbind run r_impl ds_handle ds_root];
    unfold rdir_advance; cbn [r_impl advance_stack]; rewrite run_bind, run_bind, guarded_advance, Hr; reflexivity.
Qed.

Lemma flat_visits : forall n has es m h hh ds e, length es < m -> cd_cache (de_data e) = CBASIC -> Forall (fun x => good_name (fst x) = true) es ->
  exists l, run (guarded k D) (rvisit_all cf (S n) has (S m) (RIter (Some ([Stream (Some hh) p e], opts)) true) None) (at_dirs s h ((hh, listing k s es) :: ds)) =
    Done ((e, 0%Z) :: l, None) (at_dirs s h ds) /\
    map rshown l = map (fun x => (append_text (native p) (fst x), told (dtype_of k s (snd x)), 0%Z)) es.
Proof.
  intros n has. induction es as [|[name c] es IH]; intros m h hh ds e Hm Hc Hg.
  - exists []. split; [|reflexivity]. destruct m as [|m]; [cbn in Hm; lia|]. cbn [rvisit_all r_impl rdir_deref rdir_depth pbind listing map]. rewrite run_bind, flat_end by auto. reflexivity.
  - destruct m as [|m]; [cbn in Hm; lia|]. destruct (flat_next n has h hh ds e name c (listing k s es) Hc (Forall_inv Hg)) as (e' & Hc' & Hs' & Hr).
    destruct (IH m h hh ds e' ltac:(cbn in Hm; lia) Hc' (Forall_inv_tail Hg)) as (l & Hl & Hm').
    exists ((e', 0%Z) :: l). split; [|cbn [map]; rewrite Hm'; unfold rshown at 1; cbn [fst snd]; rewrite Hs'; reflexivity].
    set (m1 := S m) in *. cbn [rvisit_all r_impl rdir_deref rdir_depth pbind listing map]. change (map (fun x => (fst x, dtype_of k s (snd x))) es) with (listing k s es).
    rewrite run_bind. fold (listing k s es). cbn [fst snd]. rewrite Hr. cbn [fst snd]. rewrite run_bind, Hl. reflexivity.
Qed.
End Flat.

(** The constructor opens the directory and stands on its first entry. *)
Lemma ctor_first : forall cf k s D n has p lk q i name c es opts, wf s -> canon p -> find_at k s true (native p) = Found lk q ->
  get (f_root s) q = Some (Dir i ((name, c) :: es)) -> D i = false ->
  exists e, cd_cache (de_data e) = CBASIC /\ cd_symlink (de_data e) = file_type_eqb (told (dtype_of k s c)) ft_symlink /\
    shown e = (append_text (native p) name, told (dtype_of k s c)) /\
    run (guarded k D) (rdir_ctor cf (S (S (S n))) has p opts) s =
    Done (RIter (Some ([Stream (Some (f_handle s)) p e], opts)) true, None) (at_dirs s (f_handle s + 1) ((f_handle s, listing k s es) :: f_dirs s)).
Proof.
  intros cf k s D n has p lk q i name c es opts Hw Hp Hf Hg Hi.
  assert (Hn : good_name name = true).
  { pose proof (wf_get _ _ _ (wf_root s Hw) Hg) as Hwt. apply wf_tree_dir in Hwt as (_ & Hgn & _). exact (Forall_inv Hgn). }
  destruct (fs_advance cf k n (at_dirs s (f_handle s + 1) ((f_handle s, (name, dtype_of k s c) :: listing k s es) :: f_dirs s)) (f_handle s) name (dtype_of k s c)
    (listing k s es) (f_dirs s) p entry_default eq_refl Hn (dtype_of_ok k s c) Hp) as (p' & Hr & Hcp & Hnp).
  exists (Entry p' (iter_data (de_data entry_default) (told (dtype_of k s c)))).
  split; [reflexivity|]. split; [destruct (dtype_of k s c); reflexivity|]. split; [unfold shown; cbn [de_path de_data iter_data cd_type]; rewrite Hnp; reflexivity|].
  unfold rdir_ctor, stream_ctor. rewrite run_bind, run_sys. cbn [guarded fsk]. unfold sys_opendir. rewrite Hf, Hg, Hi. cbn [fst snd]. rewrite run_bind, guarded_advance.
  rewrite (fs_advance_dots cf k (S n) _ (f_handle s) (listing k s ((name, c) :: es)) (f_dirs s)) by reflexivity.
  match goal with |- context [run _ (advance _ _ _) ?u] => change u with (at_dirs s (f_handle s + 1) ((f_handle s, (name, dtype_of k s c) :: listing k s es) :: f_dirs s)) end.
  rewrite Hr. reflexivity.
Qed.

Lemma ctor_none : forall cf k s D n has p lk q i opts, find_at k s true (native p) = Found lk q ->
  get (f_root s) q = Some (Dir i []) -> D i = false ->
  run (guarded k D) (rdir_ctor cf (S (S (S n))) has p opts) s = Done (RIter None true, None) (at_dirs s (f_handle s + 1) (f_dirs s)).
Proof.
  intros cf k s D n has p lk q i opts Hf Hg Hi.
  unfold rdir_ctor, stream_ctor. rewrite run_bind, run_sys. cbn [guarded fsk]. unfold sys_opendir. rewrite Hf, Hg, Hi. cbn [fst snd]. rewrite run_bind, guarded_advance.
  rewrite (fs_advance_dots cf k (S n) _ (f_handle s) [] (f_dirs s)) by reflexivity.
  match goal with |- context [run _ (advance _ _ _) ?u] => change u with (at_dirs s (f_handle s + 1) ((f_handle s, []) :: f_dirs s)) end.
  rewrite (fs_advance_end cf k n (at_dirs s (f_handle s + 1) ((f_handle s, []) :: f_dirs s)) (f_handle s) (f_dirs s) p entry_default eq_refl). reflexivity.
Qed.

(** With follow_directory_symlink the walk of every tree ends without an error after the entries of the directory itself, all at depth 0: neither a
    directory nor a symlink to one is entered. What lies below, readable or not, makes no difference. *)
Theorem C48_follow_flat_refuted : forall cf k s D p q i es has opts, wf s -> datable cf s -> canon p ->
  has_dopt do_follow_directory_symlink opts = true ->
  leads_to k s (native p) q (NDir i) -> get (f_root s) q = Some (Dir i es) -> D i = false ->
  forall n, length es + 3 <= n -> exists l s', run (guarded k D) (visit_tree cf n has p opts) s = Done (l, None) s' /\ same_state s s' /\
    map rshown l = map (fun x => (append_text (native p) (fst x), told (dtype_of k s (snd x)), 0%Z)) es.
Proof.
  intros cf k s D p q i es has opts Hw Ht Hp Ho (lk & Hf & _) Hg Hi n Hn. destruct n as [|[|[|n]]]; try lia.
  unfold visit_tree. destruct es as [|[name c] es].
  - exists []. exists (at_dirs s (f_handle s + 1) (f_dirs s)). split; [rewrite run_bind, (ctor_none cf k s D n has p lk q i opts Hf Hg Hi); reflexivity|]. split; [repeat split|reflexivity].
  - destruct (ctor_first cf k s D n has p lk q i name c es opts Hw Hp Hf Hg Hi) as (e & Hc & _ & Hs & Hr).
    pose proof (wf_get _ _ _ (wf_root s Hw) Hg) as Hwt. apply wf_tree_dir in Hwt as (_ & Hgn & _).
    destruct (flat_visits cf k s Ht opts Ho D p Hp (S (S n)) has es (S (S n)) (f_handle s + 1) (f_handle s) (f_dirs s) e ltac:(cbn in Hn; lia) Hc (Forall_inv_tail Hgn)) as (l & Hl & Hm).
    exists ((e, 0%Z) :: l). eexists. split; [rewrite run_bind, Hr; cbn [fst snd]; exact Hl|]. split; [repeat split|].
    cbn [map]. rewrite Hm. unfold rshown at 1. cbn [fst snd]. rewrite Hs. reflexivity.
Qed.

(** If the system does not tell the types of entries, the walk of every directory that is not empty ends at its first entry with ENOENT, though every object exists. *)
Theorem C48_untyped_ends_refuted : forall cf k s D p q i name c es (has : bool) opts, wf s -> k_dtype k = false -> canon p ->
  has_dopt do_follow_directory_symlink opts = false ->
  leads_to k s (native p) q (NDir i) -> get (f_root s) q = Some (Dir i ((name, c) :: es)) -> D i = false ->
  forall n, 3 <= n -> exists s', same_state s s' /\
    if has then exists e, run (guarded k D) (visit_tree cf n true p opts) s = Done ([(e, 0%Z)], Some ENOENT) s' /\ native (de_path e) = append_text (native p) name
    else run (guarded k D) (visit_tree cf n false p opts) s = Failed (FThrow (Some ENOENT) []) s'.
Proof.
  intros cf k s D p q i name c es has opts Hw Hk Hp Ho (lk & Hf & _) Hg Hi n Hn. destruct n as [|[|[|n]]]; try lia.
  destruct (ctor_first cf k s D n has p lk q i name c es opts Hw Hp Hf Hg Hi) as (e & Hc & Hy & Hs & Hr).
  assert (Hd : dtype_of k s c = DT_UNKNOWN) by (unfold dtype_of; rewrite Hk; reflexivity). rewrite Hd in *. injection Hs as Hs1 Hs2.
  change (file_type_eqb (told DT_UNKNOWN) ft_symlink) with false in Hy. change (told DT_UNKNOWN) with ft_none in Hs2.
  exists (at_dirs s (f_handle s + 1) (f_dirs s)). split; [repeat split|].
  assert (Hq : forall u, run (guarded k D) (GetSymLinkFileType cf true e) u = Done (ft_none, Some ENOENT, e) u).
  { intros u. unfold GetSymLinkFileType. rewrite Hc. cbn [cache_eqb pbind]. rewrite Hy, Hs2. reflexivity. }
  assert (Hclose : forall u A (g : prog A), u = at_dirs s (f_handle s + 1) ((f_handle s, listing k s es) :: f_dirs s) ->
    run (guarded k D) (let! _ := impl_reset [Stream (Some (f_handle s)) p e] in g) u = run (guarded k D) g (at_dirs s (f_handle s + 1) (f_dirs s))).
  { intros u A g ->. unfold impl_reset. cbn [rev app close_all stream_destroy ds_handle pbind]. rewrite run_sys.
    assert (Hx : guarded k D (c_closedir (f_handle s)) (at_dirs s (f_handle s + 1) ((f_handle s, listing k s es) :: f_dirs s)) = (tt, at_dirs s (f_handle s + 1) (f_dirs s)))
      by exact (head_close k (at_dirs s (f_handle s + 1) ((f_handle s, listing k s es) :: f_dirs s)) (f_handle s) (listing k s es) (f_dirs s) eq_refl).
    rewrite Hx. reflexivity. }
  assert (Hinc : run (guarded k D) (rdir_increment cf (S (S (S n))) has (RIter (Some ([Stream (Some (f_handle s)) p e], opts)) true))
      (at_dirs s (f_handle s + 1) ((f_handle s, listing k s es) :: f_dirs s)) =
    if has then Done (RIter None true, Some ENOENT) (at_dirs s (f_handle s + 1) (f_dirs s)) else Failed (FThrow (Some ENOENT) []) (at_dirs s (f_handle s + 1) (f_dirs s))).
  { unfold rdir_increment. cbn [r_recursion]. rewrite run_bind. unfold rdir_try. cbn [r_impl ds_entry]. rewrite Ho, run_bind, Hq. cbn iota.
    change (status_known (status_of_type ft_none)) with false. change (st_is_symlink (status_of_type ft_none)) with false.
    change (errno_eqb ENOENT EACCES) with false. cbn [failed andb orb]. rewrite run_bind. cbn [run]. cbn iota.
    change (errno_eqb ENOENT EACCES) with false. cbn [andb ds_handle ds_root]. rewrite Hclose by reflexivity. destruct has; reflexivity. }
  unfold visit_tree. destruct has; rewrite run_bind, Hr; cbn [fst snd].
  - exists e. split; auto. cbn [rvisit_all]. cbn [r_impl rdir_deref rdir_depth pbind]. rewrite run_bind, Hinc. reflexivity.
  - cbn [rvisit_all]. cbn [r_impl rdir_deref rdir_depth pbind]. rewrite run_bind, Hinc. reflexivity.
Qed.

(** In every tree: an object below a directory that comes after a symlink among the entries of its parent is not visited, and no error is reported. *)
Theorem C48_hidden_refuted : forall cf k s p q i es has opts r, wf s -> k_dtype k = true -> canon p ->
  has_dopt do_follow_directory_symlink opts = false ->
  leads_to k s (native p) q (NDir i) -> get (f_root s) q = Some (Dir i es) -> after_link s (Dir i es) r ->
  exists N, forall n, N <= n -> exists l s', run (fsk k) (visit_tree cf n has p opts) s = Done (l, None) s' /\ same_state s s' /\
    exists rs, map rshown l = map (visit_of s (native p) q) rs /\ ~ In r rs.
Proof.
  intros cf k s p q i es has opts r Hw Hk Hp Ho Hl Hg Ha.
  destruct (C48_visits_partial cf k s p q i es has opts Hw Hk Hp Ho Hl Hg) as (rs & N & H1 & _ & _ & H). exists N. intros n Hn.
  destruct (H n Hn) as (l & s' & J1 & J2 & J3). exists l, s'. split; auto. split; auto. exists rs. split; auto. rewrite H1. tauto.
Qed.

(** * Cases *)

Lemma demo_datable : datable plain_config demo_walk.
Proof. intros i. exists (Some 1000000000005%Z). vm_compute. reflexivity. Qed.
Example C48_follow_flat_example : wf demo_walk /\ datable plain_config demo_walk /\
  has_dopt do_follow_directory_symlink (dopt_value do_follow_directory_symlink) = true /\
  leads_to demo_choices demo_walk (native (topath (lit "/a"))) [lit "a"] (NDir 2) /\
  match run (guarded demo_choices (N.eqb 3)) (visit_tree plain_config 10 false (topath (lit "/a")) (dopt_value do_follow_directory_symlink)) demo_walk with
  | Done (l, None) _ => map rshown l = [(lit "/a/d", ft_directory, 0); (lit "/a/l", ft_symlink, 0)]%Z
  | _ => False
  end.
Proof. split; [exact demo_walk_wf|]. split; [exact demo_datable|]. split; [reflexivity|]. split; [exists 40; split; vm_compute; reflexivity|]. vm_compute. reflexivity. Qed.
Example C48_untyped_example : k_dtype untyped_choices = false /\ leads_to untyped_choices demo_walk (native (topath (lit "/a"))) [lit "a"] (NDir 2) /\
  match run (guarded untyped_choices (N.eqb 3)) (visit_tree plain_config 10 false (topath (lit "/a")) 0) demo_walk with
  | Failed (FThrow (Some ENOENT) []) _ => True
  | _ => False
  end.
Proof. split; [reflexivity|]. split; [exists 40; split; vm_compute; reflexivity|]. vm_compute. exact Logic.I. Qed.
Example C48_hidden_example : leads_to demo_choices demo (native (topath (lit "/a"))) [lit "a"] (NDir 2) /\
  exists es, get (f_root demo) [lit "a"] = Some (Dir 2 es) /\ after_link demo (Dir 2 es) [lit "d"; lit "g"].
Proof.
  split; [exists 40; split; vm_compute; reflexivity|]. eexists. split; [reflexivity|].
  exists [], (lit "d"), [lit "g"], 2%N, [(lit "f", Leaf 3)], (lit "l"), 4%N, [], (Dir 5 [(lit "g", Leaf 6)]), []. repeat split; discriminate.
Qed.

Print Assumptions C48_follow_flat_refuted.
Print Assumptions C48_untyped_ends_refuted.
Print Assumptions C48_hidden_refuted.
