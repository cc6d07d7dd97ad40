(** Directory streams on the file system of FS.v. *)
From Coq Require Import Ascii String Bool Arith NArith ZArith Lia.
From Verif Require Import Str PathModel PathSpec StrProofs PathProofs PathOps PathOps2 PathReach PathLaws
  FlagsModel TimeModel Prog DirModel OpsModel OpsProps FS FSProofs FSSpec FSOps FSPlace FSProps IterProps.
From Coq Require Import List.
Import ListNotations.

Lemma good_not_dots : forall n (t : dtype), good_name n = true -> not_dots (n, t) = true.
Proof. intros n t H. apply good_plain in H as (_ & _ & _ & H). unfold not_dots. unfold is_dots in H. cbn [fst]. rewrite H. reflexivity. Qed.

Lemma head_readdir : forall s h e r ds, f_dirs s = (h, e :: r) :: ds ->
  sys_readdir s h = (Val (Some e), set_dirs s ((h, r) :: ds)).
Proof. intros s h e r ds H. unfold sys_readdir. rewrite H. cbn. rewrite N.eqb_refl. reflexivity. Qed.
Lemma head_readdir_end : forall s h ds, f_dirs s = (h, []) :: ds -> sys_readdir s h = (Val None, s).
Proof. intros s h ds H. unfold sys_readdir. rewrite H. cbn. rewrite N.eqb_refl. reflexivity. Qed.
Lemma head_close : forall k s h l ds, f_dirs s = (h, l) :: ds -> fsk k (c_closedir h) s = (tt, set_dirs s ds).
Proof. intros k s h l ds H. cbn [fsk]. rewrite H. cbn. rewrite N.eqb_refl. reflexivity. Qed.

Lemma fs_delivers : forall k h ds l s, f_dirs s = (h, l) :: ds -> delivers (fsk k) h s l None (set_dirs s ((h, []) :: ds)).
Proof.
  intros k h ds. induction l as [|[n t] l IH]; intros s H.
  - replace (set_dirs s ((h, []) :: ds)) with s by (rewrite <- H; destruct s; reflexivity).
    constructor. cbn [fsk]. eapply head_readdir_end. eauto.
  - econstructor.
    + cbn [fsk]. eapply head_readdir. eauto.
    + specialize (IH (set_dirs s ((h, l) :: ds)) eq_refl). exact IH.
Qed.

(** One step of the iterator. *)
Lemma fs_advance : forall cf k n s h name t r ds root ent, f_dirs s = (h, (name, t) :: r) :: ds ->
  good_name name = true -> t <> DT_OTHER -> canon root ->
  exists p, run (fsk k) (advance cf (S n) (Stream (Some h) root ent)) s =
    Done (true, None, Stream (Some h) root (Entry p (iter_data (de_data ent) (told t)))) (set_dirs s ((h, r) :: ds)) /\
    canon p /\ native p = append_text (native root) name.
Proof.
  intros cf k n s h name t r ds root ent Hd Hn Ht Hr.
  pose proof (good_plain _ Hn) as (_ & Hns & Hne & Hnd). unfold is_dots in Hnd.
  destruct (gives_div (cf_el cf) root (mkpath name) Hr (canon_mkpath name)) as (p & Hp & Hc & Hnp).
  rewrite native_is_text in Hnp by (apply noslash_text; auto).
  exists p. split; [|split; auto].
  - cbn [advance ds_handle]. rewrite run_bind, run_readdir. cbn [fsk]. rewrite (head_readdir _ _ _ _ _ Hd).
    assert (Hne' : is_nil name = false) by (destruct name; [congruence|reflexivity]).
    assert (Hlast : run (fsk k) (let! p0 := lift (path_div Posix (cf_el cf) root (split_components Posix name)) in
        Ret (true, None : ecode, Stream (Some h) root (Entry p0 (iter_data (de_data ent) (told t))))) (set_dirs s ((h, r) :: ds)) =
      Done (true, None, Stream (Some h) root (Entry p (iter_data (de_data ent) (told t)))) (set_dirs s ((h, r) :: ds))).
    { rewrite run_bind. change (split_components Posix name) with (mkpath name). rewrite Hp. reflexivity. }
    destruct t; try (destruct (Ht eq_refl)); cbn iota; rewrite Hnd, Hne'; exact Hlast.
  - rewrite Hnp. rewrite <- native_mkpath. apply native_is_text.
    apply append_text_text; [apply canon_native; auto|apply noslash_text; auto].
Qed.

Lemma fs_advance_end : forall cf k n s h ds root ent, f_dirs s = (h, []) :: ds ->
  run (fsk k) (advance cf (S n) (Stream (Some h) root ent)) s = Done (false, None, Stream None root ent) (set_dirs s ds).
Proof.
  intros cf k n s h ds root ent Hd. cbn [advance ds_handle]. rewrite run_bind, run_readdir. cbn [fsk].
  rewrite (head_readdir_end _ _ _ Hd). cbn iota. cbn [str_eqb failed orb is_nil].
  change (str_eqb [] (lit ".")) with false. change (str_eqb [] (lit "..")) with false. cbn [orb]. rewrite run_sys, (head_close _ _ _ _ _ Hd). reflexivity.
Qed.

Lemma fs_advance_dots : forall cf k n s h l ds root ent, f_dirs s = (h, dot_entries k ++ l) :: ds ->
  run (fsk k) (advance cf (S (S n)) (Stream (Some h) root ent)) s =
  run (fsk k) (advance cf n (Stream (Some h) root ent)) (set_dirs s ((h, l) :: ds)).
Proof.
  intros cf k n s h l ds root ent Hd. unfold dot_entries in Hd. cbn [app] in Hd.
  set (d := if k_dtype k then DT_DIR else DT_UNKNOWN) in *.
  assert (Hdo : d <> DT_OTHER) by (unfold d; destruct (k_dtype k); discriminate).
  assert (Hstep : forall m s name r, f_dirs s = (h, (name, d) :: r) :: ds -> is_dots name = true ->
    run (fsk k) (advance cf (S m) (Stream (Some h) root ent)) s =
    run (fsk k) (advance cf m (Stream (Some h) root ent)) (set_dirs s ((h, r) :: ds))).
  { intros m s0 name r H Hn. unfold is_dots in Hn. cbn [advance ds_handle]. rewrite run_bind, run_readdir. cbn [fsk].
    rewrite (head_readdir _ _ _ _ _ H). destruct d; try congruence; cbn iota; rewrite Hn; reflexivity. }
  rewrite (Hstep (S n) s (lit ".") ((lit "..", d) :: l)) by auto.
  rewrite (Hstep n _ (lit "..") l) by reflexivity. reflexivity.
Qed.

(** The iterator at the start of a directory. *)
Definition opened (s : fs) (l : list (str * dtype)) : fs := new_handle (set_dirs s ((f_handle s, l) :: f_dirs s)).

Lemma dtype_of_ok : forall k s c, dtype_of k s c <> DT_OTHER.
Proof. intros. unfold dtype_of. destruct (k_dtype k); [|discriminate]. destruct c; [|discriminate]. destruct (f_body s i) as [| |[]]; discriminate. Qed.

Lemma fs_ctor_empty : forall cf k n s has p l q i, find_at k s true (native p) = Found l q -> get (f_root s) q = Some (Dir i []) ->
  3 <= n -> run (fsk k) (dir_iter_ctor cf n has p 0) s = Done (None, None) (new_handle s).
Proof.
  intros cf k n s has p l q i Hf Hg Hn. destruct n as [|[|[|n]]]; try lia.
  unfold dir_iter_ctor, stream_ctor. rewrite run_bind, run_sys. cbn [fsk]. unfold sys_opendir. rewrite Hf, Hg. cbn [fst snd listing map].
  rewrite run_bind, (fs_advance_dots cf k _ _ _ [] (f_dirs s)) by reflexivity.
  rewrite (fs_advance_end cf k _ _ _ (f_dirs s)) by reflexivity. destruct has; destruct s; reflexivity.
Qed.

Lemma fs_ctor_cons : forall cf k n s has p l q i name c es, wf s -> canon p ->
  find_at k s true (native p) = Found l q -> get (f_root s) q = Some (Dir i ((name, c) :: es)) ->
  3 <= n -> exists p', canon p' /\ native p' = append_text (native p) name /\
    run (fsk k) (dir_iter_ctor cf n has p 0) s =
    Done (Some (Stream (Some (f_handle s)) p (Entry p' (iter_data cache_reset (told (dtype_of k s c))))), None)
      (opened s (listing k s es)).
Proof.
  intros cf k n s has p l q i name c es Hw Hp Hf Hg Hn. destruct n as [|[|[|n]]]; try lia.
  pose proof (wf_get _ _ _ (wf_root s Hw) Hg) as Hwt. apply wf_tree_dir in Hwt as (_ & Hgn & _).
  inversion Hgn as [|? ? Hname _]; subst. cbn [fst] in Hname.
  destruct (fs_advance cf k n (opened s (listing k s ((name, c) :: es))) (f_handle s) name (dtype_of k s c) (listing k s es) (f_dirs s)
    p entry_default eq_refl Hname (dtype_of_ok _ _ _) Hp) as (p' & Hr & Hc & Hnp).
  exists p'. split; auto. split; auto.
  unfold dir_iter_ctor, stream_ctor. rewrite run_bind, run_sys. cbn [fsk]. unfold sys_opendir. rewrite Hf, Hg. cbn [fst snd].
  rewrite run_bind, (fs_advance_dots cf k _ _ _ (listing k s ((name, c) :: es)) (f_dirs s)) by reflexivity.
  unfold opened in Hr. unfold set_dirs, new_handle in *. cbn [f_root f_body f_meta f_next f_cwd f_fds f_dirs f_handle f_env f_clock] in *.
  rewrite Hr. destruct has; reflexivity.
Qed.

(** * C37 is_empty *)

Theorem C37_is_empty : forall cf k s p n, wf s -> canon p -> 3 <= n ->
  (forall q i, leads_to k s (native p) q (NDir i) ->
     exists b s', run (fsk k) (is_empty_impl cf n true p) s = Done (b, None) s' /\ same_state s s' /\
       (b = true <-> get (f_root s) q = Some (Dir i []))) /\
  (forall q i d, leads_to k s (native p) q (NLeaf i) -> f_body s i = BReg d -> (Z.of_nat (length d) < 2 ^ 64)%Z ->
     run (fsk k) (is_empty_impl cf n true p) s = Done (is_nil d, None) s) /\
  (forall q i, leads_to k s (native p) q (NLeaf i) -> (forall d, f_body s i <> BReg d) ->
     run (fsk k) (is_empty_impl cf n true p) s = Done (false, Some ENOTSUP) s) /\
  ((forall q x, ~ leads_to k s (native p) q x) ->
     exists e, run (fsk k) (is_empty_impl cf n true p) s = Done (false, Some e) s).
Proof.
  intros cf k s p n Hw Hp Hn. unfold is_empty_impl.
  assert (Hst : forall q x, leads_to k s (native p) q x -> node_at s (find_at k s true (native p)) = Val x) by (intros; apply node_at_leads; eauto).
  split; [|split; [|split]].
  - intros q i Hl. rewrite run_bind, run_GetFileStatus, (Hst _ _ Hl). cbn [stat_result]. cbn iota. cbn [failed].
    change (st_is_directory (status_of s (NDir i))) with true. cbn [negb andb].
    destruct Hl as (l & Hf & Hq). apply look_dir in Hq as (es & Hg). unfold is_empty_directory. rewrite run_bind.
    destruct es as [|[name c] es].
    + rewrite (fs_ctor_empty cf k n s true p l q i Hf Hg Hn). cbn [failed snd fst]. rewrite run_bind. cbn.
      exists true, (new_handle s). split; [reflexivity|]. split; [repeat split|]. split; auto.
    + destruct (fs_ctor_cons cf k n s true p l q i name c es Hw Hp Hf Hg Hn) as (p' & _ & _ & Hr). rewrite Hr.
      cbn [failed snd fst]. rewrite run_bind. cbn [dir_iter_destroy stream_destroy ds_handle]. rewrite run_sys.
      rewrite (head_close k _ (f_handle s) (listing k s es) (f_dirs s)) by reflexivity. cbn [fst snd run is_end].
      eexists. eexists. split; [reflexivity|]. split; [repeat split|]. rewrite Hg. split; [discriminate|intros H; inversion H].
  - intros q i d Hl Hb Hd. rewrite run_bind, run_GetFileStatus, (Hst _ _ Hl). cbn [stat_result]. cbn iota. cbn [failed].
    assert (Ht : st_is_directory (status_of s (NLeaf i)) = false /\ st_is_regular_file (status_of s (NLeaf i)) = true).
    { unfold st_is_directory, st_is_regular_file, has_type, status_of. cbn [st_type type_of]. rewrite Hb. auto. }
    destruct Ht as [-> ->]. cbn [negb andb]. cbn [run]. f_equal. f_equal. cbn [stat_of st_size]. rewrite Hb. cbn [body_size].
    unfold to_u64. rewrite Z.mod_small by lia. destruct d; [reflexivity|]. apply Z.eqb_neq. cbn. lia.
  - intros q i Hl Hb. rewrite run_bind, run_GetFileStatus, (Hst _ _ Hl). cbn [stat_result]. cbn iota. cbn [failed].
    assert (Ht : st_is_directory (status_of s (NLeaf i)) = false /\ st_is_regular_file (status_of s (NLeaf i)) = false).
    { unfold st_is_directory, st_is_regular_file, has_type, status_of. cbn [st_type type_of].
      destruct (f_body s i) as [d| |[]] eqn:Hbi; auto. destruct (Hb d). reflexivity. }
    destruct Ht as [-> ->]. reflexivity.
  - intros Hno. rewrite run_bind, run_GetFileStatus. destruct (node_at s (find_at k s true (native p))) as [e|x] eqn:Hx.
    + exists e. reflexivity.
    + apply node_at_leads in Hx as [q Hx]. destruct (Hno q x Hx).
Qed.

Example C37_empty_example : wf demo /\ leads_to demo_choices demo (lit "d") [lit "a"; lit "d"] (NDir 5) /\
  (exists s1 s2, run (fsk demo_choices) (is_empty_impl plain_config 3 true (topath (lit "d"))) demo = Done (false, None) s1 /\
     run (fsk demo_choices) (remove_impl true (topath (lit "d/g"))) demo = Done (true, None) s2 /\
     exists s3, run (fsk demo_choices) (is_empty_impl plain_config 3 true (topath (lit "d"))) s2 = Done (true, None) s3) /\
  run (fsk demo_choices) (is_empty_impl plain_config 3 true (topath (lit "f"))) demo = Done (false, None) demo.
Proof.
  split; [exact demo_wf|]. split; [exists 40; split; vm_compute; reflexivity|]. split; [|vm_compute; reflexivity].
  eexists. eexists. split; [vm_compute; reflexivity|]. split; [vm_compute; reflexivity|]. eexists. vm_compute. reflexivity.
Qed.

(** * C47 on the file system *)

(** Iterating a directory gives its entries in order; nothing changes. *)
Theorem C47_directory : forall cf k s p has n q i es, wf s -> canon p -> leads_to k s (native p) q (NDir i) ->
  get (f_root s) q = Some (Dir i es) -> length es + 2 < n ->
  exists l s', run (fsk k) (visit_directory cf n has p 0) s = Done (l, None) s' /\ same_state s s' /\
    map shown l = map (fun e => (append_text (native p) (fst e), told (dtype_of k s (snd e)))) es.
Proof.
  intros cf k s p has n q i es Hw Hp (l & Hf & _) Hg Hn.
  pose proof (wf_get _ _ _ (wf_root s Hw) Hg) as Hwt. apply wf_tree_dir in Hwt as (_ & Hgn & _).
  set (s1 := opened s (dot_entries k ++ listing k s es)).
  assert (Ho : fsk k (c_opendir (native p)) s = (Val (f_handle s), s1)).
  { cbn [fsk]. unfold sys_opendir. rewrite Hf, Hg. reflexivity. }
  assert (Hd : delivers (fsk k) (f_handle s) s1 (dot_entries k ++ listing k s es) None (set_dirs s1 ((f_handle s, []) :: f_dirs s))).
  { apply fs_delivers. reflexivity. }
  destruct (C47_iterates fs (fsk k) cf n has p 0 s (f_handle s) s1 _ None _ Hp Ho Hd) as (l' & H1 & H2).
  - apply Forall_app. split.
    + unfold dot_entries. destruct (k_dtype k); repeat constructor; cbn; congruence.
    + unfold listing. apply Forall_forall. intros x Hx. apply in_map_iff in Hx as (e & <- & He).
      rewrite Forall_forall in Hgn. specialize (Hgn e He). apply good_plain in Hgn as (_ & Ha & Hb & _).
      repeat split; auto. apply dtype_of_ok.
  - rewrite app_length. unfold listing. rewrite map_length. unfold dot_entries. cbn. lia.
  - exists l'. eexists. split; [exact H2|]. split.
    + rewrite (head_close k _ (f_handle s) [] (f_dirs s)) by reflexivity. repeat split.
    + rewrite H1. unfold expected. rewrite filter_app.
      assert (Hdots : filter not_dots (dot_entries k) = []) by (unfold dot_entries; destruct (k_dtype k); reflexivity).
      rewrite Hdots. cbn [app]. unfold listing.
      assert (Hall : forall l, Forall (fun e => good_name (fst e) = true) l ->
        filter not_dots (map (fun e => (fst e, dtype_of k s (snd e))) l) = map (fun e => (fst e, dtype_of k s (snd e))) l).
      { induction 1 as [|[n0 c0] r Hn0 Hr IH]; [reflexivity|]. cbn [map filter fst snd] in *. rewrite good_not_dots by auto. rewrite IH. reflexivity. }
      rewrite Hall by auto. rewrite map_map. reflexivity.
Qed.

Example C47_example : leads_to demo_choices demo (lit ".") [lit "a"] (NDir 2) /\
  exists l s', run (fsk demo_choices) (visit_directory plain_config 6 false (topath (lit ".")) 0) demo = Done (l, None) s' /\
    map shown l = [(lit "./f", ft_regular); (lit "./l", ft_symlink); (lit "./d", ft_directory)].
Proof.
  split; [exists 40; split; vm_compute; reflexivity|]. eexists. eexists. split; vm_compute; reflexivity.
Qed.

Print Assumptions C37_is_empty.
Print Assumptions C47_directory.
Print Assumptions C47_iterates.
