(** How copy decides what to do, on the file system of FS.v. *)
From Coq Require Import Ascii String Bool Arith NArith ZArith Lia.
From Verif Require Import Str PathModel PathSpec StrProofs PathProofs PathOps PathOps2 PathReach PathLaws ArithProps
  FlagsModel TimeModel Prog DirModel OpsModel OpsProps FS FSProofs FSSpec FSOps FSPlace FSProps FSProps2 FSCopy.
From Coq Require Import List.
Import ListNotations.

(** * Vocabulary *)

(** What copy looks at: with one of the three symlink options the entry [from] itself, otherwise what it leads to; with
    create_symlinks or skip_symlinks the entry [to] itself, otherwise what it leads to. *)
Definition from_follows (l : list copt_name) : Prop := ~ In co_create_symlinks l /\ ~ In co_skip_symlinks l /\ ~ In co_copy_symlinks l.
Definition to_follows (l : list copt_name) : Prop := ~ In co_create_symlinks l /\ ~ In co_skip_symlinks l.

Inductive sees (k : choices) (s : fs) (t : str) (follows : Prop) (r : res node) : Prop :=
| sees_target : follows -> node_at s (find_at k s true t) = r -> sees k s t follows r
| sees_entry : ~ follows -> node_at s (find_at k s false t) = r -> sees k s t follows r.

(** Nothing is at the destination. *)
Definition absent (e : errno) : Prop := e = ENOENT \/ e = ENOTDIR.

(** A type that copy can handle. *)
Definition proper_type (ty : file_type) : Prop := ty = ft_regular \/ ty = ft_directory \/ ty = ft_symlink.

(** The two ways an error is reported. *)
Definition refused (has : bool) (from to : path) (e : errno) (s : fs) : outcome (unit * ecode) fs :=
  if has then Done (tt, Some e) s else Failed (FThrow (Some e) [from; to]) s.

(** * The head of copy *)

(** src/fs_ops.cpp:240-295: what follows the checks *)
Definition copy_tail (cf : config) (n' : nat) (has : bool) (from to : path) (options : N) (f t : file_status) : prog (unit * ecode) :=
  let bad e := report has [from; to] tt e in
  if st_is_symlink f then
    if co_set co_skip_symlinks options then Ret (tt, None)
    else if negb (st_exists t) then copy_symlink_impl cf has from to
    else bad (Some EEXIST)
  else if st_is_regular_file f then
    if co_set co_directories_only options then Ret (tt, None)
    else if co_set co_create_symlinks options then create_symlink_impl has from to
    else if co_set co_create_hard_links options then create_hard_link_impl has from to
    else if st_is_directory t then
      let! fn := lift (filename Posix from) in
      let! to2 := lift (path_div Posix (cf_el cf) to fn) in
      let! r := copy_file_impl cf n' has from to2 options in Ret (tt, snd r)
    else let! r := copy_file_impl cf n' has from to options in Ret (tt, snd r)
  else if st_is_directory f && co_set co_create_symlinks options then bad (Some EISDIR)
  else if st_is_directory f && (co_set co_recursive options || N.eqb options 0) then
    let! c := (if negb (st_exists t) then create_directory_like_impl has to from else Ret (true, None)) in
    if failed (snd c) then Ret (tt, snd c)
    else
      let! i := dir_iter_ctor cf n' has from 0 in
      if failed (snd i) then Ret (tt, snd i)
      else copy_loop cf (fun a b => copy_impl cf n' has a b options) n' has from to n' (fst i) None
  else Ret (tt, None).

Lemma follows_dec : forall l, (from_follows l \/ ~ from_follows l) /\ (to_follows l \/ ~ to_follows l).
Proof.
  intros l. assert (H : forall c, In c l \/ ~ In c l) by (intros c; destruct (in_dec (fun a b : copt_name => ltac:(decide equality)) c l); auto).
  unfold from_follows, to_follows. destruct (H co_create_symlinks), (H co_skip_symlinks), (H co_copy_symlinks); tauto.
Qed.

Lemma from_flag : forall l, (from_follows l <-> co_set co_create_symlinks (options l) || co_set co_skip_symlinks (options l) || co_set co_copy_symlinks (options l) = false).
Proof.
  intros l. unfold from_follows. rewrite <- !options_unset. rewrite !orb_false_iff. tauto.
Qed.
Lemma to_flag : forall l, (to_follows l <-> co_set co_create_symlinks (options l) || co_set co_skip_symlinks (options l) = false).
Proof. intros l. unfold to_follows. rewrite <- !options_unset. rewrite !orb_false_iff. tauto. Qed.

Definition to_status (s : fs) (r : res node) : file_status := match r with Val y => status_of s y | Err e => missing_status e end.

Lemma run_copy_head : forall cf k s n has from to l rf rt, sees k s (native from) (from_follows l) rf -> sees k s (native to) (to_follows l) rt ->
  run (fsk k) (copy_impl cf (S n) has from to (options l)) s =
  match rf with
  | Err e => refused has from to e s
  | Val x =>
      match rt with
      | Err e =>
          if file_type_eqb (st_type (missing_status e)) ft_none then refused has from to e s
          else if st_is_other (status_of s x) then refused has from to ENOSYS s
          else run (fsk k) (copy_tail cf n has from to (options l) (status_of s x) (missing_status e)) s
      | Val y =>
          if st_is_other (status_of s x) || st_is_other (status_of s y) || (st_is_directory (status_of s x) && st_is_regular_file (status_of s y)) || N.eqb (number x) (number y)
          then refused has from to ENOSYS s
          else run (fsk k) (copy_tail cf n has from to (options l) (status_of s x) (status_of s y)) s
      end
  end.
Proof.
  intros cf k s n has from to l rf rt Hf Ht. cbn [copy_impl].
  assert (Hrep : forall e, run (fsk k) (report has [from; to] tt (Some e)) s = refused has from to e s) by (intros; unfold report, refused; destruct has; reflexivity).
  assert (H1 : run (fsk k) (if co_set co_create_symlinks (options l) || co_set co_skip_symlinks (options l) || co_set co_copy_symlinks (options l)
                            then GetLinkStatus true from else GetFileStatus true from) s = Done (stat_result s rf) s).
  { destruct Hf as [Hl <-|Hl <-]; rewrite from_flag in Hl.
    - rewrite Hl. apply run_GetFileStatus.
    - destruct (_ || _); [apply run_GetLinkStatus|]. destruct Hl; auto. }
  assert (H2 : run (fsk k) (if co_set co_create_symlinks (options l) || co_set co_skip_symlinks (options l)
                            then GetLinkStatus true to else GetFileStatus true to) s = Done (stat_result s rt) s).
  { destruct Ht as [Hl <-|Hl <-]; rewrite to_flag in Hl.
    - rewrite Hl. apply run_GetFileStatus.
    - destruct (_ || _); [apply run_GetLinkStatus|]. destruct Hl; auto. }
  rewrite run_bind, H1. destruct rf as [e|x]; cbn [stat_result failed]; [apply Hrep|].
  rewrite run_bind, H2. destruct (status_of_exists s x) as [S1 S2]. rewrite S1. cbn [negb orb].
  destruct rt as [e|y]; cbn [stat_result].
  - unfold status_known. destruct (file_type_eqb (st_type (missing_status e)) ft_none) eqn:Et; cbn [negb]; [apply Hrep|].
    assert (A1 : st_is_other (missing_status e) = false) by (unfold st_is_other; rewrite missing_not_exists; auto). rewrite A1.
    assert (A2 : st_is_regular_file (missing_status e) = false) by (unfold missing_status; destruct (errno_eqb e ENOENT || errno_eqb e ENOTDIR); reflexivity). rewrite A2.
    assert (A3 : stat_equivalent (stat_of s x) stat_zero = false).
    { unfold stat_equivalent. destruct (stat_of_ino s x) as [-> ->]. reflexivity. } rewrite A3.
    rewrite andb_false_r, !orb_false_r. destruct (st_is_other (status_of s x)); [apply Hrep|]. reflexivity.
  - destruct (status_of_exists s y) as [T1 T2]. rewrite T2. cbn [negb].
    assert (A3 : stat_equivalent (stat_of s x) (stat_of s y) = N.eqb (number x) (number y)).
    { unfold stat_equivalent. destruct (stat_of_ino s x) as [-> ->], (stat_of_ino s y) as [-> ->]. reflexivity. }
    rewrite A3. match goal with |- run _ (if ?b then _ else _) _ = _ => destruct b end; [apply Hrep|]. reflexivity.
Qed.

(** * C33 *)

(** The destination is missing, or of a type that goes with the source and not the source itself. *)
Definition suits (s : fs) (x : node) (rt : res node) : Prop :=
  match rt with
  | Err e => absent e
  | Val y => proper_type (type_of s y) /\ ~ (type_of s x = ft_directory /\ type_of s y = ft_regular) /\ number x <> number y
  end.

Lemma other_type : forall s x, st_is_other (status_of s x) = false <-> proper_type (type_of s x).
Proof.
  intros s x. unfold st_is_other. destruct (status_of_exists s x) as [-> _]. unfold st_is_regular_file, st_is_directory, st_is_symlink, has_type, status_of, proper_type.
  cbn [st_type]. destruct (type_of s x); cbn; split; intros H; auto; try discriminate; destruct H as [H|[H|H]]; discriminate.
Qed.
Lemma other_type_bad : forall s x, st_is_other (status_of s x) = true <-> ~ proper_type (type_of s x).
Proof. intros s x. rewrite <- other_type. destruct (st_is_other (status_of s x)); split; intros H; auto; try discriminate; exfalso; auto. Qed.

Lemma absent_type : forall e, absent e <-> file_type_eqb (st_type (missing_status e)) ft_none = false.
Proof.
  intros e. unfold absent, missing_status, errno_eqb. destruct (errno_eq_dec e ENOENT); [subst; cbn; tauto|]. destruct (errno_eq_dec e ENOTDIR); [subst; cbn; tauto|].
  cbn. split; [tauto|discriminate].
Qed.

Lemma sees_total : forall k s t l, (exists r, sees k s t (from_follows l) r) /\ (exists r, sees k s t (to_follows l) r).
Proof.
  intros k s t l. destruct (follows_dec l) as [[H1|H1] [H2|H2]]; split; eexists; ((left; [assumption|reflexivity]) || (right; [assumption|reflexivity])).
Qed.

Lemma run_copy_suits : forall cf k s n has from to l x rt, sees k s (native from) (from_follows l) (Val x) -> sees k s (native to) (to_follows l) rt ->
  proper_type (type_of s x) -> suits s x rt ->
  run (fsk k) (copy_impl cf (S n) has from to (options l)) s = run (fsk k) (copy_tail cf n has from to (options l) (status_of s x) (to_status s rt)) s.
Proof.
  intros cf k s n has from to l x rt Hf Ht Hx Hs. rewrite (run_copy_head _ _ _ _ _ _ _ _ _ _ Hf Ht). apply other_type in Hx. rewrite Hx.
  destruct rt as [e|y]; cbn [suits] in Hs.
  - apply absent_type in Hs. rewrite Hs. reflexivity.
  - destruct Hs as (Hy & Hd & Hn). apply other_type in Hy. rewrite Hy. apply N.eqb_neq in Hn. rewrite Hn. cbn [orb]. rewrite orb_false_r.
    destruct (st_is_directory (status_of s x) && st_is_regular_file (status_of s y)) eqn:E; [|reflexivity]. exfalso. apply Hd.
    apply andb_true_iff in E as [E1 E2]. unfold st_is_directory, st_is_regular_file, has_type, status_of in E1, E2. cbn [st_type] in E1, E2.
    split; [destruct (type_of s x)|destruct (type_of s y)]; try discriminate; auto.
Qed.

Lemma type_tests : forall s x, st_is_symlink (status_of s x) = file_type_eqb (type_of s x) ft_symlink /\
  st_is_regular_file (status_of s x) = file_type_eqb (type_of s x) ft_regular /\ st_is_directory (status_of s x) = file_type_eqb (type_of s x) ft_directory.
Proof. intros. repeat split; reflexivity. Qed.

(** What is refused, with which error; nothing changes. *)
Theorem C33_rejected : forall cf k s n has from to l, let r e := run (fsk k) (copy_impl cf (S n) has from to (options l)) s = refused has from to e s in
  (forall e, sees k s (native from) (from_follows l) (Err e) -> r e) /\
  (forall x, sees k s (native from) (from_follows l) (Val x) ->
     (forall e, sees k s (native to) (to_follows l) (Err e) -> ~ absent e -> r e) /\
     (forall e, sees k s (native to) (to_follows l) (Err e) -> absent e -> ~ proper_type (type_of s x) -> r ENOSYS) /\
     (forall y, sees k s (native to) (to_follows l) (Val y) ->
        ~ proper_type (type_of s x) \/ ~ proper_type (type_of s y) \/
        (type_of s x = ft_directory /\ type_of s y = ft_regular) \/ number x = number y -> r ENOSYS) /\
     (forall rt, sees k s (native to) (to_follows l) rt -> suits s x rt ->
        (type_of s x = ft_symlink -> ~ In co_skip_symlinks l -> (exists y, rt = Val y) -> r EEXIST) /\
        (type_of s x = ft_directory -> In co_create_symlinks l -> r EISDIR))).
Proof.
  intros cf k s n has from to l r. subst r. cbv beta.
  assert (Hrep : forall e, run (fsk k) (report has [from; to] tt (Some e)) s = refused has from to e s) by (intros; unfold report, refused; destruct has; reflexivity).
  split.
  - intros e Hf. destruct (proj2 (sees_total k s (native to) l)) as [rt Ht]. rewrite (run_copy_head _ _ _ _ _ _ _ _ _ _ Hf Ht). reflexivity.
  - intros x Hf. split; [|split; [|split]].
    + intros e Ht He. rewrite (run_copy_head _ _ _ _ _ _ _ _ _ _ Hf Ht).
      destruct (file_type_eqb (st_type (missing_status e)) ft_none) eqn:E; [reflexivity|]. apply absent_type in E. contradiction.
    + intros e Ht He Hx. rewrite (run_copy_head _ _ _ _ _ _ _ _ _ _ Hf Ht). apply absent_type in He. rewrite He. apply other_type_bad in Hx. rewrite Hx. reflexivity.
    + intros y Ht Hor. rewrite (run_copy_head _ _ _ _ _ _ _ _ _ _ Hf Ht).
      destruct Hor as [H|[H|[[H1 H2]|H]]].
      * apply other_type_bad in H. rewrite H. reflexivity.
      * apply other_type_bad in H. rewrite H, orb_true_r. reflexivity.
      * destruct (type_tests s x) as (_ & _ & ->), (type_tests s y) as (_ & -> & _). rewrite H1, H2. cbn [file_type_eqb andb]. rewrite orb_true_r. reflexivity.
      * rewrite H, N.eqb_refl, orb_true_r. reflexivity.
    + intros rt Ht Hs. split.
      * intros Hx Hskip [y ->]. rewrite (run_copy_suits cf k s n has from to l x (Val y) Hf Ht); [|right; right; auto|auto].
        unfold copy_tail. destruct (type_tests s x) as (-> & _ & _). rewrite Hx. cbn [file_type_eqb]. apply options_unset in Hskip. rewrite Hskip.
        cbn [to_status]. destruct (status_of_exists s y) as [-> _]. cbn [negb]. apply Hrep.
      * intros Hx Hc. rewrite (run_copy_suits cf k s n has from to l x rt Hf Ht); [|right; left; auto|auto].
        unfold copy_tail. destruct (type_tests s x) as (-> & -> & ->). rewrite Hx. cbn [file_type_eqb andb]. apply options_set in Hc. rewrite Hc. cbn [andb]. apply Hrep.
Qed.

Lemma options_nil : forall l, l <> [] -> N.eqb (options l) 0 = false.
Proof.
  intros [|c l] H; [congruence|]. apply N.eqb_neq. intros E. assert (In c (c :: l)) as Hc by (left; auto). apply options_set in Hc. rewrite E in Hc.
  destruct c; discriminate.
Qed.

(** Where nothing is done, and no error reported. *)
Theorem C33_nothing_done : forall cf k s n has from to l x rt,
  sees k s (native from) (from_follows l) (Val x) -> sees k s (native to) (to_follows l) rt -> suits s x rt ->
  (type_of s x = ft_symlink /\ In co_skip_symlinks l) \/
  (type_of s x = ft_regular /\ In co_directories_only l) \/
  (type_of s x = ft_directory /\ l <> [] /\ ~ In co_recursive l /\ ~ In co_create_symlinks l) ->
  run (fsk k) (copy_impl cf (S n) has from to (options l)) s = Done (tt, None) s.
Proof.
  intros cf k s n has from to l x rt Hf Ht Hs Hor.
  assert (Hx : proper_type (type_of s x)) by (destruct Hor as [[-> _]|[[-> _]|[-> _]]]; unfold proper_type; auto).
  rewrite (run_copy_suits cf k s n has from to l x rt Hf Ht Hx Hs). unfold copy_tail. destruct (type_tests s x) as (-> & -> & ->).
  destruct Hor as [[-> H]|[[-> H]|(-> & H1 & H2 & H3)]]; cbn [file_type_eqb andb].
  - apply options_set in H. rewrite H. reflexivity.
  - apply options_set in H. rewrite H. reflexivity.
  - apply options_unset in H2, H3. rewrite H2, H3. cbn [andb orb]. rewrite (options_nil _ H1). reflexivity.
Qed.

(** A new symlink with the text [x] is at [q/m], and nothing else has changed. *)
Definition new_link (s s' : fs) (q : loc) (m : str) (x : str) : Prop :=
  exists i, look (f_root s') (q ++ [m]) = Some (NLeaf i) /\ f_body s' i = BLink x /\ i = f_next s /\
    same_outside s s' (q ++ [m]) /\ same_bodies s s' /\ same_metas s s' /\ same_process s s'.

Lemma run_symlink_copied : forall cf k s n has from to l i x e q m, wf s ->
  sees k s (native from) (from_follows l) (Val (NLeaf i)) -> f_body s i = BLink x -> x <> [] -> (Z.of_nat (length x) <= k_path_max k)%Z ->
  ~ In co_skip_symlinks l ->
  sees k s (native to) (to_follows l) (Err e) -> absent e -> find_at k s false (native to) = Missing q m ->
  run (fsk k) (copy_impl cf (S n) has from to (options l)) s =
  Done (tt, None) (set_body (make k s q m (Leaf (f_next s)) 511 1) (f_next s) (BLink (reported_text x))).
Proof.
  intros cf k s n has from to l i x e q m Hw Hf Hb Hx Hlen Hskip Ht He Hm.
  assert (Hty : type_of s (NLeaf i) = ft_symlink) by (cbn; rewrite Hb; auto).
  rewrite (run_copy_suits cf k s n has from to l (NLeaf i) (Err e) Hf Ht); [|right; right; auto|auto].
  unfold copy_tail. destruct (type_tests s (NLeaf i)) as (-> & _ & _). rewrite Hty. change (file_type_eqb ft_symlink ft_symlink) with true. cbv iota. apply options_unset in Hskip. rewrite Hskip.
  cbn [to_status]. rewrite missing_not_exists. cbn [negb].
  assert (Hentry : node_at s (find_at k s false (native from)) = Val (NLeaf i)).
  { inversion Hf as [Hl H|Hl H]; auto. destruct (find_at k s true (native from)) as [l0 q0| |] eqn:F; try discriminate. cbn [node_at] in H.
    destruct (look (f_root s) q0) as [z|] eqn:L; [|discriminate]. inversion H; subst z. pose proof (find_no_link _ _ _ _ _ _ Hw F L) as Hn. unfold link_text in Hn. rewrite Hb in Hn. discriminate. }
  unfold copy_symlink_impl, read_symlink_impl. rewrite run_bind, run_sys. cbn [fsk fst snd]. unfold asap_assert.
  assert (Hpos : (0 < Z.of_nat (length x))%Z) by (destruct x; [congruence|cbn; lia]).
  assert (Hb1 : (0 <? k_path_max k)%Z = true) by (apply Z.ltb_lt; lia).
  assert (Hb2 : (k_path_max k <? 0)%Z = false) by (apply Z.ltb_ge; lia).
  rewrite Hb1, Hb2. cbn [negb]. rewrite andb_false_r. cbn [pbind]. rewrite run_sys. cbn [fsk fst snd]. unfold sys_readlink. rewrite Hentry, Hb.
  assert (Hfi : firstn (Z.to_nat (k_path_max k)) x = x) by (apply firstn_all2; lia). rewrite Hfi.
  assert (Hb3 : (Z.of_nat (length x) <=? k_path_max k)%Z = true) by (apply Z.leb_le; lia).
  assert (Hb4 : (0 <? Z.of_nat (length x))%Z = true) by (apply Z.ltb_lt; lia).
  assert (Hb5 : (k_path_max k <? Z.of_nat (length x))%Z = false) by (apply Z.ltb_ge; lia).
  rewrite Hb3, Hb4, Hb5. cbn [negb]. rewrite andb_false_r. cbn [pbind run fst snd failed].
  unfold create_symlink_impl. rewrite run_sys. cbn [fsk]. unfold sys_symlink.
  change (topath x) with (mkpath x). rewrite native_mkpath.
  assert (Hne : is_nil (reported_text x) = false).
  { destruct (reported_same x) as [R _]. destruct (reported_text x); auto. cbn in R. destruct x; [congruence|discriminate]. }
  rewrite Hne, Hm. cbn [fst snd simple run]. reflexivity.
Qed.

(** A symlink is copied as a symlink, with the text the library reports for it. *)
Theorem C33_symlink_copied : forall cf k s n has from to l i x e q m, wf s ->
  sees k s (native from) (from_follows l) (Val (NLeaf i)) -> f_body s i = BLink x -> x <> [] -> (Z.of_nat (length x) <= k_path_max k)%Z ->
  ~ In co_skip_symlinks l ->
  sees k s (native to) (to_follows l) (Err e) -> absent e -> find_at k s false (native to) = Missing q m ->
  exists s', run (fsk k) (copy_impl cf (S n) has from to (options l)) s = Done (tt, None) s' /\ new_link s s' q m (reported_text x).
Proof.
  intros cf k s n has from to l i x e q m Hw Hf Hb Hx Hlen Hskip Ht He Hm.
  rewrite (run_symlink_copied cf k s n has from to l i x e q m) by assumption. eexists. split; [reflexivity|].
  pose proof (find_missing _ _ _ _ _ _ Hm) as (di & dl & H1 & H2 & H3).
  destruct (make_leaf_look k s q m (BLink (reported_text x)) 511 1 di dl Hw H1 H2) as (G1 & G2 & G3 & G4 & G5 & G6 & G7 & G8).
  exists (f_next s). auto 10.
Qed.

(** A regular file with create_symlinks: a symlink to the text of [from]. *)
Theorem C33_symlink_created : forall cf k s n has from to l x e q m, wf s ->
  sees k s (native from) (from_follows l) (Val x) -> type_of s x = ft_regular ->
  In co_create_symlinks l -> ~ In co_directories_only l ->
  sees k s (native to) (to_follows l) (Err e) -> absent e -> find_at k s false (native to) = Missing q m ->
  exists s', run (fsk k) (copy_impl cf (S n) has from to (options l)) s = Done (tt, None) s' /\ new_link s s' q m (native from).
Proof.
  intros cf k s n has from to l x e q m Hw Hf Hx Hc Hd Ht He Hm.
  rewrite (run_copy_suits cf k s n has from to l x (Err e) Hf Ht); [|left; auto|auto].
  unfold copy_tail. destruct (type_tests s x) as (-> & -> & _). rewrite Hx. change (file_type_eqb ft_regular ft_symlink) with false. change (file_type_eqb ft_regular ft_regular) with true. cbv iota. apply options_set in Hc. apply options_unset in Hd. rewrite Hd, Hc.
  assert (Hne : is_nil (native from) = false).
  { destruct (is_nil (native from)) eqn:E; auto. inversion Hf as [? H|? H]; unfold find_at, resolve_comps in H; rewrite E in H; discriminate. }
  unfold create_symlink_impl. rewrite run_sys. cbn [fsk]. unfold sys_symlink. rewrite Hne, Hm. cbn [fst snd simple run]. eexists. split; [reflexivity|].
  pose proof (find_missing _ _ _ _ _ _ Hm) as (di & dl & H1 & H2 & H3).
  destruct (make_leaf_look k s q m (BLink (native from)) 511 1 di dl Hw H1 H2) as (G1 & G2 & G3 & G4 & G5 & G6 & G7 & G8).
  exists (f_next s). auto 10.
Qed.

(** A regular file with create_hard_links: another name for the file. *)
Theorem C33_hard_link_created : forall cf k s n has from to l i q0 d e q m, wf s ->
  is_file k s (native from) q0 i d ->
  In co_create_hard_links l -> ~ In co_create_symlinks l -> ~ In co_directories_only l ->
  sees k s (native to) (to_follows l) (Err e) -> absent e -> find_at k s false (native to) = Missing q m ->
  exists s', run (fsk k) (copy_impl cf (S n) has from to (options l)) s = Done (tt, None) s' /\
    look (f_root s') (q ++ [m]) = Some (NLeaf i) /\ look (f_root s') q0 = Some (NLeaf i) /\
    f_meta s' i = add_link (f_meta s i) 1 /\ same_metas_but s s' i /\ same_outside s s' (q ++ [m]) /\ f_body s' = f_body s /\ same_process s s'.
Proof.
  intros cf k s n has from to l i q0 d e q m Hw Hfile Hh Hc Hd Ht He Hm.
  pose proof Hfile as (l0 & F & L & B). destruct (file_leads _ _ _ _ _ _ Hfile) as (l1 & F1 & F2).
  assert (Hf : sees k s (native from) (from_follows l) (Val (NLeaf i))).
  { destruct (follows_dec l) as [[H|H] _]; [left|right]; auto; [rewrite F1|rewrite F2]; cbn; rewrite L; auto. }
  assert (Hx : type_of s (NLeaf i) = ft_regular) by (cbn; rewrite B; auto).
  rewrite (run_copy_suits cf k s n has from to l (NLeaf i) (Err e) Hf Ht); [|left; auto|auto].
  unfold copy_tail. destruct (type_tests s (NLeaf i)) as (-> & -> & _). rewrite Hx. change (file_type_eqb ft_regular ft_symlink) with false. change (file_type_eqb ft_regular ft_regular) with true. cbv iota.
  apply options_set in Hh. apply options_unset in Hc, Hd. rewrite Hd, Hc, Hh.
  pose proof (C35_create_hard_link k s has from to Hw) as Hl.
  assert (Hr : exists s1, run (fsk k) (create_hard_link_impl has from to) s = Done (tt, None) s1).
  { unfold create_hard_link_impl. rewrite run_sys. cbn [fsk]. unfold sys_link. rewrite F. cbn [node_at]. rewrite L, Hm. eexists; reflexivity. }
  destruct Hr as [s1 Hr]. rewrite Hr in *. exists s1. split; [reflexivity|]. destruct Hl as (i' & q' & n' & qt & l' & A1 & A2 & A3 & A4 & A5 & A6 & A7 & A8 & A9 & A10).
  rewrite F in A1. injection A1 as <- <-. rewrite L in A2. injection A2 as <-. rewrite Hm in A3. injection A3 as <- <-. auto 10.
Qed.

(** In every other case of a regular file, the outcome is the one of copy_file, to the destination or into it if it is a directory. *)
Definition lands (s : fs) (from to : path) (rt : res node) (to2 : path) : Prop :=
  match rt with
  | Val y => if file_type_eqb (type_of s y) ft_directory then native to2 = append_text (native to) (after_last_slash (native from)) else to2 = to
  | Err _ => to2 = to
  end.
Definition without_result (o : outcome (bool * ecode) fs) : outcome (unit * ecode) fs :=
  match o with Done r s => Done (tt, snd r) s | Failed f s => Failed f s end.

Lemma append_collapse : forall a b, is_text a -> is_text b -> reported_text (append_text a b) = append_text a b.
Proof. intros a b Ha Hb. apply append_text_text; auto. Qed.

Theorem C33_file_copied : forall cf k s n has from to l x rt, canon from -> canon to ->
  sees k s (native from) (from_follows l) (Val x) -> type_of s x = ft_regular ->
  ~ In co_create_hard_links l -> ~ In co_create_symlinks l -> ~ In co_directories_only l ->
  sees k s (native to) (to_follows l) rt -> suits s x rt ->
  exists to2, lands s from to rt to2 /\
    run (fsk k) (copy_impl cf (S n) has from to (options l)) s = without_result (run (fsk k) (copy_file_impl cf n has from to2 (options l)) s).
Proof.
  intros cf k s n has from to l x rt Cf Ct Hf Hx Hh Hc Hd Ht Hs.
  rewrite (run_copy_suits cf k s n has from to l x rt Hf Ht); [|left; auto|auto].
  unfold copy_tail. destruct (type_tests s x) as (-> & -> & _). rewrite Hx. change (file_type_eqb ft_regular ft_symlink) with false. change (file_type_eqb ft_regular ft_regular) with true. cbv iota.
  apply options_unset in Hc, Hd, Hh. rewrite Hd, Hc, Hh.
  assert (Hwr : forall p, run (fsk k) (let! r := copy_file_impl cf n has from p (options l) in Ret (tt, snd r)) s =
    without_result (run (fsk k) (copy_file_impl cf n has from p (options l)) s)).
  { intros p. rewrite run_bind. destruct (run (fsk k) (copy_file_impl cf n has from p (options l)) s); reflexivity. }
  destruct rt as [e|y]; cbn [to_status lands suits] in *.
  - exists to. split; auto. replace (st_is_directory (missing_status e)) with false; [apply Hwr|].
    unfold missing_status. destruct (errno_eqb e ENOENT || errno_eqb e ENOTDIR); reflexivity.
  - destruct (type_tests s y) as (_ & _ & ->). destruct (file_type_eqb (type_of s y) ft_directory) eqn:E.
    + destruct (gives_filename from Cf) as (f & Ef & Cff & Nf). rewrite Ef. cbn [lift pbind].
      destruct (gives_div (cf_el cf) to f Ct Cff) as (r & Er & Cr & Nr). rewrite Er. cbn [lift pbind]. exists r. split; [|apply Hwr].
      rewrite Nr, <- Nf. apply append_collapse; apply canon_native; auto.
    + exists to. split; auto.
Qed.

(** Contradictory options are accepted, in every state: with create_symlinks and create_hard_links a regular file gets a symlink; with
    skip_symlinks and copy_symlinks a symlink is skipped; with directories_only and create_symlinks or create_hard_links nothing is done
    with a regular file. *)
Theorem C33_contradictory_refuted : forall cf k s n has from to l x rt, wf s ->
  sees k s (native from) (from_follows l) (Val x) -> sees k s (native to) (to_follows l) rt -> suits s x rt ->
  (type_of s x = ft_regular -> In co_create_symlinks l -> In co_create_hard_links l -> ~ In co_directories_only l ->
     forall e q m, rt = Err e -> find_at k s false (native to) = Missing q m ->
     exists s', run (fsk k) (copy_impl cf (S n) has from to (options l)) s = Done (tt, None) s' /\ new_link s s' q m (native from)) /\
  (type_of s x = ft_symlink -> In co_skip_symlinks l -> In co_copy_symlinks l ->
     run (fsk k) (copy_impl cf (S n) has from to (options l)) s = Done (tt, None) s) /\
  (type_of s x = ft_regular -> In co_directories_only l -> In co_create_symlinks l \/ In co_create_hard_links l ->
     run (fsk k) (copy_impl cf (S n) has from to (options l)) s = Done (tt, None) s).
Proof.
  intros cf k s n has from to l x rt Hw Hf Ht Hs. split; [|split].
  - intros Hx H1 _ H3 e q m -> Hm. eapply C33_symlink_created; eauto.
  - intros Hx H1 _. eapply C33_nothing_done; eauto.
  - intros Hx H1 _. eapply C33_nothing_done; eauto.
Qed.
Example C33_contradictory_example :
  (exists s', run (fsk demo_choices) (copy_impl plain_config 20 false (topath (lit "/a/f")) (topath (lit "/b/new")) (options [co_create_symlinks; co_create_hard_links])) demo = Done (tt, None) s') /\
  run (fsk demo_choices) (copy_impl plain_config 20 false (topath (lit "/a/l")) (topath (lit "/b/new")) (options [co_skip_symlinks; co_copy_symlinks])) demo = Done (tt, None) demo /\
  run (fsk demo_choices) (copy_impl plain_config 20 false (topath (lit "/a/f")) (topath (lit "/b/new")) (options [co_directories_only; co_create_symlinks])) demo = Done (tt, None) demo.
Proof. split; [eexists; vm_compute; reflexivity|]. split; reflexivity. Qed.

(** A name that leads to a regular file through a symlink is seen as a regular file when no symlink option is given, but then it is
    refused: nothing is copied. *)
Theorem C33_followed_refuted : forall cf k s n has from to l q i p m, wf s -> canon from -> canon to ->
  leads_to k s (native from) q (NLeaf i) -> type_of s (NLeaf i) = ft_regular -> (forall q j d, ~ is_file k s (native from) q j d) ->
  from_follows l -> ~ In co_create_hard_links l -> ~ In co_directories_only l ->
  leads_nowhere k s (native to) p m ->
  exists s', run (fsk k) (copy_impl cf (S n) has from to (options l)) s =
    (if has then Done (tt, Some ENOTSUP) s' else Failed (FThrow (Some ENOTSUP) [to; from]) s') /\ same_state s s'.
Proof.
  intros cf k s n has from to l q i p m Hw Cf Ct [ls [F L]] Hx Hno Hl Hh Hd Hto.
  destruct (C33_file_copied cf k s n has from to l (NLeaf i) (Err ENOENT) Cf Ct) as (to2 & -> & Hr); auto.
  - left; auto. rewrite F. cbn. rewrite L. auto.
  - apply Hl.
  - left; [split; apply Hl|]. unfold leads_nowhere in Hto. rewrite Hto. auto.
  - left; auto.
  - destruct (run_copy_bad_source cf k s n has from to (options l) Hw Hno) as (e & s' & R & Hs & He). rewrite R in Hr.
    rewrite (He q (NLeaf i)) in Hr by (exists ls; auto). exists s'. split; auto. rewrite Hr. destruct has; reflexivity.
Qed.

(** Concrete cases: /s is a fifo, /a/l a symlink to a directory, /a/d a directory. *)
Example C33_rejected_example : let k := demo_choices in let s := demo in
  let r from to l has := run (fsk k) (copy_impl plain_config 20 has (topath from) (topath to) (options l)) s in
  let no from to e has := refused has (topath from) (topath to) e s in
  wf s /\ (forall has, r (lit "/none") (lit "/b/new") [] has = no (lit "/none") (lit "/b/new") ENOENT has) /\
  (forall has, r (lit "/s") (lit "/b/new") [] has = no (lit "/s") (lit "/b/new") ENOSYS has) /\
  (forall has, r (lit "/a/f") (lit "/s") [] has = no (lit "/a/f") (lit "/s") ENOSYS has) /\
  (forall has, r (lit "/a/d") (lit "/a/f") [] has = no (lit "/a/d") (lit "/a/f") ENOSYS has) /\
  (forall has, r (lit "/a/f") (lit "/b/h") [co_overwrite_existing] has = no (lit "/a/f") (lit "/b/h") ENOSYS has) /\
  (forall has, r (lit "/a/l") (lit "/a/f") [co_copy_symlinks] has = no (lit "/a/l") (lit "/a/f") EEXIST has) /\
  (forall has, r (lit "/a/d") (lit "/b/new") [co_create_symlinks] has = no (lit "/a/d") (lit "/b/new") EISDIR has).
Proof.
  intros k s r no. split; [apply demo_wf|]. do 6 (split; [intros []; vm_compute; reflexivity|]). intros []; vm_compute; reflexivity.
Qed.

Example C33_done_example : let k := demo_choices in let s := demo in
  let r from to l := run (fsk k) (copy_impl plain_config 20 true (topath from) (topath to) (options l)) s in
  sees k s (lit "/a/l") (from_follows [co_skip_symlinks]) (Val (NLeaf 4)) /\ sees k s (lit "/b/new") (to_follows [co_skip_symlinks]) (Err ENOENT) /\
  type_of s (NLeaf 4) = ft_symlink /\ r (lit "/a/l") (lit "/b/new") [co_skip_symlinks] = Done (tt, None) s /\
  r (lit "/a/f") (lit "/b/new") [co_directories_only] = Done (tt, None) s /\ r (lit "/a/d") (lit "/b/new") [co_overwrite_existing] = Done (tt, None) s /\
  match r (lit "/a/l") (lit "/b/new") [co_copy_symlinks] with Done (_, None) s' => look (f_root s') [lit "b"; lit "new"] = Some (NLeaf 10) /\ f_body s' 10 = BLink (lit "../b") | _ => False end /\
  match r (lit "/a/f") (lit "/b/new") [co_create_symlinks] with Done (_, None) s' => look (f_root s') [lit "b"; lit "new"] = Some (NLeaf 10) /\ f_body s' 10 = BLink (lit "/a/f") | _ => False end /\
  match r (lit "/a/f") (lit "/b/new") [co_create_hard_links] with Done (_, None) s' => look (f_root s') [lit "b"; lit "new"] = Some (NLeaf 3) | _ => False end /\
  match r (lit "/a/f") (lit "/b/new") [] with Done (_, None) s' => look (f_root s') [lit "b"; lit "new"] = Some (NLeaf 10) /\ f_body s' 10 = BReg (lit "hello") | _ => False end /\
  match r (lit "/a/f") (lit "/a/d") [] with Done (_, None) s' => look (f_root s') [lit "a"; lit "d"; lit "f"] = Some (NLeaf 10) /\ f_body s' 10 = BReg (lit "hello") | _ => False end.
Proof.
  intros k s r.
  split; [right; [unfold from_follows; cbn; tauto|vm_compute; reflexivity]|].
  split; [right; [unfold to_follows; cbn; tauto|vm_compute; reflexivity]|].
  split; [reflexivity|]. do 3 (split; [vm_compute; reflexivity|]). vm_compute. auto 20.
Qed.

Example C33_followed_example : let k := demo_choices in let s := demo_filelink in
  leads_to k s (lit "/b/k") [lit "a"; lit "d"; lit "g"] (NLeaf 6) /\ type_of s (NLeaf 6) = ft_regular /\ from_follows [] /\
  (forall q j d, ~ is_file k s (lit "/b/k") q j d) /\ leads_nowhere k s (lit "/b/new") [lit "b"] (lit "new") /\
  exists s', run (fsk k) (copy_impl plain_config 20 true (topath (lit "/b/k")) (topath (lit "/b/new")) (options [])) s = Done (tt, Some ENOTSUP) s'.
Proof.
  split; [exists 39; repeat split|]. split; [reflexivity|]. split; [unfold from_follows; cbn; tauto|].
  split; [intros q j d (l & F & L & B); vm_compute in F; inversion F; subst; vm_compute in L; inversion L; subst; discriminate|].
  split; [reflexivity|]. eexists. vm_compute. reflexivity.
Qed.

Print Assumptions C33_rejected.
Print Assumptions C33_nothing_done.
Print Assumptions C33_symlink_copied.
Print Assumptions C33_symlink_created.
Print Assumptions C33_hard_link_created.
Print Assumptions C33_file_copied.
Print Assumptions C33_contradictory_refuted.
Print Assumptions C33_followed_refuted.
