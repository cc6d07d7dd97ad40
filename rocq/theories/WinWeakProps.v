(** C85: weakly_canonical, relative and proximate on Windows. The specification is at the head of WinWeak.v: [present], [absent],
    [unclear], [made_of], [roots], [upto], [names_in], [marked], [spot]; what canonical gives is at the head of WinCanon.v: [world],
    [walk], [begins], [shows], [usual].
    Sources: src/fs_ops.cpp:1603-1652, include/filesystem/fs_ops.h:410-459 with ASAP_WINDOWS defined. *)
From Coq Require Import Ascii String Bool Arith NArith ZArith Lia List.
From Verif Require Import Str PathModel PathSpec StrProofs PathProofs PathOps PathOps2 PathNormal PathNormal2 WinPathProps WinPlace WinAppend WinGeneric WinNormal WinNormalProps WinDrive
  WinPermsModel FlagsModel TimeModel WinStatModel WinStatProps OpsModel WinOpsModel WinOpsProps WinCreateDirs WinWeak.
From Verif Require WinRelative WinRemoveTree WinCanon WinCanonProps.
Import ListNotations.
Local Open Scope N_scope.

Notation told := WinOpsProps.told.

(** * Proofs *)

Lemma weak_stop : forall dbg E S (h : wkernel S) ans t rn d pre x post n has s, steady h ans ->
  made_of t rn d (pre ++ x :: post) -> absent dbg ans (native (wpath t)) -> Forall (present dbg ans) (roots rn d) ->
  (forall u v, pre = u ++ v -> u <> [] -> present dbg ans (upto rn d u)) ->
  exists e ret ms tr, wrun h (wweakly_canonical dbg E n has (wpath t)) s = wrun h (wbind (wexisting_prefix dbg E (map fpath (x :: post)) ret e) (finish dbg E n)) s /\
    Rep rn d pre false ret /\ Forall proper pre /\ ret = (if is_nil (upto rn d pre) then path_default else wpath (upto rn d pre)) /\
    x :: post = ms ++ tail_of tr /\ Forall proper ms /\ (tr = true -> pre ++ ms <> []).
Proof.
  intros dbg E S h ans t rn d pre x post n has s Hst Hm Ha Hr Hpre. pose proof Hm as (Hl & Hrn & Hd & Hp & Hpieces).
  set (ns := wnames (wrest t)) in *. set (tr := wends (wrest t) && negb (is_nil ns)) in *.
  assert (Ht : t <> []). { intros ->. cbn in ns. subst ns. cbn in Hpieces. destruct pre; discriminate. }
  destruct (cut_pieces ns tr pre x post Hp (eq_sym Hpieces)) as (Hpp & ms & Hms & Hpms & Hns).
  destruct (weak_absent dbg E h ans Hst n has t s Ht Ha) as (e0 & H0). rewrite (elems_made t rn d _ Hm Ht), map_app in H0.
  destruct (run_roots dbg E h ans Hst _ (finish dbg E n) rn d (map fpath pre ++ map fpath (x :: post)) e0 s Hl Hr) as (e1 & H1).
  destruct (run_pieces dbg E h ans Hst _ (finish dbg E n) rn d pre [] (map fpath (x :: post)) (root_base rn d) e1 s Hl Hpp (root_base_rep rn d) Hpre) as (e2 & ret & H2 & H3 & H4).
  exists e2, ret, ms, tr. split; [rewrite H0, H1; exact H2|]. split; [exact H4|]. split; [exact Hpp|]. split; [|split; [exact Hms|split; [exact Hpms|]]].
  - rewrite H3. cbn [app]. destruct pre as [|y pre]; cbn [is_nil].
    + unfold root_base, root_paths, upto. cbn [wjoin]. rewrite app_nil_r. destruct rn, d; reflexivity.
    + assert (Hne : upto rn d (y :: pre) <> []). { rewrite upto_ctext. intros Hz. apply nil_parts in Hz; [|apply local_ok; assumption]. destruct Hz as (_ & _ & Hz). discriminate. }
      destruct (upto rn d (y :: pre)) eqn:Hu; [congruence|reflexivity].
  - intros Htr. rewrite <- Hns. unfold tr in Htr. apply andb_true_iff in Htr. destruct Htr as [_ Htr]. intros Hz. rewrite Hz in Htr. discriminate.
Qed.

Lemma piece_native : forall rn d pre x post ms tr, local_root rn -> Forall proper pre -> Forall proper ms -> x :: post = ms ++ tail_of tr -> (tr = true -> pre ++ ms <> []) ->
  native (split_components Windows (upto rn d (pre ++ [x]))) = upto rn d (pre ++ [x]).
Proof.
  intros rn d pre x post ms tr Hl Hp Hm Hx Ht. destruct ms as [|y ms].
  - destruct tr; [|discriminate]. cbn in Hx. injection Hx as -> ->. apply (upto_native rn d pre true Hl Hp). intros _ ->. apply (Ht eq_refl). reflexivity.
  - cbn in Hx. injection Hx as -> Hpost. inversion Hm; subst. rewrite <- (app_nil_r (pre ++ [y])). apply (upto_native rn d (pre ++ [y]) false Hl); [|discriminate].
    apply Forall_app. split; [exact Hp|]. apply Forall_cons; [assumption|constructor].
Qed.

Lemma bound_end : forall A B S (h : wkernel S) (p : wprog A) (f : A -> N -> wprog B) s v e s', wrun h p s = (WE (WRet v e), s') -> wrun h (wbind p f) s = wrun h (f v e) s'.
Proof. intros. eapply WinRemoveTree.wrun_bind. exact H. Qed.

Lemma plain_of_real : forall T b ms, WinCanon.real T b ms -> forallb plain ms = true.
Proof.
  intros T b ms (_ & H & _). apply forallb_forall. intros x Hx. rewrite Forall_forall in H. destruct (H x Hx) as ((Hn & _) & H1 & H2). unfold plain.
  destruct x as [|c x]; [congruence|]. cbn [is_nil negb andb].
  destruct (str_eqb (c :: x) (lit ".")) eqn:K1; [apply str_eqb_spec in K1; congruence|]. destruct (str_eqb (c :: x) (lit "..")) eqn:K2; [apply str_eqb_spec in K2; congruence|]. reflexivity.
Qed.

Lemma last_tail : forall A (l m : list A) d, m <> [] -> last (l ++ m) d = last m d.
Proof.
  intros A l m d Hm. induction l as [|y l IH]; [reflexivity|]. cbn [app]. destruct (l ++ m) eqn:Hz; [apply app_eq_nil in Hz; destruct Hz; congruence|]. exact IH.
Qed.

(** * Theorems: weakly_canonical *)

(** A path that exists: the same as canonical. A path that cannot be examined: the code of the examination. *)
Theorem C85_direct_partial : forall dbg E S (h : wkernel S) ans n has p s, steady h ans ->
  (native p = [] -> wrun h (wweakly_canonical dbg E n has p) s = wrun h (wcanonical dbg E n has (wpath [])) s) /\
  (native p <> [] -> present dbg ans (native p) -> wrun h (wweakly_canonical dbg E n has p) s = wrun h (wcanonical dbg E n has p) s) /\
  (forall e, native p <> [] -> unclear dbg ans (native p) e -> wrun h (wweakly_canonical dbg E n has p) s = (told has path_default e, s)).
Proof.
  intros dbg E S h ans n has p s Hst. unfold wweakly_canonical. split; [|split].
  - intros H. unfold empty. unfold native in H. rewrite H. reflexivity.
  - intros H (ty & prms & e & Hty & H1 & H2). assert (He : empty p = false) by (unfold empty; unfold native in H; destruct (pathname p); [congruence|reflexivity]). rewrite He.
    rewrite (ask dbg h ans Hst _ _ p _ _ _ s eq_refl Hty). unfold wknown, wexists. cbn [fst]. rewrite (type_not _ _ H1), (type_not _ _ H2). reflexivity.
  - intros e H (prms & Hty). assert (He : empty p = false) by (unfold empty; unfold native in H; destruct (pathname p); [congruence|reflexivity]). rewrite He.
    rewrite (ask dbg h ans Hst _ _ p _ _ _ s eq_refl Hty). unfold wbad, wreport, told. destruct has; reflexivity.
Qed.

(** A path of which the first elements exist and lead to a place, and the next does not: that place, and the other elements followed
    from it as names. A backslash ends the text when the path ends like the name of a directory. *)
Theorem C85_prefix_partial : forall dbg E S (h : wkernel S) ans T cwd t drive rooted pre x post a steps b ms k has s,
  steady h ans -> WinCanon.shows ans T -> WinCanon.usual T -> ans w_CurrentDirectory = inr cwd ->
  made_of t drive rooted (pre ++ x :: post) -> absent dbg ans (native (wpath t)) ->
  Forall (present dbg ans) (roots drive rooted) -> (forall u v, pre = u ++ v -> u <> [] -> present dbg ans (upto drive rooted u)) ->
  absent dbg ans (upto drive rooted (pre ++ [x])) ->
  upto drive rooted pre <> [] -> WinCanon.begins cwd (upto drive rooted pre) = Some (a, steps) ->
  WinCanon.walk T a [] steps b ms k -> (k < 40)%nat -> T b ms <> None ->
  exists n0, forall n, (n0 <= n)%nat -> exists q,
    wrun h (wweakly_canonical dbg E n has (wpath t)) s = (WE (WRet q 0), s) /\
    native q = spot b (PathSpec.walk ms (names_in (x :: post))) (marked (x :: post)).
Proof.
  intros dbg E S h ans T cwd t drive rooted pre x post a steps b ms k has s Hst Hsh Hus Hcwd Hm Ha Hr Hpre Hx Hne Hb Hw Hk HT.
  destruct (WinCanon.canonical_complete_path dbg E S h ans Hst T Hsh Hus cwd Hcwd _ a steps s true b ms k Hb Hw Hk HT) as (n0 & Hcan). exists n0. intros n Hn. destruct (Hcan n Hn) as (Hre & Hrun).
  destruct (weak_stop dbg E S h ans t drive rooted pre x post n has s Hst Hm Ha Hr Hpre) as (e & ret & ls & tr & H0 & HR & Hpp & Hret & Hls & Hpls & Htr).
  pose proof Hm as (Hl & _). cbn [map] in H0.
  rewrite (step_absent dbg E h ans Hst _ (finish dbg E n) (fpath x) (map fpath post) ret e (upto drive rooted (pre ++ [x])) s) in H0;
    [|apply append_piece; assumption|eapply piece_native; eassumption|exact Hx].
  assert (Hret' : ret = wpath (upto drive rooted pre)) by (rewrite Hret; destruct (upto drive rooted pre); [congruence|reflexivity]).
  assert (Hem : empty ret = false).
  { unfold empty. rewrite (Rep_pathname drive rooted pre false ret); [|apply local_ok; assumption|exact HR]. rewrite <- upto_ctext. destruct (upto drive rooted pre); [congruence|reflexivity]. }
  cbn [finish] in H0. change (0 =? 0) with true in H0. rewrite Hem in H0. cbn [andb negb] in H0. rewrite Hret' in H0.
  rewrite (bound_end _ _ _ h _ _ s _ _ _ Hrun) in H0. change (negb (0 =? 0)) with false in H0. cbv iota in H0. change (fpath x :: map fpath post) with (map fpath (x :: post)) in H0. rewrite Hls in H0.
  pose proof (WinCanon.real_proper _ _ _ Hre) as Hpm. pose proof (proj1 Hre) as Hsb. pose proof (plain_of_real _ _ _ Hre) as Hpl.
  assert (Hall : Forall proper (ms ++ ls)) by (apply Forall_app; split; assumption).
  rewrite (append_pieces E [b; colon] true ls ms (dpath b ms) tr) in H0; [| |exact Hall| |rewrite <- Hls; discriminate].
  2: { right. exists b. split; [reflexivity|exact Hsb]. }
  2: { left. unfold dpath. rewrite wtext_ctext. reflexivity. }
  cbn [wlift] in H0. rewrite <- spot_ctext in H0. destruct (normal_drive E b (ms ++ ls) tr Hsb (propers_wnames _ Hall)) as (r & Hnr & Hnat). rewrite Hnr in H0. cbn [wlift] in H0.
  exists (fin Windows (el_other E) r). split; [rewrite H0; reflexivity|].
  assert (Hfin : native (fin Windows (el_other E) r) = native r).
  { unfold fin. destruct (el_other E); [reflexivity|]. unfold native in *. rewrite Hnat. rewrite spot_ctext. destruct (walk_fold (ms ++ ls) [] ltac:(constructor)) as [_ Hwf]. cbn [rev] in Hwf.
    apply ctext_native, drive_ok; [exact Hsb|]. rewrite <- Hwf. apply Forall_rev.
    assert (G : forall l stk, Forall wname l -> Forall wname stk -> Forall wname (fold_left (reduce1 true) l stk)).
    { induction l as [|y l IHl]; intros stk Hy Hk'; [exact Hk'|]. inversion Hy; subst. cbn [fold_left]. apply IHl; [assumption|]. unfold reduce1.
      destruct (str_eqb y (lit ".")); [exact Hk'|]. destruct (str_eqb y (lit "..")); [|constructor; assumption]. destruct stk as [|z stk]; [constructor|]. destruct (str_eqb z (lit "..")); [constructor; assumption|].
      inversion Hk'; assumption. }
    apply G; [apply propers_wnames; exact Hall|constructor]. }
  rewrite Hfin, Hnat, Hls, (names_in_tail ls tr Hpls). rewrite walk_app. rewrite (walk_plain ms [] Hpl). cbn [app].
  assert (Hlast : marked ((ms ++ ls) ++ tail_of tr) = marked (ls ++ tail_of tr)).
  { unfold marked. rewrite <- app_assoc. rewrite last_tail by (rewrite <- Hls; discriminate). reflexivity. }
  rewrite Hlast. destruct (ms ++ ls) as [|y r'] eqn:Hz; [|reflexivity]. apply app_eq_nil in Hz. destruct Hz as [-> ->]. cbn [PathSpec.walk fold_left]. unfold spot. cbn [is_nil negb andb]. rewrite andb_false_r. reflexivity.
Qed.

Lemma run_first : forall dbg E S (h : wkernel S) ans A (f : path * list path * N -> N -> wprog A) rn d l (tr : bool) e s, steady h ans -> local_root rn ->
  Forall proper l -> (tr = true -> l <> []) -> root_paths rn d ++ map fpath (l ++ tail_of tr) <> [] ->
  (forall u, hd_error (roots rn d ++ map (fun x => upto rn d [x]) (l ++ tail_of tr)) = Some u -> absent dbg ans u) ->
  wrun h (wbind (wexisting_prefix dbg E (root_paths rn d ++ map fpath (l ++ tail_of tr)) path_default e) f) s =
  wrun h (f (path_default, root_paths rn d ++ map fpath (l ++ tail_of tr), 0) 0) s.
Proof.
  intros dbg E S h ans A f rn d l tr e s Hst Hl Hp Htr Hne Hu. unfold root_paths, roots in *. destruct rn as [|c rn]; cbn [is_nil app] in *.
  - destruct d; cbn [app] in *.
    + apply (step_absent dbg E h ans Hst _ f _ _ path_default e (([] : str) ++ [backslash]) s); [|reflexivity|apply Hu; reflexivity]. apply div_append. apply (root_second E [] path_default Hl eq_refl).
    + destruct (l ++ tail_of tr) as [|x post] eqn:Hx; [exfalso; apply Hne; reflexivity|]. destruct l as [|y l]; [destruct tr; [exfalso; apply Htr; reflexivity|discriminate]|]. cbn in Hx. injection Hx as -> Hpost.
      inversion Hp as [|? ? Hpx _]; subst. cbn [map app] in *.
      apply (step_absent dbg E h ans Hst _ f (fpath x) _ path_default e (upto [] false [x]) s).
      * apply (append_piece E [] false [] path_default x Hl ltac:(constructor)). right. left. split; reflexivity.
      * rewrite upto_ctext. apply ctext_native, local_ok; [exact Hl|]. apply Forall_cons; [exact Hpx|constructor].
      * apply Hu. reflexivity.
  - apply (step_absent dbg E h ans Hst _ f _ _ path_default e (c :: rn) s); [apply div_append, root_first; [exact Hl|discriminate]|apply local_native; exact Hl|apply Hu; reflexivity].
Qed.

Lemma wnormal_same : forall s t rn r1 r2, split_root no_wsep s = (rn, r1) -> split_root no_wsep t = (rn, r2) -> wstarts r1 = wstarts r2 -> wnames r1 = wnames r2 ->
  (wnames r1 <> [] -> wends r1 = wends r2) -> wnormal s = wnormal t.
Proof.
  intros s t rn r1 r2 Hs Ht H1 H2 H3. unfold wnormal, wstk, wtr. rewrite Hs, Ht. cbn [fst snd]. cbv zeta. rewrite H1, H2. destruct (wnames r2) as [|n ns] eqn:Hn.
  - cbn [fold_left wfinal]. reflexivity.
  - rewrite H3 by (rewrite H2; discriminate). reflexivity.
Qed.

(** A path of which not even the first element exists: the text in normal form. *)
Theorem C85_nothing_partial : forall dbg E S (h : wkernel S) ans t drive rooted l n has s, steady h ans -> t <> [] ->
  made_of t drive rooted l -> absent dbg ans (native (wpath t)) ->
  (forall u, hd_error (roots drive rooted ++ map (fun x => upto drive rooted [x]) l) = Some u -> absent dbg ans u) ->
  exists q r, wrun h (wweakly_canonical dbg E n has (wpath t)) s = (WE (WRet q 0), s) /\
    lexically_normal Windows E (wpath t) = Ok r /\ native q = native r.
Proof.
  intros dbg E S h ans t rn d l n has s Hst Ht Hm Ha Hu. pose proof Hm as (Hl & Hrn & Hd & Hp & Hpieces).
  destruct (weak_absent dbg E h ans Hst n has t s Ht Ha) as (e0 & H0). rewrite (elems_made t rn d l Hm Ht) in H0.
  destruct (split_root no_wsep t) as [r0 rest] eqn:Hr. unfold wroot, wrooted, wrest in *. rewrite Hr in *. cbn [fst snd] in *.
  set (tr := wends rest && negb (is_nil (wnames rest))) in *. change (l = wnames rest ++ tail_of tr) in Hpieces.
  assert (Htr : tr = true -> wnames rest <> []). { unfold tr. intros K Hz. rewrite Hz, andb_false_r in K. discriminate. }
  assert (Hne : root_paths rn d ++ map fpath l <> []).
  { unfold root_paths. subst rn d. rewrite nil_preferred. destruct r0 as [|c r0]; [|discriminate]. cbn [is_nil app]. destruct (wstarts rest) eqn:Hw; [discriminate|]. cbn [app].
    subst l. destruct (wnames rest) as [|y ys] eqn:Hn; [|discriminate]. pose proof (unstarted_no_names rest Hw Hn) as ->. destruct (split_root_cases _ _ _ Hr) as (Hz & _). exfalso. apply Ht. exact Hz. }
  rewrite Hpieces in Hne, Hu, H0. rewrite (run_first dbg E S h ans _ (finish dbg E n) rn d (wnames rest) tr e0 s Hst Hl Hp Htr Hne Hu) in H0.
  cbn [finish] in H0. change ((0 =? 0) && negb (empty path_default)) with false in H0. cbv iota in H0. cbn [wbind wret] in H0. change (negb (0 =? 0)) with false in H0. cbv iota in H0.
  assert (Happ : append_all Windows E (root_paths rn d ++ map fpath (wnames rest ++ tail_of tr)) path_default = Ok (split_components Windows (ctext rn d (wnames rest) tr))).
  { rewrite append_roots by exact Hl. destruct (wnames rest ++ tail_of tr) as [|y ys] eqn:Hz.
    - apply app_eq_nil in Hz. destruct Hz as [Hz1 Hz2]. rewrite Hz1 in *. destruct tr; [discriminate|]. cbn [map append_all]. unfold root_base. destruct (root_paths rn d) eqn:Hrp; [exfalso; apply Hne; reflexivity|].
      cbn [is_nil]. rewrite upto_ctext. reflexivity.
    - rewrite <- Hz. apply (append_pieces E rn d (wnames rest) [] (root_base rn d) tr Hl Hp (root_base_rep rn d)). congruence. }
  rewrite Happ in H0. cbn [wlift] in H0. set (u := ctext rn d (wnames rest) tr) in *.
  pose proof (local_ok rn d (wnames rest) Hl Hp) as Hok. destruct (ctext_root rn d (wnames rest) tr Hok) as (rest' & Hr' & _ & Hd' & Hn' & He'). change (ctext rn d (wnames rest) tr) with u in Hr'.
  assert (Hr0 : r0 = rn).
  { rewrite <- Hrn. destruct (split_root_cases _ _ _ Hr) as (_ & [[-> _]|[(c & -> & Hc)|(c & w & -> & Hc & _ & Hw & _)]]); [reflexivity| |].
    - symmetry. apply (local_split [c; colon]). right. exists c. split; [reflexivity|exact Hc].
    - exfalso. rewrite <- Hrn in Hl. destruct Hl as [Hz|(c' & Hz & Hc')]; [cbn in Hz; discriminate|]. assert (Hh : host_root (preferred (c :: c :: w)) = true).
      { rewrite host_preferred. unfold host_root. cbn. rewrite Hc. reflexivity. }
      rewrite Hz in Hh. rewrite (no_host c' Hc') in Hh. discriminate. }
  assert (Hun : u <> []).
  { intros Hz. apply nil_parts in Hz; [|exact Hok]. destruct Hz as (Z1 & Z2 & Z3). subst rn. apply Hne. rewrite Z1, Z2, Z3. unfold tr. rewrite Z3, andb_false_r. reflexivity. }
  assert (Hnd : Forall no_drive (wnames rest)).
  { eapply Forall_impl; [|exact Hp]. intros [|c1 [|c2 m]] (_ & _ & Hc); try exact Logic.I. cbn. intros ->. apply Hc. right. left. reflexivity. }
  assert (Hst1 : safe t) by (unfold safe; rewrite Hr; auto). assert (Hst2 : safe u) by (unfold safe; rewrite Hr', Hn'; auto).
  destruct (normal_text_windows E t Ht Hst1) as (q1 & Q1 & Q2 & _). destruct (normal_text_windows E u Hun Hst2) as (q2 & R1 & R2 & _). rewrite R1 in H0. cbn [wlift] in H0.
  exists (fin Windows (el_other E) q2), q1. split; [rewrite H0; reflexivity|]. split; [exact Q1|].
  assert (Heq : wnormal u = wnormal t).
  { eapply (wnormal_same u t rn rest' rest); [exact Hr'|rewrite Hr, Hr0; reflexivity|congruence|congruence|]. intros Hne'. rewrite Hn' in Hne'. rewrite (He' Hne'). unfold tr. destruct (wnames rest); [congruence|]. apply andb_true_r. }
  rewrite Q2, <- Heq, <- R2. unfold fin. destruct (el_other E); [reflexivity|]. unfold native in R2. unfold native at 2. rewrite R2. unfold wnormal. rewrite Hr'. cbn [fst snd].
  destruct (wstk_facts u rn rest' Hun Hr' Hst2) as (Hok' & _). apply wfinal_native. exact Hok'.
Qed.

(** A prefix that exists but cannot be made canonical, or a next element that cannot be examined: an empty path, and no error. *)
Theorem C85_prefix_error_refuted : forall dbg E S (h : wkernel S) ans t drive rooted pre x post n has s,
  steady h ans -> made_of t drive rooted (pre ++ x :: post) -> absent dbg ans (native (wpath t)) ->
  Forall (present dbg ans) (roots drive rooted) -> (forall u v, pre = u ++ v -> u <> [] -> present dbg ans (upto drive rooted u)) ->
  (exists e, e <> 0 /\ unclear dbg ans (upto drive rooted (pre ++ [x])) e) \/
  (upto drive rooted pre <> [] /\ absent dbg ans (upto drive rooted (pre ++ [x])) /\
   exists q e, wrun h (wcanonical dbg E n true (wpath (upto drive rooted pre))) s = (WE (WRet q e), s) /\ e <> 0) ->
  exists q, wrun h (wweakly_canonical dbg E n has (wpath t)) s = (WE (WRet q 0), s) /\ native q = [].
Proof.
  intros dbg E S h ans t drive rooted pre x post n has s Hst Hm Ha Hr Hpre Hbad.
  destruct (weak_stop dbg E S h ans t drive rooted pre x post n has s Hst Hm Ha Hr Hpre) as (e & ret & ls & tr & H0 & HR & Hpp & Hret & Hls & Hpls & Htr).
  pose proof Hm as (Hl & _). cbn [map] in H0.
  assert (Hclear : forall p : path, native (fin Windows (el_other E) (clear Windows p)) = []) by (intros p; unfold fin, clear; destruct (el_other E); reflexivity).
  destruct Hbad as [(c & Hc & Hun)|(Hne & Habs & q & c & Hrun & Hc)].
  - rewrite (step_unclear dbg E h ans Hst _ (finish dbg E n) (fpath x) (map fpath post) ret e (upto drive rooted (pre ++ [x])) s c) in H0;
      [|apply append_piece; assumption|eapply piece_native; eassumption|exact Hun].
    cbn [finish] in H0. apply N.eqb_neq in Hc. rewrite Hc in H0. cbn [andb wbind wret] in H0. rewrite Hc in H0. cbn [negb] in H0.
    eexists. split; [rewrite H0; reflexivity|]. apply Hclear.
  - rewrite (step_absent dbg E h ans Hst _ (finish dbg E n) (fpath x) (map fpath post) ret e (upto drive rooted (pre ++ [x])) s) in H0;
      [|apply append_piece; assumption|eapply piece_native; eassumption|exact Habs].
    assert (Hret' : ret = wpath (upto drive rooted pre)) by (rewrite Hret; destruct (upto drive rooted pre); [congruence|reflexivity]).
    assert (Hem : empty ret = false).
    { unfold empty. rewrite (Rep_pathname drive rooted pre false ret); [|apply local_ok; assumption|exact HR]. rewrite <- upto_ctext. destruct (upto drive rooted pre); [congruence|reflexivity]. }
    cbn [finish] in H0. change (0 =? 0) with true in H0. rewrite Hem in H0. cbn [andb negb] in H0. rewrite Hret' in H0.
    rewrite (bound_end _ _ _ h _ _ s _ _ _ Hrun) in H0. apply N.eqb_neq in Hc. rewrite Hc in H0. cbn [negb] in H0.
    eexists. split; [rewrite H0; reflexivity|]. apply Hclear.
Qed.

(** * Theorems: relative and proximate *)

(** One execution of weakly_canonical for [p], then one for [base], then the lexical operation on the two results. An error of either is
    the error of the whole, with an empty path. *)
Inductive wrelative_run {S} (h : wkernel S) (canonical_of : path -> wprog path) (rel : path -> path -> out path) (p base : path) (s : S) : path -> N -> S -> Prop :=
| wr_ok a b r s1 s2 :
    wrun h (canonical_of p) s = (WE (WRet a 0), s1) -> wrun h (canonical_of base) s1 = (WE (WRet b 0), s2) -> rel a b = Ok r ->
    wrelative_run h canonical_of rel p base s r 0 s2
| wr_first a e s1 :
    wrun h (canonical_of p) s = (WE (WRet a e), s1) -> e <> 0 -> wrelative_run h canonical_of rel p base s path_default e s1
| wr_second a b e s1 s2 :
    wrun h (canonical_of p) s = (WE (WRet a 0), s1) -> wrun h (canonical_of base) s1 = (WE (WRet b e), s2) -> e <> 0 ->
    wrelative_run h canonical_of rel p base s path_default e s2.

Lemma wrun_bound : forall A B S (h : wkernel S) (p : wprog A) (f : A -> N -> wprog B) s r e s', wrun h (wbind p f) s = (WE (WRet r e), s') ->
  exists v c s1, wrun h p s = (WE (WRet v c), s1) /\ wrun h (f v c) s1 = (WE (WRet r e), s').
Proof.
  intros A B S h p f. induction p as [w|c k IH]; intros s r e s' H; cbn [wbind wrun] in *.
  - destruct w as [[v c|c|]| | |]; try discriminate. exists v, c, s. split; [reflexivity|exact H].
  - destruct (h c s) as [a s1]. exact (IH a s1 r e s' H).
Qed.

Lemma wrelative_with_run : forall dbg E rel S (h : wkernel S) n has s p base r e s',
  wrun h (wrelative_with dbg E rel n has p base) s = (WE (WRet r e), s') <-> wrelative_run h (wweakly_canonical dbg E n has) rel p base s r e s'.
Proof.
  intros dbg E rel S h n has s p base r e s'. unfold wrelative_with. split.
  - intros H. apply wrun_bound in H. destruct H as (a & c & s1 & Ha & H). destruct (N.eqb_spec c 0) as [Hc|Hc]; cbn [negb] in H.
    + subst c. apply wrun_bound in H. destruct H as (b & c & s2 & Hb & H). destruct (N.eqb_spec c 0) as [Hc|Hc]; cbn [negb] in H.
      * subst c. destruct (rel a b) eqn:Hr; cbn [wlift wret wrun] in H; try discriminate. injection H as <- <- <-. eapply wr_ok; eassumption.
      * cbn [wret wrun] in H. injection H as <- <- <-. eapply wr_second; eassumption.
    + cbn [wret wrun] in H. injection H as <- <- <-. eapply wr_first; eassumption.
  - intros H. destruct H as [a b r s1 s2 Ha Hb Hr|a c s1 Ha Hc|a b c s1 s2 Ha Hb Hc]; rewrite (bound_end _ _ _ h _ _ _ _ _ _ Ha).
    + cbn. rewrite (bound_end _ _ _ h _ _ _ _ _ _ Hb). cbn. rewrite Hr. reflexivity.
    + apply N.eqb_neq in Hc. rewrite Hc. reflexivity.
    + cbn. rewrite (bound_end _ _ _ h _ _ _ _ _ _ Hb). apply N.eqb_neq in Hc. rewrite Hc. reflexivity.
Qed.

(** What relative and proximate return, on any system. Every error of weakly_canonical is reported, but see [C85_prefix_error_refuted] for
    the ones it does not report. *)
Theorem C85_relative_runs : forall dbg E S (h : wkernel S) n has s p base r e s',
  (wrun h (wrelative dbg E n has p base) s = (WE (WRet r e), s') <->
   wrelative_run h (wweakly_canonical dbg E n has) (lexically_relative Windows E) p base s r e s') /\
  (wrun h (wproximate dbg E n has p base) s = (WE (WRet r e), s') <->
   wrelative_run h (wweakly_canonical dbg E n has) (lexically_proximate Windows E) p base s r e s').
Proof. intros. split; apply wrelative_with_run. Qed.

Lemma same_text : forall x : str, str_eqb x x = true.
Proof. intros x. apply str_eqb_spec. reflexivity. Qed.

Lemma strip_both : forall c u v, (forall x, hd_error u = Some x -> hd_error v = Some x -> False) -> strip_common (c ++ u) (c ++ v) = (u, v).
Proof.
  induction c as [|x c IH]; intros u v H; cbn [app strip_common].
  - destruct u as [|x u]; [destruct v; reflexivity|]. destruct v as [|y v]; [reflexivity|]. cbn [strip_common]. destruct (str_eqb x y) eqn:K; [|reflexivity].
    apply str_eqb_spec in K. subst y. exfalso. apply (H x); reflexivity.
  - rewrite same_text. apply IH. exact H.
Qed.

Lemma upcount_all : forall l k, forallb plain l = true -> fold_left (fun n x => if str_eqb x (lit "..") then (n - 1)%Z else if str_eqb x (lit ".") then n else (n + 1)%Z) l k = (k + Z.of_nat (length l))%Z.
Proof.
  induction l as [|x l IH]; intros k H; cbn [fold_left length]; [lia|]. cbn [forallb] in H. apply andb_true_iff in H. destruct H as [Hx Hl]. unfold plain in Hx.
  destruct (str_eqb x (lit "..")); [rewrite andb_false_r in Hx; discriminate|]. destruct (str_eqb x (lit ".")); [cbn in Hx; rewrite ?andb_false_r in Hx; discriminate|].
  rewrite IH by exact Hl. lia.
Qed.

Lemma relative_places : forall E b c u v, is_wsep b = false -> Forall proper (c ++ u) -> Forall proper (c ++ v) -> forallb plain (c ++ v) = true ->
  (forall x, hd_error u = Some x -> hd_error v = Some x -> False) -> exists r q,
  lexically_relative Windows E (dpath b (c ++ u)) (dpath b (c ++ v)) = Ok r /\ lexically_proximate Windows E (dpath b (c ++ u)) (dpath b (c ++ v)) = Ok q /\ native q = native r /\
  native r = (if is_nil u && is_nil v then lit "." else wjoin (repeat (lit "..") (length v) ++ u)).
Proof.
  intros E b c u v Hb Hu Hv Hpl Hd. set (s := wtext b (c ++ u)). set (t := wtext b (c ++ v)).
  assert (Es : win_elements no_wsep s = [b; colon] :: [backslash] :: c ++ u).
  { unfold s. rewrite wtext_ctext, ctext_elements by (apply drive_ok; [exact Hb|apply propers_wnames; exact Hu]). unfold parts_elements. cbn [is_nil app andb]. rewrite app_nil_r. reflexivity. }
  assert (Et : win_elements no_wsep t = [b; colon] :: [backslash] :: c ++ v).
  { unfold t. rewrite wtext_ctext, ctext_elements by (apply drive_ok; [exact Hb|apply propers_wnames; exact Hv]). unfold parts_elements. cbn [is_nil app andb]. rewrite app_nil_r. reflexivity. }
  assert (Hstrip : strip_common (win_elements no_wsep s) (win_elements no_wsep t) = (u, v)).
  { rewrite Es, Et. exact (strip_both ([b; colon] :: [backslash] :: c) u v Hd). }
  assert (Hlo : WinRelative.left_of s t = u) by (unfold WinRelative.left_of; rewrite Hstrip; reflexivity).
  assert (Hlb : WinRelative.left_of_base s t = v) by (unfold WinRelative.left_of_base; rewrite Hstrip; reflexivity).
  assert (Hf : WinRelative.first_no_drive s t).
  { right. rewrite Hlo. destruct u as [|x u]; [discriminate|]. cbn [hd]. apply Forall_app in Hu. destruct Hu as [_ Hu]. apply Forall_inv in Hu. destruct Hu as (_ & _ & Hx).
    intros K. apply Hx. eapply nth_error_In. exact K. }
  destruct (WinRelative.C78_text_partial E s t Hf) as (r & Hr & Hn). destruct (WinRelative.C78_always_a_result E s t) as (q & r' & Hr' & Hq & Hnq). rewrite Hr in Hr'. injection Hr' as <-.
  exists r, q. split; [exact Hr|]. split; [exact Hq|].
  assert (Hroots : forall l, Forall proper l -> split_root no_wsep (wtext b l) = ([b; colon], backslash :: wjoin l)) by (intros l Hl; apply wtext_split; exact Hb).
  assert (Hpv : forallb plain v = true) by (rewrite forallb_app in Hpl; apply andb_true_iff in Hpl; apply Hpl).
  assert (Hpu : Forall proper u) by (apply Forall_app in Hu; apply Hu).
  assert (Hup : upcount v = Z.of_nat (length v)) by (unfold upcount; rewrite upcount_all by exact Hpv; reflexivity).
  assert (Htext : native r = (if is_nil u && is_nil v then lit "." else wjoin (repeat (lit "..") (length v) ++ u))).
  { rewrite Hn. unfold WinRelative.wrelative_text. cbv zeta. rewrite Hlo, Hlb.
    assert (G : negb (str_eqb (wroot s) (wroot t)) || negb (Bool.eqb (WinRelative.wabsolute s) (WinRelative.wabsolute t)) || negb (wrooted s) && wrooted t = false).
    { unfold WinRelative.wabsolute, wroot, wrooted, wrest. unfold s, t. rewrite (Hroots _ Hu), (Hroots _ Hv). cbn [fst snd]. rewrite same_text. cbn. rewrite Bool.eqb_reflx. reflexivity. }
    rewrite G. destruct (is_nil u && is_nil v) eqn:Hz; [reflexivity|]. rewrite Hup. destruct (Z.ltb_spec (Z.of_nat (length v)) 0) as [|_]; [lia|]. rewrite Nat2Z.id.
    assert (F1 : filter WinRelative.is_name u = u /\ existsb (str_eqb [backslash]) u = false /\ existsb is_nil u = false).
    { clear -Hpu. induction Hpu as [|x u (H1 & H2 & H3) HF (I1 & I2 & I3)]; [repeat split|]. cbn [filter existsb]. unfold WinRelative.is_name at 1. destruct x as [|a x]; [congruence|]. cbn [is_nil negb andb].
      assert (K : str_eqb (a :: x) [backslash] = false). { destruct (str_eqb (a :: x) [backslash]) eqn:K; [|reflexivity]. apply str_eqb_spec in K. rewrite K in H2. discriminate. }
      assert (K' : str_eqb [backslash] (a :: x) = false). { destruct (str_eqb [backslash] (a :: x)) eqn:X; [|reflexivity]. apply str_eqb_spec in X. rewrite <- X in H2. discriminate. }
      rewrite K, K'. cbn [negb orb]. rewrite I1, I2, I3. repeat split. }
    destruct F1 as (F1 & F2 & F3). rewrite F1, F2, F3. cbn [app andb]. rewrite app_nil_r. reflexivity. }
  split; [|exact Htext]. rewrite Hnq. destruct (native r) eqn:Hz; [|reflexivity]. exfalso. destruct (is_nil u && is_nil v) eqn:Hb2; [discriminate|].
  assert (HF : Forall wname (repeat (lit "..") (length v) ++ u)).
  { apply Forall_app. split; [|apply propers_wnames; exact Hpu]. clear. induction v as [|x v IH]; cbn [length repeat]; constructor; [apply wname_dots|exact IH]. }
  pose proof (wjoin_nil _ HF (eq_sym Htext)) as Hy. apply app_eq_nil in Hy. destruct Hy as [Hy1 Hy2]. rewrite Hy2 in Hb2. destruct v; discriminate.
Qed.

(** Two paths that exist, leading to the places [c]\[u] and [c]\[v] of one drive, where [u] and [v] do not begin alike: ".." for each name of
    [v], then [u]. *)
Theorem C85_relative_partial : forall dbg E S (h : wkernel S) ans T cwd t1 a1 steps1 k1 t2 a2 steps2 k2 b c u v has s,
  steady h ans -> WinCanon.shows ans T -> WinCanon.usual T -> ans w_CurrentDirectory = inr cwd ->
  native (wpath t1) <> [] -> present dbg ans (native (wpath t1)) -> native (wpath t2) <> [] -> present dbg ans (native (wpath t2)) ->
  WinCanon.begins cwd t1 = Some (a1, steps1) -> WinCanon.walk T a1 [] steps1 b (c ++ u) k1 -> (k1 < 40)%nat -> T b (c ++ u) <> None ->
  WinCanon.begins cwd t2 = Some (a2, steps2) -> WinCanon.walk T a2 [] steps2 b (c ++ v) k2 -> (k2 < 40)%nat -> T b (c ++ v) <> None ->
  (forall x, hd_error u = Some x -> hd_error v = Some x -> False) ->
  exists n0, forall n, (n0 <= n)%nat -> exists r q,
    wrun h (wrelative dbg E n has (wpath t1) (wpath t2)) s = (WE (WRet r 0), s) /\
    wrun h (wproximate dbg E n has (wpath t1) (wpath t2)) s = (WE (WRet q 0), s) /\ native q = native r /\
    native r = (if is_nil u && is_nil v then lit "." else wjoin (repeat (lit "..") (length v) ++ u)).
Proof.
  intros dbg E S h ans T cwd t1 a1 steps1 k1 t2 a2 steps2 k2 b c u v has s Hst Hsh Hus Hcwd Hn1 Hp1 Hn2 Hp2 Hb1 Hw1 Hk1 HT1 Hb2 Hw2 Hk2 HT2 Hd.
  destruct (WinCanon.canonical_complete_path dbg E S h ans Hst T Hsh Hus cwd Hcwd t1 a1 steps1 s has b (c ++ u) k1 Hb1 Hw1 Hk1 HT1) as (m1 & H1).
  destruct (WinCanon.canonical_complete_path dbg E S h ans Hst T Hsh Hus cwd Hcwd t2 a2 steps2 s has b (c ++ v) k2 Hb2 Hw2 Hk2 HT2) as (m2 & H2).
  exists (m1 + m2)%nat. intros n Hn. assert (L1 : (m1 <= n)%nat) by lia. assert (L2 : (m2 <= n)%nat) by lia. destruct (H1 n L1) as (R1 & X1). destruct (H2 n L2) as (R2 & X2).
  destruct (C85_direct_partial dbg E S h ans n has (wpath t1) s Hst) as (_ & D1 & _). specialize (D1 Hn1 Hp1). rewrite X1 in D1.
  destruct (C85_direct_partial dbg E S h ans n has (wpath t2) s Hst) as (_ & D2 & _). specialize (D2 Hn2 Hp2). rewrite X2 in D2.
  destruct (relative_places E b c u v (proj1 R1) (WinCanon.real_proper _ _ _ R1) (WinCanon.real_proper _ _ _ R2) (plain_of_real _ _ _ R2) Hd) as (r & q & Hr & Hq & Hqr & Ht).
  exists r, q. split; [apply wrelative_with_run; eapply wr_ok; eassumption|]. split; [apply wrelative_with_run; eapply wr_ok; eassumption|]. split; assumption.
Qed.

(** Places on drives with different letters: an empty path and no error from relative, the canonical path itself from proximate.
    Letters that differ in case only count as different, although Windows takes them for the same drive. *)
Theorem C85_relative_drives_refuted : forall dbg E S (h : wkernel S) ans T cwd t1 a1 steps1 k1 t2 a2 steps2 k2 b ms b' ms' has s,
  steady h ans -> WinCanon.shows ans T -> WinCanon.usual T -> ans w_CurrentDirectory = inr cwd ->
  native (wpath t1) <> [] -> present dbg ans (native (wpath t1)) -> native (wpath t2) <> [] -> present dbg ans (native (wpath t2)) ->
  WinCanon.begins cwd t1 = Some (a1, steps1) -> WinCanon.walk T a1 [] steps1 b ms k1 -> (k1 < 40)%nat -> T b ms <> None ->
  WinCanon.begins cwd t2 = Some (a2, steps2) -> WinCanon.walk T a2 [] steps2 b' ms' k2 -> (k2 < 40)%nat -> T b' ms' <> None ->
  b <> b' ->
  exists n0, forall n, (n0 <= n)%nat -> exists r q,
    wrun h (wrelative dbg E n has (wpath t1) (wpath t2)) s = (WE (WRet r 0), s) /\ native r = [] /\
    wrun h (wproximate dbg E n has (wpath t1) (wpath t2)) s = (WE (WRet q 0), s) /\ native q = wtext b ms.
Proof.
  intros dbg E S h ans T cwd t1 a1 steps1 k1 t2 a2 steps2 k2 b ms b' ms' has s Hst Hsh Hus Hcwd Hn1 Hp1 Hn2 Hp2 Hb1 Hw1 Hk1 HT1 Hb2 Hw2 Hk2 HT2 Hd.
  destruct (WinCanon.canonical_complete_path dbg E S h ans Hst T Hsh Hus cwd Hcwd t1 a1 steps1 s has b ms k1 Hb1 Hw1 Hk1 HT1) as (m1 & H1).
  destruct (WinCanon.canonical_complete_path dbg E S h ans Hst T Hsh Hus cwd Hcwd t2 a2 steps2 s has b' ms' k2 Hb2 Hw2 Hk2 HT2) as (m2 & H2).
  exists (m1 + m2)%nat. intros n Hn. assert (L1 : (m1 <= n)%nat) by lia. assert (L2 : (m2 <= n)%nat) by lia. destruct (H1 n L1) as (R1 & X1). destruct (H2 n L2) as (R2 & X2).
  destruct (C85_direct_partial dbg E S h ans n has (wpath t1) s Hst) as (_ & D1 & _). specialize (D1 Hn1 Hp1). rewrite X1 in D1.
  destruct (C85_direct_partial dbg E S h ans n has (wpath t2) s Hst) as (_ & D2 & _). specialize (D2 Hn2 Hp2). rewrite X2 in D2.
  assert (Hne : wroot (wtext b ms) <> wroot (wtext b' ms')).
  { unfold wroot. rewrite (wtext_split b ms (proj1 R1)), (wtext_split b' ms' (proj1 R2)). cbn [fst].
    destruct (local_split [b; colon]) as (_ & P1 & _); [right; exists b; split; [reflexivity|exact (proj1 R1)]|]. destruct (local_split [b'; colon]) as (_ & P2 & _); [right; exists b'; split; [reflexivity|exact (proj1 R2)]|].
    rewrite P1, P2. congruence. }
  destruct (WinRelative.C78_unrelated E (wtext b ms) (wtext b' ms') (or_introl Hne)) as (r & Hr & Hz).
  destruct (WinRelative.C78_always_a_result E (wtext b ms) (wtext b' ms')) as (q & r' & Hr' & Hq & Hnq). rewrite Hr in Hr'. injection Hr' as <-. rewrite Hz in Hnq. cbn [is_nil] in Hnq.
  exists r, q. split; [apply wrelative_with_run; eapply wr_ok; eassumption|]. split; [exact Hz|]. split; [apply wrelative_with_run; eapply wr_ok; eassumption|].
  rewrite Hnq. apply dpath_native; [exact (proj1 R1)|apply propers_wnames; exact (WinCanon.real_proper _ _ _ R1)].
Qed.

(** relative(p, ec) and proximate(p, ec) throw when the current directory cannot be found. *)
Theorem C85_current_directory_refuted : forall dbg E S (h : wkernel S) ans n p e s, steady h ans -> ans w_CurrentDirectory = inl e -> e <> 0 ->
  wrun h (wrelative_cwd dbg E n true p) s = (WE (WThrow e), s) /\ wrun h (wproximate_cwd dbg E n true p) s = (WE (WThrow e), s).
Proof.
  intros dbg E S h ans n p e s Hst Hc He.
  assert (G : forall f, wrun h (wbind (wcurrent_path dbg false) f) s = (@WE path (WThrow e), s)).
  { intros f. unfold wcurrent_path. cbn [wbind wrun]. rewrite (Hst w_CurrentDirectory s eq_refl), Hc. cbn [wbind]. unfold wfail, wcapture, wreport. apply N.eqb_neq in He. rewrite He, andb_false_r. reflexivity. }
  split; apply G.
Qed.

(** * Cases *)

Import WinCanon WinCanonProps.

(** The system of WinCanonProps.v with its answers for some texts replaced. *)
Definition patched (l : list (str * winfo)) (T : world) (cwd : str) (c : wcall) : wanswer c :=
  match c return wanswer c with
  | w_Info p => match find (fun x => str_eqb (fst x) p) l with Some x => snd x | None => shown T cwd (w_Info p) end
  | c' => shown T cwd c'
  end.
Definition stays (l : list (str * winfo)) (T : world) (cwd : str) : wkernel unit := fun c s => (patched l T cwd c, s).
Definition a_folder : winfo := WInfo (inr 16) (inr tt) (inr 16) (inr tt) (inl 4390) plain_security.
Definition hidden : winfo := WInfo (inl 5) (inl 5) (inl 5) (inl 5) (inl 5) plain_security.

Lemma stays_steady : forall l T cwd, steady (stays l T cwd) (patched l T cwd).
Proof. intros l T cwd c s _. reflexivity. Qed.

Lemma patched_shows : forall l T cwd, Forall (fun x => forall a ns, is_wsep a = false -> Forall proper ns -> fst x = wtext a ns -> T a ns = None /\ snd x = hidden) l -> shows (patched l T cwd) T.
Proof.
  intros l T cwd Hl a ns Ha Hp. cbv zeta. cbn [patched]. destruct (find (fun x => str_eqb (fst x) (wtext a ns)) l) as [x|] eqn:Hf.
  - apply find_some in Hf. destruct Hf as [Hin Hx]. apply str_eqb_spec in Hx. rewrite Forall_forall in Hl. destruct (Hl x Hin a ns Ha Hp Hx) as [-> ->]. exists 5. repeat split; discriminate.
  - exact (shown_shows T cwd a ns Ha Hp).
Qed.

Definition drive_there : list (str * winfo) := [(lit "C:", a_folder); (lit "c:", a_folder)].

Lemma drive_shows : forall T cwd, shows (patched drive_there T cwd) T.
Proof.
  intros T cwd. apply patched_shows. unfold drive_there. apply Forall_cons; [|apply Forall_cons; [|constructor]]; intros a ns _ _ H; discriminate H.
Qed.

Lemma walk_l : walk small Cd [] [lit "l"] Cd [lit "d"] 1.
Proof.
  eapply walk_link with (t := lit "d"); [discriminate|discriminate|reflexivity|reflexivity|]. apply walk_down; [discriminate|discriminate|left; reflexivity|apply walk_done].
Qed.

(** C:/l\x\..\y\. where C:\l is a link to C:\d, and C:\l\x does not exist: C:\d\y\. *)
Example C85_prefix_example : forall E, let ans := patched drive_there small (lit "C:\") in let t := lit "C:/l\x\..\y\." in
  made_of t (lit "C:") true ([lit "l"] ++ lit "x" :: [lit ".."; lit "y"; lit "."]) /\ absent true ans (native (wpath t)) /\
  Forall (present true ans) (roots (lit "C:") true) /\ (forall u v, [lit "l"] = u ++ v -> u <> [] -> present true ans (upto (lit "C:") true u)) /\
  absent true ans (upto (lit "C:") true ([lit "l"] ++ [lit "x"])) /\
  begins (lit "C:\") (upto (lit "C:") true [lit "l"]) = Some (Cd, [lit "l"]) /\ walk small Cd [] [lit "l"] Cd [lit "d"] 1 /\ small Cd [lit "d"] <> None /\
  exists q, wrun (stays drive_there small (lit "C:\")) (wweakly_canonical true E 100 true (wpath t)) tt = (WE (WRet q 0), tt) /\ native q = lit "C:\d\y\".
Proof.
  intros E ans t. split.
  { split; [right; exists Cd; split; reflexivity|]. split; [reflexivity|]. split; [reflexivity|]. split; [|reflexivity]. vm_compute. repeat (apply Forall_cons; [split; [discriminate|split; [reflexivity|]]; intros K; cbn in K; intuition discriminate|]). constructor. }
  split; [eexists; eexists; vm_compute; reflexivity|].
  assert (Hroots : Forall (present true ans) (roots (lit "C:") true)).
  { apply Forall_cons; [|apply Forall_cons; [|constructor]]; (eexists; eexists; eexists; split; [vm_compute; reflexivity|split; discriminate]). }
  split; [exact Hroots|]. split.
  { intros u v Hu Hne. destruct u as [|y [|z u]]; [congruence| |discriminate]. cbn in Hu. injection Hu as <- _. eexists. eexists. eexists. split; [vm_compute; reflexivity|split; discriminate]. }
  split; [eexists; eexists; vm_compute; reflexivity|]. split; [reflexivity|]. split; [exact walk_l|]. split; [discriminate|].
  destruct E as [[] [] []]; eexists; (split; [vm_compute; reflexivity|reflexivity]).
Qed.

(** q/../r/ where q does not exist: r\. *)
Example C85_nothing_example : forall E, let ans := patched drive_there small (lit "C:\") in let t := lit "q/../r/" in
  made_of t [] false [lit "q"; lit ".."; lit "r"; []] /\ absent true ans (native (wpath t)) /\
  (forall u, hd_error (roots [] false ++ map (fun x => upto [] false [x]) [lit "q"; lit ".."; lit "r"; []]) = Some u -> absent true ans u) /\
  exists q, wrun (stays drive_there small (lit "C:\")) (wweakly_canonical true E 100 true (wpath t)) tt = (WE (WRet q 0), tt) /\ native q = lit "r\".
Proof.
  intros E ans t. split.
  { split; [left; reflexivity|]. split; [reflexivity|]. split; [reflexivity|]. split; [|reflexivity]. vm_compute. repeat (apply Forall_cons; [split; [discriminate|split; [reflexivity|]]; intros K; cbn in K; intuition discriminate|]). constructor. }
  split; [eexists; eexists; vm_compute; reflexivity|]. split.
  { intros u Hu. cbn in Hu. injection Hu as <-. eexists. eexists. vm_compute. reflexivity. }
  destruct E as [[] [] []]; eexists; (split; [vm_compute; reflexivity|reflexivity]).
Qed.

(** C:\d\x\y where C:\d\x is hidden, and C:\z\x where C:\z is a link to itself. *)
Definition with_hidden : list (str * winfo) := (lit "C:\d\x", hidden) :: drive_there.
Example C85_prefix_error_example : forall E,
  let ans := patched with_hidden small (lit "C:\") in
  (made_of (lit "C:\d\x\y") (lit "C:") true ([lit "d"] ++ lit "x" :: [lit "y"]) /\ absent true ans (native (wpath (lit "C:\d\x\y"))) /\
   Forall (present true ans) (roots (lit "C:") true) /\ present true ans (upto (lit "C:") true [lit "d"]) /\
   unclear true ans (upto (lit "C:") true ([lit "d"] ++ [lit "x"])) 13 /\
   exists q, wrun (stays with_hidden small (lit "C:\")) (wweakly_canonical true E 100 true (wpath (lit "C:\d\x\y"))) tt = (WE (WRet q 0), tt) /\ native q = []) /\
  (made_of (lit "C:\z\x") (lit "C:") true ([lit "z"] ++ lit "x" :: []) /\ absent true ans (native (wpath (lit "C:\z\x"))) /\
   present true ans (upto (lit "C:") true [lit "z"]) /\ absent true ans (upto (lit "C:") true ([lit "z"] ++ [lit "x"])) /\
   (exists q, wrun (stays with_hidden small (lit "C:\")) (wcanonical true E 100 true (wpath (upto (lit "C:") true [lit "z"]))) tt = (WE (WRet q 114), tt)) /\
   exists q, wrun (stays with_hidden small (lit "C:\")) (wweakly_canonical true E 100 true (wpath (lit "C:\z\x"))) tt = (WE (WRet q 0), tt) /\ native q = []).
Proof.
  intros E ans. split.
  - split. { split; [right; exists Cd; split; reflexivity|]. split; [reflexivity|]. split; [reflexivity|]. split; [|reflexivity]. vm_compute. repeat (apply Forall_cons; [split; [discriminate|split; [reflexivity|]]; intros K; cbn in K; intuition discriminate|]). constructor. }
    split; [eexists; eexists; vm_compute; reflexivity|].
    split. { apply Forall_cons; [|apply Forall_cons; [|constructor]]; (eexists; eexists; eexists; split; [vm_compute; reflexivity|split; discriminate]). }
    split. { eexists. eexists. eexists. split; [vm_compute; reflexivity|split; discriminate]. }
    split; [eexists; vm_compute; reflexivity|]. destruct E as [[] [] []]; eexists; (split; [vm_compute; reflexivity|reflexivity]).
  - split. { split; [right; exists Cd; split; reflexivity|]. split; [reflexivity|]. split; [reflexivity|]. split; [|reflexivity]. vm_compute. repeat (apply Forall_cons; [split; [discriminate|split; [reflexivity|]]; intros K; cbn in K; intuition discriminate|]). constructor. }
    split; [eexists; eexists; vm_compute; reflexivity|].
    split. { eexists. eexists. eexists. split; [vm_compute; reflexivity|split; discriminate]. }
    split; [eexists; eexists; vm_compute; reflexivity|]. split; [destruct E as [[] [] []]; eexists; vm_compute; reflexivity|].
    destruct E as [[] [] []]; eexists; (split; [vm_compute; reflexivity|reflexivity]).
Qed.

(** A path that exists, one that cannot be examined, and the empty path. *)
Example C85_direct_example : forall E, let ans := patched with_hidden small (lit "C:\") in
  present true ans (native (wpath (lit "C:/l"))) /\ unclear true ans (native (wpath (lit "C:\d\x"))) 13 /\
  (exists q, wrun (stays with_hidden small (lit "C:\")) (wweakly_canonical true E 100 true (wpath (lit "C:/l"))) tt = (WE (WRet q 0), tt) /\ native q = lit "C:\d") /\
  wrun (stays with_hidden small (lit "C:\")) (wweakly_canonical true E 100 false (wpath (lit "C:\d\x"))) tt = (WE (WThrow 13), tt).
Proof.
  intros E ans. split. { eexists. eexists. eexists. split; [vm_compute; reflexivity|split; discriminate]. }
  split; [eexists; vm_compute; reflexivity|]. split; [|destruct E as [[] [] []]; vm_compute; reflexivity].
  destruct E as [[] [] []]; eexists; (split; [vm_compute; reflexivity|reflexivity]).
Qed.

(** From C:\f to C:\l, a link to C:\d: ..\d. *)
Example C85_relative_example : forall E, let ans := patched drive_there small (lit "C:\") in
  present true ans (native (wpath (lit "C:\l"))) /\ present true ans (native (wpath (lit "C:/f"))) /\
  begins (lit "C:\") (lit "C:\l") = Some (Cd, [lit "l"]) /\ walk small Cd [] [lit "l"] Cd ([] ++ [lit "d"]) 1 /\
  begins (lit "C:\") (lit "C:/f") = Some (Cd, [lit "f"]) /\ walk small Cd [] [lit "f"] Cd ([] ++ [lit "f"]) 0 /\
  (exists r, wrun (stays drive_there small (lit "C:\")) (wrelative true E 100 true (wpath (lit "C:\l")) (wpath (lit "C:/f"))) tt = (WE (WRet r 0), tt) /\ native r = lit "..\d") /\
  exists r, wrelative_run (stays drive_there small (lit "C:\")) (wweakly_canonical true E 100 true) (lexically_relative Windows E) (wpath (lit "C:\l")) (wpath (lit "C:/f")) tt r 0 tt.
Proof.
  intros E ans. split. { eexists. eexists. eexists. split; [vm_compute; reflexivity|split; discriminate]. }
  split. { eexists. eexists. eexists. split; [vm_compute; reflexivity|split; discriminate]. }
  split; [reflexivity|]. split; [exact walk_l|]. split; [reflexivity|]. split; [apply walk_down; [discriminate|discriminate|right; reflexivity|apply walk_done]|].
  assert (H : exists r, wrun (stays drive_there small (lit "C:\")) (wrelative true E 100 true (wpath (lit "C:\l")) (wpath (lit "C:/f"))) tt = (WE (WRet r 0), tt) /\ native r = lit "..\d").
  { destruct E as [[] [] []]; eexists; (split; [vm_compute; reflexivity|reflexivity]). }
  split; [exact H|]. destruct H as (r & H & _). exists r. apply C85_relative_runs. exact H.
Qed.

(** The same disk under both letters. *)
Definition either_case : world := fun a ns => small (if Ascii.eqb a "c" then Cd else a) ns.
Example C85_relative_drives_example : forall E, let ans := patched drive_there either_case (lit "C:\") in
  usual either_case /\ present true ans (native (wpath (lit "C:\d"))) /\ present true ans (native (wpath (lit "c:\d"))) /\
  (exists r, wrun (stays drive_there either_case (lit "C:\")) (wrelative true E 100 true (wpath (lit "C:\d")) (wpath (lit "c:\d"))) tt = (WE (WRet r 0), tt) /\ native r = []) /\
  exists q, wrun (stays drive_there either_case (lit "C:\")) (wproximate true E 100 true (wpath (lit "C:\d")) (wpath (lit "c:\d"))) tt = (WE (WRet q 0), tt) /\ native q = lit "C:\d".
Proof.
  intros E ans. split.
  { split; intros; unfold either_case in *; [apply (proj1 small_usual)|]. assert (G : goes_to (if Ascii.eqb a "c" then Cd else a) [] t <> None) by (eapply (proj2 small_usual); eassumption).
    unfold goes_to in *. destruct (full t) as [[x y]|]; [discriminate|]. destruct (_ && _); [discriminate|exact G]. }
  split. { eexists. eexists. eexists. split; [vm_compute; reflexivity|split; discriminate]. }
  split. { eexists. eexists. eexists. split; [vm_compute; reflexivity|split; discriminate]. }
  destruct E as [[] [] []]; (split; eexists; (split; [vm_compute; reflexivity|reflexivity])).
Qed.

Example C85_current_directory_example : forall E, wrun (fun c s => (match c return wanswer c with w_CurrentDirectory => inl 5 | c' => shown small (lit "C:\") c' end, s))
  (wrelative_cwd true E 100 true (wpath (lit "C:\d"))) tt = (WE (WThrow 5), tt).
Proof. intros E. vm_compute. reflexivity. Qed.

Print Assumptions C85_direct_partial.
Print Assumptions C85_prefix_partial.
Print Assumptions C85_nothing_partial.
Print Assumptions C85_prefix_error_refuted.
Print Assumptions C85_relative_runs.
Print Assumptions C85_relative_partial.
Print Assumptions C85_relative_drives_refuted.
Print Assumptions C85_current_directory_refuted.
