(** C85: weakly_canonical, relative and proximate on Windows: specification and lemmas.
    Sources: src/fs_ops.cpp:1603-1652, include/filesystem/fs_ops.h:410-459 with ASAP_WINDOWS defined. *)
From Coq Require Import Ascii String Bool Arith NArith ZArith Lia List.
From Verif Require Import Str PathModel PathSpec StrProofs PathProofs PathOps PathOps2 PathNormal PathNormal2 WinPathProps WinPlace WinAppend WinGeneric WinNormal WinNormalProps WinDrive
  WinPermsModel FlagsModel TimeModel WinStatModel WinStatProps OpsModel WinOpsModel WinOpsProps WinCreateDirs.
From Verif Require WinRelative WinRemoveTree WinCanon.
Import ListNotations.
Local Open Scope N_scope.

(** * Specification *)

(** What status says of a text. *)
Definition present (dbg : bool) (ans : forall c, wanswer c) (t : str) : Prop :=
  exists ty prms e, wstatus_impl dbg true (ans (w_Info t)) = WRet (ty, prms) e /\ ty <> WT ft_none /\ ty <> WT ft_not_found.
Definition absent (dbg : bool) (ans : forall c, wanswer c) (t : str) : Prop :=
  exists prms e, wstatus_impl dbg true (ans (w_Info t)) = WRet (WT ft_not_found, prms) e.
Definition unclear (dbg : bool) (ans : forall c, wanswer c) (t : str) (e : N) : Prop :=
  exists prms, wstatus_impl dbg true (ans (w_Info t)) = WRet (WT ft_none, prms) e.

(** The parts of a text: the drive (or none), whether a root directory follows, and the elements after it: the names, and an empty
    element when a separator follows the last one. Texts with a host or with a colon in a name are left out. *)
Definition made_of (t : str) (drive : str) (rooted : bool) (l : list str) : Prop :=
  local_root drive /\ wroot t = drive /\ wrooted t = rooted /\ Forall proper (wnames (wrest t)) /\
  l = wnames (wrest t) ++ (if wends (wrest t) && negb (is_nil (wnames (wrest t))) then [[]] else []).

(** The texts of the roots, and the text up to some element: a separator between the elements. *)
Definition roots (drive : str) (rooted : bool) : list str :=
  (if is_nil drive then [] else [drive]) ++ (if rooted then [drive ++ [backslash]] else []).
Definition upto (drive : str) (rooted : bool) (l : list str) : str :=
  drive ++ (if rooted then [backslash] else []) ++ wjoin l.

(** The names of a list of elements, and whether the list ends like the name of a directory: "", "." or "..". *)
Definition names_in (l : list str) : list str := filter (fun n => negb (is_nil n)) l.
Definition marked (l : list str) : bool := is_nil (last l []) || str_eqb (last l []) (lit ".") || str_eqb (last l []) (lit "..").

(** The text of the directory or file [ms] of the drive [b]. *)
Definition spot (b : ascii) (ms : list str) (m : bool) : str :=
  b :: colon :: backslash :: wjoin ms ++ (if m && negb (is_nil ms) then [backslash] else []).

(** * Lexical lemmas *)

Notation fpath := WinRelative.fpath.

Lemma upto_ctext : forall rn d l, upto rn d l = ctext rn d l false.
Proof. intros. unfold upto, ctext. cbn [andb]. rewrite app_nil_r. reflexivity. Qed.

Lemma spot_ctext : forall b ms m, spot b ms m = ctext [b; colon] true ms m.
Proof. reflexivity. Qed.

Definition tail_of (tr : bool) : list str := if tr then [[]] else [].

Lemma cut_pieces : forall ns tr pre x post, Forall proper ns -> ns ++ tail_of tr = pre ++ x :: post ->
  Forall proper pre /\ exists ms, x :: post = ms ++ tail_of tr /\ Forall proper ms /\ ns = pre ++ ms.
Proof.
  induction ns as [|n ns IH]; intros tr pre x post HF H.
  - destruct tr; cbn in H; [|destruct pre; discriminate]. destruct pre as [|y [|z pre]]; try discriminate. cbn in H. injection H as <- <-.
    split; [constructor|]. exists []. repeat split. constructor.
  - destruct pre as [|y pre].
    + cbn [app] in H. split; [constructor|]. exists (n :: ns). split; [symmetry; exact H|]. split; [exact HF|reflexivity].
    + cbn [app] in H. injection H as <- H. inversion HF as [|? ? Hn HF']; subst. destruct (IH tr pre x post HF' H) as (K1 & ms & K2 & K3 & K4).
      split; [constructor; assumption|]. exists ms. split; [exact K2|]. split; [exact K3|]. cbn. congruence.
Qed.

Lemma names_in_tail : forall ns tr, Forall proper ns -> names_in (ns ++ tail_of tr) = ns.
Proof.
  intros ns tr H. unfold names_in. rewrite filter_app. assert (G : forall l : list str, l ++ filter (fun n => negb (is_nil n)) (tail_of tr) = l) by (intros l; destruct tr; apply app_nil_r).
  rewrite G. clear G. induction H as [|n ns (Hn & _) HF IH]; [reflexivity|]. cbn [filter]. destruct n; [congruence|]. cbn [is_nil negb]. rewrite IH. reflexivity.
Qed.

Lemma fin_split : forall (e : bool) s, fin Windows e (split_components Windows s) = split_components Windows s.
Proof.
  intros e s. unfold fin. destruct e; [reflexivity|]. pose proof (split_native s) as H. unfold native in H. rewrite H. reflexivity.
Qed.

Section Lex.
Variable E : elision.

Lemma local_host : forall rn (d : bool), local_root rn -> host_root rn = true -> d = true.
Proof. intros rn d [->|(a & -> & Ha)] H; [discriminate|]. rewrite (no_host a Ha) in H. discriminate. Qed.

Lemma append_piece : forall rn d ns ret n, local_root rn -> Forall proper ns -> Rep rn d ns false ret ->
  path_append Windows E true ret (fpath n) = Ok (split_components Windows (upto rn d (ns ++ [n]))) /\
  path_div Windows E ret (fpath n) = Ok (split_components Windows (upto rn d (ns ++ [n]))).
Proof.
  intros rn d ns ret n Hl Hp HR. rewrite upto_ctext, <- ctext_snoc.
  assert (H : path_append Windows E true ret (fpath n) = Ok (split_components Windows (ctext rn d ns true ++ n))).
  { apply (Rep_append E rn d ns false ret (fpath n)); [apply local_ok; assumption|apply local_host; assumption|exact HR|]. right. exists n. reflexivity. }
  split; [exact H|]. unfold path_div. rewrite H. cbn [bind]. rewrite fin_split. reflexivity.
Qed.

Lemma rep_upto : forall rn d ns, Rep rn d ns false (split_components Windows (upto rn d ns)).
Proof. intros. rewrite upto_ctext. left. reflexivity. Qed.

Lemma upto_native : forall rn d ns tr, local_root rn -> Forall proper ns -> (tr = true -> ns <> []) ->
  native (split_components Windows (upto rn d (ns ++ tail_of tr))) = upto rn d (ns ++ tail_of tr).
Proof.
  intros rn d ns tr Hl Hp Ht. rewrite upto_ctext. destruct tr; cbn [tail_of].
  - rewrite <- ctext_snoc, app_nil_r. apply ctext_native, local_ok; assumption.
  - rewrite app_nil_r. apply ctext_native, local_ok; assumption.
Qed.

Lemma append_pieces : forall rn d ms P ret tr, local_root rn -> Forall proper (P ++ ms) -> Rep rn d P false ret -> ms ++ tail_of tr <> [] ->
  append_all Windows E (map fpath (ms ++ tail_of tr)) ret = Ok (split_components Windows (ctext rn d (P ++ ms) tr)).
Proof.
  intros rn d ms. induction ms as [|x ms IH]; intros P ret tr Hl Hp HR Hne.
  - destruct tr; [|cbn in Hne; congruence]. cbn [app tail_of map append_all]. rewrite app_nil_r in *. destruct (append_piece rn d P ret [] Hl Hp HR) as [H _]. rewrite H. cbn [bind].
    rewrite upto_ctext, <- ctext_snoc, app_nil_r. reflexivity.
  - cbn [app map append_all]. replace (P ++ x :: ms) with ((P ++ [x]) ++ ms) in * by (rewrite <- app_assoc; reflexivity). pose proof Hp as Hp2. apply Forall_app in Hp2. destruct Hp2 as [Hp1 _].
    pose proof Hp1 as Hp3. apply Forall_app in Hp3. destruct Hp3 as [HpP _].
    destruct (append_piece rn d P ret x Hl HpP HR) as [H _]. rewrite H. cbn [bind]. destruct (ms ++ tail_of tr) as [|y r] eqn:Hr.
    + cbn [map append_all]. destruct ms; [|discriminate]. destruct tr; [discriminate|]. rewrite upto_ctext, app_nil_r. reflexivity.
    + rewrite <- Hr. apply IH; [exact Hl|exact Hp|apply rep_upto|congruence].
Qed.

End Lex.

Lemma walk_fold : forall ns stk, Forall (fun n => n <> lit "..") stk -> Forall (fun n => n <> lit "..") (fold_left (reduce1 true) ns stk) /\
  rev (fold_left (reduce1 true) ns stk) = PathSpec.walk (rev stk) ns.
Proof.
  induction ns as [|n ns IH]; intros stk H; [split; [exact H|reflexivity]|]. cbn [fold_left]. unfold PathSpec.walk. cbn [fold_left].
  assert (G : Forall (fun n => n <> lit "..") (reduce1 true stk n) /\ rev (reduce1 true stk n) = walk1 (rev stk) n).
  { unfold reduce1, walk1. destruct (str_eqb n (lit ".")); [split; [exact H|reflexivity]|]. destruct (str_eqb n (lit "..")) eqn:Hd.
    - destruct stk as [|y r]; [split; [constructor|reflexivity]|]. inversion H; subst. destruct (str_eqb y (lit "..")) eqn:Hy; [apply str_eqb_spec in Hy; congruence|].
      split; [assumption|]. cbn [rev]. rewrite removelast_last. reflexivity.
    - split; [constructor; [|exact H]; intros ->; discriminate|reflexivity]. }
  destruct G as [G1 G2]. destruct (IH _ G1) as [K1 K2]. split; [exact K1|]. rewrite K2, G2. reflexivity.
Qed.

Lemma normal_drive : forall E a ns tr, is_wsep a = false -> Forall wname ns -> exists r,
  lexically_normal Windows E (split_components Windows (spot a ns tr)) = Ok r /\
  native r = spot a (PathSpec.walk [] ns) (negb (is_nil ns) && marked (ns ++ tail_of tr)).
Proof.
  intros E a ns tr Ha Hn. set (s := spot a ns tr). pose proof (drive_ok a ns Ha Hn) as Hok. destruct (ctext_root [a; colon] true ns tr Hok) as (rest & Hr & _ & Hd & Hns & He).
  change (ctext [a; colon] true ns tr) with s in Hr. assert (Hs : s <> []) by discriminate.
  assert (Hsafe : safe s) by (unfold safe; rewrite Hr; left; discriminate).
  destruct (normal_text_windows E s Hs Hsafe) as (r & H1 & H2 & _). exists r. split; [exact H1|]. rewrite H2. unfold wnormal. rewrite Hr. cbn [fst snd]. rewrite Hd.
  assert (Hp : preferred [a; colon] = [a; colon]) by (apply root_text_preferred; apply Hok). rewrite Hp.
  pose proof (walk_fold ns [] ltac:(constructor)) as [Hup Hwalk]. assert (Hstk : wstk s = fold_left (reduce1 true) ns []) by (unfold wstk; rewrite Hr; cbn [snd]; cbv zeta; rewrite Hd, Hns; reflexivity).
  rewrite Hstk. cbn [rev] in Hwalk. rewrite <- Hwalk. unfold wfinal. destruct (fold_left (reduce1 true) ns []) as [|x l] eqn:Hf.
  - cbn [rev]. rewrite !spot_ctext. cbn [is_nil andb]. rewrite ctext_tr_nil. symmetry. apply ctext_tr_nil.
  - rewrite spot_ctext. f_equal. inversion Hup; subst. assert (Hx : is_updir x = false) by (unfold is_updir; destruct (str_eqb x (lit "..")) eqn:Hy; [apply str_eqb_spec in Hy; congruence|reflexivity]).
    rewrite Hx, andb_true_r. rewrite (wtr_spec s _ _ x l Hr Hstk Hx). assert (Hne : wnames rest <> []) by (destruct (wnames rest); [discriminate|discriminate]).
    rewrite (wlast_elements s _ _ Hr Hne), He by exact Hne. destruct (wnames rest) as [|y q]; [congruence|]. cbn [is_nil negb andb]. unfold marked.
    destruct tr; cbn [tail_of].
    + rewrite last_last. reflexivity.
    + rewrite app_nil_r. unfold plain. rewrite !negb_andb, !negb_involutive. reflexivity.
Qed.

Definition root_paths (rn : str) (d : bool) : list path :=
  (if is_nil rn then [] else [Path rn [] ROOT_NAME]) ++ (if d then [Path [backslash] [] ROOT_DIR] else []).

Lemma elems_made : forall t rn d l, made_of t rn d l -> t <> [] -> elems (wpath t) = root_paths rn d ++ map fpath l.
Proof.
  intros t rn d l (_ & Hrn & Hd & _ & ->) Ht. unfold wpath. rewrite elems_split by exact Ht. unfold all_comps, wroot, wrooted, wrest in *.
  destruct (split_root no_wsep t) as [r rest]. cbn [fst snd] in *. rewrite !map_app. subst rn d. rewrite comp_names.
  assert (H1 : map comp_path (root_comps r rest) = root_paths (preferred r) (wstarts rest)).
  { unfold root_comps, root_paths. rewrite map_app, nil_preferred. destruct (is_nil r), (wstarts rest); reflexivity. }
  rewrite H1. f_equal. f_equal. unfold trail. destruct (_ && _); reflexivity.
Qed.

Lemma root_name_path : forall rn, local_root rn -> rn <> [] -> split_components Windows rn = Path rn [] ROOT_NAME.
Proof.
  intros rn Hl Hn. pose proof (split_root_only rn false (local_ok rn false [] Hl ltac:(constructor))) as H. unfold ctext, rootcs in H. cbn [app wjoin andb is_nil negb] in H. rewrite !app_nil_r in H.
  destruct rn as [|c rn]; [congruence|]. cbn [is_nil app] in H. rewrite H by discriminate. reflexivity.
Qed.

Lemma local_split : forall rn, local_root rn -> split_root no_wsep rn = (rn, []) /\ preferred rn = rn /\ host_root rn = false.
Proof.
  intros rn Hl. pose proof (local_ok rn false [] Hl ltac:(constructor)) as Hok. destruct (ctext_root rn false [] false Hok) as (rest & H & Hrest & _).
  unfold ctext in H. cbn [app wjoin andb] in H, Hrest. rewrite !app_nil_r in H. subst rest. split; [exact H|]. split; [apply root_text_preferred; apply Hok|].
  destruct (host_root rn) eqn:Hh; [|reflexivity]. exfalso. pose proof (local_host rn false Hl Hh). discriminate.
Qed.

Section Roots.
Variable E : elision.

Lemma root_first : forall rn, local_root rn -> rn <> [] -> path_append Windows E true path_default (Path rn [] ROOT_NAME) = Ok (split_components Windows rn).
Proof.
  intros rn Hl Hn. destruct (local_split rn Hl) as (H1 & H2 & H3). rewrite default_append, <- (root_name_path rn Hl Hn).
  rewrite (append_text E true [] rn [] [] rn [] eq_refl H1 eq_refl); [|rewrite (root_name_path rn Hl Hn); reflexivity].
  rewrite H2. destruct rn; [congruence|]. reflexivity.
Qed.

Lemma root_second : forall rn ret, local_root rn -> ret = (if is_nil rn then path_default else split_components Windows rn) ->
  path_append Windows E true ret (Path [backslash] [] ROOT_DIR) = Ok (split_components Windows (rn ++ [backslash])).
Proof.
  intros rn ret Hl ->. destruct (local_split rn Hl) as (H1 & H2 & H3). assert (Hd : Path [backslash] [] ROOT_DIR = split_components Windows [backslash]) by reflexivity.
  assert (Hx : path_append Windows E true (if is_nil rn then path_default else split_components Windows rn) (Path [backslash] [] ROOT_DIR) =
               path_append Windows E true (split_components Windows rn) (split_components Windows [backslash])).
  { rewrite Hd. destruct rn; [apply default_append|reflexivity]. }
  rewrite Hx, (append_text E true rn [backslash] rn [] [] [backslash] H1 eq_refl); [| |reflexivity].
  - rewrite H2. destruct rn; reflexivity.
  - destruct rn as [|c rn]; [reflexivity|]. rewrite (root_name_path _ Hl ltac:(discriminate)). reflexivity.
Qed.

(** The path of the roots. *)
Definition root_base (rn : str) (d : bool) : path := if is_nil (root_paths rn d) then path_default else split_components Windows (upto rn d []).

Lemma root_base_rep : forall rn d, Rep rn d [] false (root_base rn d).
Proof.
  intros rn d. unfold root_base. destruct (is_nil (root_paths rn d)) eqn:H; [|apply rep_upto]. unfold root_paths in H. destruct rn; [|discriminate]. destruct d; [discriminate|].
  right. left. split; reflexivity.
Qed.

Lemma append_roots : forall rn d more, local_root rn -> append_all Windows E (root_paths rn d ++ more) path_default = append_all Windows E more (root_base rn d).
Proof.
  intros rn d more Hl. unfold root_base, root_paths, upto. cbn [wjoin]. rewrite app_nil_r. destruct rn as [|c rn]; cbn [is_nil app].
  - destruct d; [|reflexivity]. cbn [app is_nil append_all]. rewrite (root_second [] path_default Hl eq_refl). reflexivity.
  - cbn [append_all]. rewrite (root_first (c :: rn) Hl) by discriminate. cbn [bind]. destruct d; cbn [app append_all].
    + rewrite (root_second (c :: rn) _ Hl eq_refl). reflexivity.
    + rewrite app_nil_r. reflexivity.
Qed.

End Roots.

(** * Runs *)

Section Runs.
Variable dbg : bool.
Variable E : elision.
Context {S : Type} (h : wkernel S) (ans : forall c, wanswer c) (Hst : steady h ans).

Lemma type_is : forall f ty, wtype_is f ty = true <-> ty = WT f.
Proof. intros f [t|]; [|split; discriminate]. destruct f, t; split; intros H; try reflexivity; try discriminate H. Qed.

Lemma type_not : forall f ty, ty <> WT f -> wtype_is f ty = false.
Proof. intros f ty H. destruct (wtype_is f ty) eqn:K; [|reflexivity]. apply type_is in K. contradiction. Qed.

Lemma ask : forall A (f : wstatus -> N -> wprog A) p t st e s, native p = t -> wstatus_impl dbg true (ans (w_Info t)) = WRet st e ->
  wrun h (wbind (wstatus_of dbg true p) f) s = wrun h (f st e) s.
Proof. intros A f p t st e s Hp H. subst t. exact (proj1 (goes_status h ans Hst s A dbg p f st e H)). Qed.

Lemma step_on : forall A (f : path * list path * N -> N -> wprog A) x rest ret e u s, path_div Windows E ret x = Ok (split_components Windows u) ->
  native (split_components Windows u) = u -> present dbg ans u ->
  exists e', wrun h (wbind (wexisting_prefix dbg E (x :: rest) ret e) f) s = wrun h (wbind (wexisting_prefix dbg E rest (split_components Windows u) e') f) s.
Proof.
  intros A f x rest ret e u s Hd Hu (ty & prms & e' & Hty & H1 & H2). exists e'. cbn [wexisting_prefix]. rewrite Hd. cbn [wlift].
  rewrite WinCanon.wbind_assoc. rewrite (ask _ _ _ u _ _ s Hu Hty). cbn [fst]. unfold wexists. rewrite (type_not _ _ H1), (type_not _ _ H2). reflexivity.
Qed.

Lemma step_absent : forall A (f : path * list path * N -> N -> wprog A) x rest ret e u s, path_div Windows E ret x = Ok (split_components Windows u) ->
  native (split_components Windows u) = u -> absent dbg ans u ->
  wrun h (wbind (wexisting_prefix dbg E (x :: rest) ret e) f) s = wrun h (f (ret, x :: rest, 0) 0) s.
Proof.
  intros A f x rest ret e u s Hd Hu (prms & e' & Hty). cbn [wexisting_prefix]. rewrite Hd. cbn [wlift].
  rewrite WinCanon.wbind_assoc. rewrite (ask _ _ _ u _ _ s Hu Hty). reflexivity.
Qed.

Lemma step_unclear : forall A (f : path * list path * N -> N -> wprog A) x rest ret e u s code, path_div Windows E ret x = Ok (split_components Windows u) ->
  native (split_components Windows u) = u -> unclear dbg ans u code ->
  wrun h (wbind (wexisting_prefix dbg E (x :: rest) ret e) f) s = wrun h (f (ret, x :: rest, code) 0) s.
Proof.
  intros A f x rest ret e u s code Hd Hu (prms & Hty). cbn [wexisting_prefix]. rewrite Hd. cbn [wlift].
  rewrite WinCanon.wbind_assoc. rewrite (ask _ _ _ u _ _ s Hu Hty). reflexivity.
Qed.

Lemma div_append : forall ret x t, path_append Windows E true ret x = Ok (split_components Windows t) -> path_div Windows E ret x = Ok (split_components Windows t).
Proof. intros ret x t H. unfold path_div. rewrite H. cbn [bind]. rewrite fin_split. reflexivity. Qed.

Lemma local_native : forall rn, local_root rn -> native (split_components Windows rn) = rn.
Proof. intros rn Hl. destruct rn as [|c rn]; [reflexivity|]. rewrite (root_name_path _ Hl) by discriminate. reflexivity. Qed.

Lemma rooted_native : forall rn, local_root rn -> native (split_components Windows (rn ++ [backslash])) = rn ++ [backslash].
Proof. intros rn Hl. exact (ctext_native rn true [] false (local_ok rn true [] Hl ltac:(constructor))). Qed.

Lemma run_roots : forall A (f : path * list path * N -> N -> wprog A) rn d more e s, local_root rn -> Forall (present dbg ans) (roots rn d) ->
  exists e', wrun h (wbind (wexisting_prefix dbg E (root_paths rn d ++ more) path_default e) f) s = wrun h (wbind (wexisting_prefix dbg E more (root_base rn d) e') f) s.
Proof.
  intros A f rn d more e s Hl Hp. unfold roots in Hp. unfold root_base, root_paths, upto. cbn [wjoin]. rewrite app_nil_r. destruct rn as [|c rn]; cbn [is_nil app].
  - destruct d; [|exists e; reflexivity]. cbn [app is_nil] in *. inversion Hp as [|? ? Hb _]; subst. apply (step_on _ f _ more path_default e (([] : str) ++ [backslash]) s); [|reflexivity|exact Hb].
    apply div_append. apply (root_second E [] path_default Hl eq_refl).
  - cbn [is_nil app] in Hp. inversion Hp as [|? ? Ha Hr]; subst.
    destruct (step_on _ f (Path (c :: rn) [] ROOT_NAME) ((if d then [Path [backslash] [] ROOT_DIR] else []) ++ more) path_default e (c :: rn) s) as (e1 & ->);
      [apply div_append, root_first; [exact Hl|discriminate]|apply local_native; exact Hl|exact Ha|].
    destruct d; cbn [app].
    + inversion Hr as [|? ? Hb _]; subst. apply (step_on _ f _ more _ e1 ((c :: rn) ++ [backslash]) s); [|apply rooted_native; exact Hl|exact Hb].
      apply div_append. apply (root_second E (c :: rn) _ Hl eq_refl).
    + exists e1. rewrite app_nil_r. reflexivity.
Qed.

Lemma run_pieces : forall A (f : path * list path * N -> N -> wprog A) rn d pre P more ret e s, local_root rn -> Forall proper (P ++ pre) -> Rep rn d P false ret ->
  (forall u v, pre = u ++ v -> u <> [] -> present dbg ans (upto rn d (P ++ u))) ->
  exists e' ret', wrun h (wbind (wexisting_prefix dbg E (map fpath pre ++ more) ret e) f) s = wrun h (wbind (wexisting_prefix dbg E more ret' e') f) s /\
    ret' = (if is_nil pre then ret else split_components Windows (upto rn d (P ++ pre))) /\ Rep rn d (P ++ pre) false ret'.
Proof.
  intros A f rn d pre. induction pre as [|x pre IH]; intros P more ret e s Hl Hp HR Hpre.
  - exists e, ret. rewrite app_nil_r. split; [reflexivity|]. split; [reflexivity|exact HR].
  - cbn [map app]. replace (P ++ x :: pre) with ((P ++ [x]) ++ pre) in * by (rewrite <- app_assoc; reflexivity). pose proof Hp as Hp2. apply Forall_app in Hp2. destruct Hp2 as [Hp1 _].
    pose proof Hp1 as Hp3. apply Forall_app in Hp3. destruct Hp3 as [HpP _].
    destruct (step_on _ f (fpath x) (map fpath pre ++ more) ret e (upto rn d (P ++ [x])) s) as (e1 & H1).
    + apply append_piece; assumption.
    + rewrite upto_ctext. apply ctext_native, local_ok; assumption.
    + apply (Hpre [x] pre eq_refl). discriminate.
    + destruct (IH (P ++ [x]) more (split_components Windows (upto rn d (P ++ [x]))) e1 s Hl Hp (rep_upto rn d (P ++ [x]))) as (e2 & ret' & H2 & H3 & H4).
      * intros u v Hu Hne. rewrite <- app_assoc. apply (Hpre (x :: u) v); [cbn; congruence|discriminate].
      * exists e2, ret'. split; [rewrite H1; exact H2|]. split; [|exact H4]. rewrite H3. destruct pre; [rewrite app_nil_r; reflexivity|reflexivity].
Qed.

(** What remains to do after the prefix. *)
Definition finish (n : nat) (x : path * list path * N) (_ : N) : wprog path :=
  let '(result, rest, m_ec) := x in
  wbind (if (m_ec =? 0) && negb (empty result) then wcanonical dbg E n true result else wret result m_ec) (fun result1 m_ec1 =>
  if negb (m_ec1 =? 0) then wret (fin Windows (el_other E) (clear Windows result1)) 0
  else
    wlift (append_all Windows E rest result1) (fun r =>
    wlift (lexically_normal Windows E r) (fun nrm => wret (fin Windows (el_other E) nrm) 0))).

Lemma weak_absent : forall n has t s, t <> [] -> absent dbg ans (native (wpath t)) ->
  exists e, wrun h (wweakly_canonical dbg E n has (wpath t)) s = wrun h (wbind (wexisting_prefix dbg E (elems (wpath t)) path_default e) (finish n)) s.
Proof.
  intros n has t s Ht (prms & e & Hty). exists e. unfold wweakly_canonical.
  assert (He : empty (wpath t) = false).
  { unfold wpath, empty. destruct (split_root no_wsep t) as [rn rest] eqn:Hr. destruct t as [|c t]; [congruence|].
    destruct (pathname (split_components Windows (c :: t))) eqn:Hp; [|reflexivity]. exfalso.
    pose proof (elements_native (c :: t)) as X. unfold native in X. rewrite Hp in X. cbn in X. symmetry in X.
    rewrite (win_elements_parts (c :: t) rn rest Hr) in X. unfold parts_elements in X. rewrite nil_preferred in X.
    destruct rn as [|r0 rn]; [|discriminate]. cbn [is_nil app] in X. destruct (wstarts rest) eqn:Hw; [discriminate|]. cbn [app] in X.
    destruct (wnames rest) eqn:Hn; [|discriminate]. pose proof (unstarted_no_names rest Hw Hn) as Hz. subst rest.
    destruct (split_root_cases _ _ _ Hr) as (Hs & _). discriminate. }
  rewrite He. rewrite (ask _ _ _ _ _ _ s eq_refl Hty). reflexivity.
Qed.

End Runs.
