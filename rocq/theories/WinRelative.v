(** C78: lexically_relative and lexically_proximate on Windows.
    Source: fs_path.cpp:792-829, fs_path.h:233-239 with ASAP_WINDOWS defined. *)
From Coq Require Import Ascii String Bool Arith NArith ZArith Lia List.
From Verif Require Import Str PathModel PathSpec StrProofs PathProofs PathOps PathOps2 PathMisc PathNormal PathNormal2 WinPathProps WinPlace WinAppend WinGeneric WinNormal WinNormalProps.
Import ListNotations.

(** ** Specification *)

Definition wabsolute (t : str) : bool := host_root (wroot t) || wrooted t.

(** What is left of the elements of the two texts after the common ones. *)
Definition left_of (s t : str) : list str := fst (strip_common (win_elements no_wsep s) (win_elements no_wsep t)).
Definition left_of_base (s t : str) : list str := snd (strip_common (win_elements no_wsep s) (win_elements no_wsep t)).

Definition is_name (x : str) : bool := negb (is_nil x) && negb (str_eqb x [backslash]).

(** The text of path(s).lexically_relative(path(t)) on Windows ([fs.path.gen]/4). *)
Definition wrelative_text (s t : str) : str :=
  let a := left_of s t in
  let b := left_of_base s t in
  if negb (str_eqb (wroot s) (wroot t)) || negb (Bool.eqb (wabsolute s) (wabsolute t)) || negb (wrooted s) && wrooted t then []
  else if is_nil a && is_nil b then lit "."
  else if (upcount b <? 0)%Z then []
  else
    let l := repeat (lit "..") (Z.to_nat (upcount b)) ++ filter is_name a in
    (if existsb (str_eqb [backslash]) a then [backslash] else []) ++ wjoin l ++ (if existsb is_nil a && negb (is_nil l) then [backslash] else []).

(** The first name of the result does not look like a drive. *)
Definition first_no_drive (s t : str) : Prop :=
  (0 < upcount (left_of_base s t))%Z \/ nth_error (hd [] (left_of s t)) 1 <> Some colon.

(** ** Proofs *)

Lemma path_eq_single : forall p q, ptyp p <> MULTI -> ptyp q <> MULTI -> path_eq p q = str_eqb (pathname p) (pathname q).
Proof.
  intros p q Hp Hq. unfold path_eq, compare, empty. destruct (is_nil (pathname p) && is_nil (pathname q)) eqn:Hz.
  - apply andb_true_iff in Hz. destruct Hz as [H1 H2]. apply is_nil_true in H1, H2. rewrite H1, H2. reflexivity.
  - assert (G : (cmp_sign (str_compare (pathname p) (pathname q)) =? 0)%Z = str_eqb (pathname p) (pathname q)).
    { destruct (str_eqb (pathname p) (pathname q)) eqn:He.
      - apply str_eqb_spec in He. rewrite He, str_compare_refl. reflexivity.
      - destruct (str_compare (pathname p) (pathname q)) eqn:Hc; [|reflexivity|reflexivity]. apply str_compare_eq in Hc. apply str_eqb_spec in Hc. congruence. }
    destruct (ptyp p); try congruence; destruct (ptyp q); try congruence; exact G.
Qed.

Definition single (c : comp) : Prop := c_type c <> MULTI.

Lemma mismatch_prefix : forall l l' x y, Forall single l -> Forall single l' -> map c_str l = map c_str l' ->
  mismatch (map comp_path l ++ x) (map comp_path l' ++ y) = mismatch x y.
Proof.
  induction l as [|c l IH]; intros [|d l'] x y H H' He; try discriminate; [reflexivity|]. injection He as He1 He2. inversion H; inversion H'; subst.
  cbn [map app mismatch]. rewrite path_eq_single by assumption. cbn [comp_path pathname]. rewrite He1. assert (str_eqb (c_str d) (c_str d) = true) as -> by (apply str_eqb_spec; reflexivity). apply IH; assumption.
Qed.

Definition fpath (n : str) : path := Path n [] FILENAME.

Lemma mismatch_names : forall a b, mismatch (map fpath a) (map fpath b) = (map fpath (fst (strip_common a b)), map fpath (snd (strip_common a b))).
Proof.
  induction a as [|x a IH]; intros [|y b]; try reflexivity. cbn [map mismatch strip_common]. rewrite path_eq_single by discriminate. cbn [fpath pathname].
  destruct (str_eqb x y); [apply IH|reflexivity].
Qed.

Lemma root_single : forall rn rest, Forall single (root_comps rn rest).
Proof. intros rn rest. unfold root_comps. destruct (is_nil rn), (wstarts rest); cbn [app]; repeat constructor; discriminate. Qed.

Lemma names_comps : forall rest off k, map comp_path (wtok off [] rest ++ trail rest k) = map fpath (wnames rest ++ (if wends rest && negb (is_nil (wnames rest)) then [[]] else [])).
Proof. intros rest off k. rewrite !map_app, comp_names. f_equal. unfold trail. destruct (_ && _); reflexivity. Qed.

Lemma elems_all : forall s, elems (split_components Windows s) = map comp_path (all_comps s).
Proof. intros [|c s]; [reflexivity|]. apply elems_split. discriminate. Qed.

Lemma root_name_cases : forall E s,
  (wroot s = [] /\ root_name Windows E (split_components Windows s) = fin Windows (el_other E) path_default) \/
  (wroot s <> [] /\ root_name Windows E (split_components Windows s) = Path (wroot s) [] ROOT_NAME).
Proof.
  intros E s. unfold wroot. destruct (split_root no_wsep s) as [rn rest] eqn:Hr. destruct rn as [|c rn].
  - left. split; [reflexivity|]. apply noroot_root_name. rewrite (has_root_name_split _ _ _ Hr). reflexivity.
  - right. split; [discriminate|]. apply (root_name_split E s _ _ Hr). discriminate.
Qed.

Lemma root_names_ne : forall E s t, path_ne (root_name Windows E (split_components Windows s)) (root_name Windows E (split_components Windows t)) = negb (str_eqb (wroot s) (wroot t)).
Proof.
  intros E s t. unfold path_ne. f_equal. destruct (root_name_cases E s) as [[H1 ->]|[H1 ->]]; destruct (root_name_cases E t) as [[H2 ->]|[H2 ->]].
  - rewrite path_eq_refl, H1, H2. reflexivity.
  - rewrite H1. destruct (wroot t); [congruence|]. unfold fin. destruct (el_other E); reflexivity.
  - rewrite H2. destruct (wroot s); [congruence|]. unfold fin. destruct (el_other E); reflexivity.
  - rewrite path_eq_single by discriminate. reflexivity.
Qed.

(** What the elements of [s] beyond those of [t] are. *)
Lemma left_names : forall s t, wroot s = wroot t -> wabsolute s = wabsolute t -> (wrooted t = true -> wrooted s = true) ->
  exists (c : list str) (ns : list str) (e : bool) (ms : list str) (e' : bool) (d : bool),
    left_of s t = (if d then [[backslash]] else []) ++ ns ++ (if e then [[]] else []) /\ Forall wname ns /\
    left_of_base s t = ms ++ (if e' then [[]] else []) /\ Forall wname ms /\
    (d = true -> ms = [] /\ e' = false /\ wrooted s = true /\ c = []) /\ (d = false -> wrooted s = wrooted t) /\
    wnames (wrest s) = c ++ ns /\ wnames (wrest t) = c ++ ms /\
    mismatch (elems (split_components Windows s)) (elems (split_components Windows t)) =
      ((if d then [Path [backslash] [] ROOT_DIR] else []) ++ map fpath (ns ++ (if e then [[]] else [])), map fpath (ms ++ (if e' then [[]] else []))).
Proof.
  intros s t Hrt Hab Hd. rewrite !elems_all. unfold all_comps, left_of, left_of_base, wabsolute, wroot, wrooted, wrest in *.
  destruct (split_root no_wsep s) as [rn1 r1] eqn:Hr1. destruct (split_root no_wsep t) as [rn2 r2] eqn:Hr2. cbn [fst snd] in *. rewrite !(map_app comp_path (root_comps _ _)), !names_comps.
  rewrite (win_elements_parts s rn1 r1 Hr1), (win_elements_parts t rn2 r2 Hr2). rewrite Hrt. unfold parts_elements.
  pose proof (wnames_all r1) as HF1. pose proof (wnames_all r2) as HF2.
  assert (Hroot : forall l x y, strip_common (l ++ x) (l ++ y) = strip_common x y).
  { induction l as [|a l IH]; intros x y; [reflexivity|]. cbn [app strip_common]. assert (str_eqb a a = true) as -> by (apply str_eqb_spec; reflexivity). apply IH. }
  rewrite Hroot.
  destruct (Bool.bool_dec (wstarts r1) (wstarts r2)) as [Heq|Hne].
  - rewrite Heq, Hroot. clear Hroot. rewrite mismatch_prefix; [|apply root_single|apply root_single|].
    2:{ unfold root_comps. rewrite Heq, <- !(nil_preferred rn1), <- !(nil_preferred rn2), Hrt. destruct (is_nil (preferred rn2)), (wstarts r2); cbn [app map c_str]; rewrite ?Hrt; reflexivity. }
    rewrite mismatch_names.
    assert (G : forall n1 n2 (e1 e2 : bool), Forall wname n1 -> Forall wname n2 -> exists c ns (e : bool) ms (e' : bool),
       fst (strip_common (n1 ++ (if e1 then [[]] else [])) (n2 ++ (if e2 then [[]] else []))) = ns ++ (if e then [[]] else []) /\ Forall wname ns /\
       snd (strip_common (n1 ++ (if e1 then [[]] else [])) (n2 ++ (if e2 then [[]] else []))) = ms ++ (if e' then [[]] else []) /\ Forall wname ms /\ n1 = c ++ ns /\ n2 = c ++ ms).
    { induction n1 as [|n n1 IH]; intros n2 e1 e2 H1 H2.
      - destruct n2 as [|m n2].
        + exists [], [], (e1 && negb e2), [], (e2 && negb e1). destruct e1, e2; cbn; repeat split; auto.
        + exists [], [], e1, (m :: n2), e2. inversion H2 as [|? ? [Hm _] _]; subst. destruct e1; cbn; [destruct m; [congruence|]|]; repeat split; auto.
      - inversion H1 as [|? ? Hn H1']; subst. destruct n2 as [|m n2].
        + exists [], (n :: n1), e1, [], e2. destruct Hn as [Hn Hnp]. destruct e2; cbn; [destruct n; [congruence|]|]; repeat split; auto.
        + inversion H2 as [|? ? Hm H2']; subst. cbn [app strip_common]. destruct (str_eqb n m) eqn:He.
          * apply str_eqb_spec in He. subst m. destruct (IH n2 e1 e2 H1' H2') as (c & ns & e & ms & e' & A & B & C & D & F & G). exists (n :: c), ns, e, ms, e'. rewrite F, G. cbn [app]. rewrite F, G in *. auto 10.
          * exists [], (n :: n1), e1, (m :: n2), e2. cbn [fst snd app]. repeat split; auto. }
    destruct (G (wnames r1) (wnames r2) (wends r1 && negb (is_nil (wnames r1))) (wends r2 && negb (is_nil (wnames r2))) HF1 HF2) as (c & ns & e & ms & e' & A & B & C & D & F & H).
    exists c, ns, e, ms, e', false. cbn [app]. rewrite A, C. repeat split; auto; discriminate.
  - assert (wstarts r1 = true /\ wstarts r2 = false) as [Hs1 Hs2] by (clear - Hd Hne; destruct (wstarts r1), (wstarts r2); auto; try congruence; discriminate (Hd eq_refl)).
    rewrite Hs1, Hs2 in *. rewrite orb_true_r, orb_false_r in Hab. rewrite host_preferred in Hab. symmetry in Hab.
    assert (r2 = []) as ->.
    { destruct (split_root_cases t rn2 r2 Hr2) as [_ [[_ H]|[(a & -> & Ha)|(a & w & _ & _ & _ & _ & [H|H])]]]; [congruence| |exact H|congruence].
      cbn in Hab. rewrite Ha in Hab. discriminate. }
    cbn [wnames wpieces filter is_nil negb andb app wends rev]. rewrite andb_false_r. cbn [app].
    exists [], (wnames r1), (wends r1 && negb (is_nil (wnames r1))), [], false, true. cbn [strip_common fst snd app]. repeat split; auto; try discriminate.
    unfold root_comps. rewrite Hs1. rewrite <- (nil_preferred rn1), <- (nil_preferred rn2), Hrt.
    destruct (is_nil (preferred rn2)); cbn [app map comp_path c_str c_type wstarts]; [reflexivity|]. cbn [mismatch map]. rewrite path_eq_refl. reflexivity.
Qed.

Lemma append_root : forall E, path_append Windows E true path_default (Path [backslash] [] ROOT_DIR) = Ok (Path [backslash] [] ROOT_DIR).
Proof. intros [a b c]. unfold path_append, root_name, has_root_directory. destruct c; reflexivity. Qed.

Lemma fpath_facts : forall E n, is_absolute Windows E (fpath n) = false /\ has_root_name (fpath n) = false /\ has_root_directory Windows E (fpath n) = false.
Proof. intros [a b c] n. unfold is_absolute, has_root_directory. destruct c; repeat split; reflexivity. Qed.

Section Rel.
Variable E : elision.

Lemma fin_ctext : forall rn d ns tr ret b, ctext_ok rn d ns -> Rep rn d ns tr ret -> native (fin Windows b ret) = ctext rn d ns tr.
Proof.
  intros rn d ns tr ret b Hok HR. pose proof (Rep_pathname rn d ns tr ret Hok HR) as Hp. unfold fin. destruct b; [exact Hp|]. rewrite Hp. apply ctext_native. exact Hok.
Qed.

Lemma hosted : forall d, host_root [] = true -> d = true.
Proof. discriminate. Qed.

Lemma ctext_ok_dots : forall k, ctext_ok [] false (repeat (lit "..") k).
Proof.
  intros k. split; [left; reflexivity|]. split; [|split; [|discriminate]].
  - apply Forall_forall. intros x Hx. apply repeat_spec in Hx. subst. apply wname_dots.
  - intros _ _ n Hn. destruct k; [discriminate|]. injection Hn as <-. cbn. discriminate.
Qed.

Lemma dotdots : forall k j ret, Rep [] false (repeat (lit "..") j) false ret -> exists ret',
  append_dotdots Windows E k ret = Ok ret' /\ Rep [] false (repeat (lit "..") (j + k)) false ret'.
Proof.
  induction k as [|k IH]; intros j ret HR.
  - exists ret. rewrite Nat.add_0_r. auto.
  - cbn [append_dotdots]. change (split_components Windows [dot; dot]) with (Path (lit "..") [] FILENAME).
    destruct (Rep_append_name E [] false _ false ret (lit "..") (ctext_ok_dots j) (hosted false) HR) as (r1 & -> & HR1). cbn [bind].
    assert (repeat (lit "..") j ++ [lit ".."] = repeat (lit "..") (S j)) as Hs by (clear; induction j as [|j IHj]; [reflexivity|]; cbn [repeat app]; rewrite IHj; reflexivity).
    rewrite Hs in HR1. destruct (IH (S j) r1 HR1) as (r2 & H2 & HR2). exists r2. split; [exact H2|]. rewrite Nat.add_succ_r. exact HR2.
Qed.

Lemma append_names : forall ns (e : bool) d stk tr ret, ctext_ok [] d (stk ++ ns) -> Rep [] d stk tr ret -> exists ret',
  append_all Windows E (map (fun n => Path n [] FILENAME) (ns ++ (if e then [[]] else []))) ret = Ok ret' /\
  Rep [] d (stk ++ ns) (if e then true else if is_nil ns then tr else false) ret'.
Proof.
  induction ns as [|n ns IH]; intros e d stk tr ret Hok HR.
  - rewrite app_nil_r in *. destruct e; cbn [app map append_all].
    + destruct (Rep_append_nothing E [] d stk tr ret (Path [] [] FILENAME) Hok (hosted d) HR (or_intror eq_refl)) as (r & -> & H). exists r. cbn [bind]. auto.
    + exists ret. auto.
  - assert (Hok1 : ctext_ok [] d stk).
    { revert Hok. change (n :: ns) with ([n] ++ ns). generalize ([n] ++ ns). intros l. induction l as [|x l IHl] using rev_ind; [rewrite app_nil_r; auto|]. rewrite app_assoc. intros H. apply IHl. eapply ctext_ok_prefix. exact H. }
    cbn [app map append_all]. destruct (Rep_append_name E [] d stk tr ret n Hok1 (hosted d) HR) as (r1 & -> & HR1). cbn [bind].
    change (n :: ns) with ([n] ++ ns) in *. rewrite app_assoc in *. destruct (IH e d (stk ++ [n]) false r1 Hok HR1) as (r2 & H2 & HR2). exists r2. split; [exact H2|].
    cbn [app is_nil]. destruct e; [exact HR2|]. destruct ns; exact HR2.
Qed.

Lemma count_names : forall b, count_updots (map fpath b) = upcount b.
Proof.
  intros b. unfold count_updots, upcount. generalize 0%Z. induction b as [|x b IH]; intros z; [reflexivity|].
  cbn [map fold_left]. rewrite is_dotdot_eq, is_dot_eq. cbn [native fpath pathname]. rewrite IH. destruct (str_eqb x (lit "..")); auto. destruct (str_eqb x (lit ".")); reflexivity.
Qed.

Lemma filter_names : forall ns, Forall wname ns -> filter is_name ns = ns /\ existsb is_nil ns = false /\ existsb (str_eqb [backslash]) ns = false.
Proof.
  induction 1 as [|n ns [Hn Hp] H IH]; [auto|]. destruct IH as (I1 & I2 & I3). cbn [filter existsb]. rewrite I1, I2, I3. unfold is_name at 1. destruct n as [|c n]; [congruence|].
  assert (str_eqb (c :: n) [backslash] = false) as ->.
  { destruct (str_eqb (c :: n) [backslash]) eqn:He; [|reflexivity]. apply str_eqb_spec in He. rewrite He in Hp. discriminate. }
  assert (str_eqb [backslash] (c :: n) = false) as ->.
  { destruct (str_eqb [backslash] (c :: n)) eqn:He; [|reflexivity]. apply str_eqb_spec in He. rewrite <- He in Hp. discriminate. }
  auto.
Qed.

Lemma rel_match : forall (x y : list path), x <> [] \/ y <> [] ->
  match x, y with [], [] => Ok (fin Windows (el_other E) (split_components Windows [dot])) | _, _ =>
    let n := count_updots y in if (0 <=? n)%Z then do r <- append_dotdots Windows E (Z.to_nat n) path_default;; do r' <- append_all Windows E x r;; Ok (fin Windows (el_other E) r') else Ok (fin Windows (el_other E) path_default) end =
  if (0 <=? count_updots y)%Z then do r <- append_dotdots Windows E (Z.to_nat (count_updots y)) path_default;; do r' <- append_all Windows E x r;; Ok (fin Windows (el_other E) r') else Ok (fin Windows (el_other E) path_default).
Proof. intros [|? ?] [|? ?] H; try reflexivity. destruct H; congruence. Qed.

Lemma relative_parts : forall s t, wroot s = wroot t -> wabsolute s = wabsolute t -> (wrooted t = true -> wrooted s = true) -> first_no_drive s t ->
  left_of s t <> [] \/ left_of_base s t <> [] -> (0 <= upcount (left_of_base s t))%Z ->
  exists r d ns tr, lexically_relative Windows E (split_components Windows s) (split_components Windows t) = Ok r /\
    native r = ctext [] d ns tr /\ ctext_ok [] d ns /\ native r = wrelative_text s t /\
    ns = repeat (lit "..") (Z.to_nat (upcount (left_of_base s t))) ++ filter is_name (left_of s t) /\
    d = existsb (str_eqb [backslash]) (left_of s t).
Proof.
  intros s t Hrt Hab Hd Hfd Hne Hup. destruct (left_names s t Hrt Hab Hd) as (c & ns & e & ms & e' & d & HA & HF & HB & HF' & Hdt & Hdf & _ & _ & Hm).
  assert (Hrd : has_root_directory Windows E (split_components Windows s) = wrooted s) by (unfold wrooted, wrest; destruct (split_root no_wsep s) eqn:Hr; apply (has_root_directory_split _ _ _ _ Hr)).
  assert (Hrd' : has_root_directory Windows E (split_components Windows t) = wrooted t) by (unfold wrooted, wrest; destruct (split_root no_wsep t) eqn:Hr; apply (has_root_directory_split _ _ _ _ Hr)).
  assert (Ha : is_absolute Windows E (split_components Windows s) = wabsolute s) by (unfold wabsolute, wroot, wrooted, wrest; destruct (split_root no_wsep s) eqn:Hr; cbn [fst snd]; rewrite host_preferred; apply (is_absolute_split _ _ _ _ Hr)).
  assert (Ha' : is_absolute Windows E (split_components Windows t) = wabsolute t) by (unfold wabsolute, wroot, wrooted, wrest; destruct (split_root no_wsep t) eqn:Hr; cbn [fst snd]; rewrite host_preferred; apply (is_absolute_split _ _ _ _ Hr)).
  unfold lexically_relative, wrelative_text. rewrite root_names_ne, Hrd, Hrd', Ha, Ha', Hrt, Hab, Bool.eqb_reflx.
  assert (str_eqb (wroot t) (wroot t) = true) as -> by (apply str_eqb_spec; reflexivity).
  assert (negb (wrooted s) && wrooted t = false) as -> by (clear - Hd; destruct (wrooted s), (wrooted t); auto; discriminate (Hd eq_refl)).
  cbn [negb orb]. rewrite Hm. clear Hm Hrd Hrd' Ha Ha' Hrt Hab Hd.
  assert (Hne' : is_nil (left_of s t) && is_nil (left_of_base s t) = false).
  { destruct (left_of s t), (left_of_base s t); try reflexivity. destruct Hne; congruence. }
  rewrite Hne'. assert ((upcount (left_of_base s t) <? 0)%Z = false) as -> by (apply Z.ltb_ge; exact Hup).
  destruct (filter_names ns HF) as (F1 & F2 & F3).
  assert (Hfl : filter is_name (left_of s t) = ns).
  { rewrite HA, !filter_app, F1. destruct d, e; cbn; rewrite ?app_nil_r; reflexivity. }
  assert (Hx1 : existsb is_nil (left_of s t) = e).
  { change (@existsb (list ascii)) with (@existsb str) in *. rewrite HA, !existsb_app, F2. destruct d, e; reflexivity. }
  assert (Hx2 : existsb (str_eqb [backslash]) (left_of s t) = d).
  { rewrite HA, !existsb_app, F3. destruct d, e; reflexivity. }
  rewrite Hfl, Hx1, Hx2. set (k := Z.to_nat (upcount (left_of_base s t))) in *.
  assert (Hdk : d = true -> k = 0).
  { intros Hd. destruct (Hdt Hd) as (-> & -> & _). unfold k. rewrite HB. reflexivity. }
  assert (Hok : ctext_ok [] d (repeat (lit "..") k ++ ns)).
  { split; [left; reflexivity|]. split; [apply Forall_app; split; [apply ctext_ok_dots|exact HF]|]. split; [|discriminate].
    intros _ Hd n Hn. destruct k eqn:Hk.
    - destruct Hfd as [Hfd|Hfd]; [exfalso; unfold k in Hk; lia|]. cbn [repeat app] in Hn. rewrite HA, Hd in Hfd. cbn [app] in Hfd. destruct ns as [|m ns]; [discriminate|]. injection Hn as <-.
      cbn [app hd] in Hfd. destruct m as [|x [|y m]]; cbn in *; auto. intros ->. apply Hfd. reflexivity.
    - injection Hn as <-. cbn. discriminate. }
  assert (Hpre : exists r0, Rep [] d (repeat (lit "..") k) false r0 /\
     (do r <- append_dotdots Windows E k path_default;; append_all Windows E ((if d then [Path [backslash] [] ROOT_DIR] else []) ++ map fpath (ns ++ (if e then [[]] else []))) r) =
     append_all Windows E (map fpath (ns ++ (if e then [[]] else []))) r0).
  { destruct d.
    - rewrite (Hdk eq_refl) in *. cbn [append_dotdots bind app append_all repeat]. exists (Path [backslash] [] ROOT_DIR). split; [left; reflexivity|]. rewrite append_root. reflexivity.
    - destruct (dotdots k 0 path_default) as (r0 & -> & HR0); [right; left; split; reflexivity|]. exists r0. split; [exact HR0|]. reflexivity. }
  destruct Hpre as (r0 & HR0 & Hloop). destruct (append_names ns e d _ false r0 Hok HR0) as (r1 & H1 & HR1).
  assert (Htr : (if e then true else if is_nil ns then false else false) = e) by (destruct e; [reflexivity|destruct (is_nil ns); reflexivity]). rewrite Htr in HR1. clear Htr.
  exists (fin Windows (el_other E) r1), d, (repeat (lit "..") k ++ ns), e. rewrite (fin_ctext _ _ _ _ _ _ Hok HR1).
  split; [|split; [reflexivity|split; [exact Hok|split; [reflexivity|split; reflexivity]]]].
  assert (Hmain : (if (0 <=? count_updots (map fpath (ms ++ (if e' then [[]] else []))))%Z
    then do r <- append_dotdots Windows E (Z.to_nat (count_updots (map fpath (ms ++ (if e' then [[]] else []))))) path_default;;
         do r' <- append_all Windows E ((if d then [Path [backslash] [] ROOT_DIR] else []) ++ map fpath (ns ++ (if e then [[]] else []))) r;; Ok (fin Windows (el_other E) r')
    else Ok (fin Windows (el_other E) path_default)) = Ok (fin Windows (el_other E) r1)).
  { rewrite count_names, <- HB. assert ((0 <=? upcount (left_of_base s t))%Z = true) as -> by (apply Z.leb_le; exact Hup). fold k.
    change (map (fun n => Path n [] FILENAME)) with (map fpath) in H1. rewrite <- Hloop in H1. destruct (append_dotdots Windows E k path_default); cbn [bind] in *; try discriminate. rewrite H1. reflexivity. }
  rewrite rel_match; [exact Hmain|]. rewrite HA, HB in Hne. clear - Hne.
  destruct Hne as [H|H]; [left|right].
  - intros Hz. apply H. apply app_eq_nil in Hz. destruct Hz as [Hz1 Hz2]. apply map_eq_nil in Hz2. rewrite Hz2. destruct d; [discriminate|reflexivity].
  - intros Hz. apply H. apply map_eq_nil in Hz. exact Hz.
Qed.

(** A path equal to one made from some text. *)
Definition made (p : path) : Prop := p = path_default \/ exists u, p = split_components Windows u.

Lemma made_stable : forall p, made p -> native (split_components Windows (native p)) = native p.
Proof. intros p [->|(u & ->)]; [reflexivity|]. rewrite split_native. reflexivity. Qed.

Lemma made_fin : forall b p, made p -> made (fin Windows b p).
Proof. intros b p H. unfold fin. destruct b; [exact H|]. right. eauto. Qed.

Lemma append_made : forall p n, made p -> exists p', path_append Windows E true p (fpath n) = Ok p' /\ made p'.
Proof.
  intros p n H. assert (exists u, path_append Windows E true p (fpath n) = path_append Windows E true (split_components Windows u) (fpath n)) as (u & ->).
  { destruct H as [->|(u & ->)]; [exists []; apply default_append|eauto]. }
  unfold path_append. destruct (fpath_facts E n) as (-> & -> & ->). cbn [andb orb].
  assert (exists b, has_filename Windows (split_components Windows u) = Ok b) as (b & ->).
  { destruct u as [|x u]; [eexists; reflexivity|]. destruct (split_root no_wsep (x :: u)) as [rn rest] eqn:Hr. eexists. apply (filename_split (x :: u) rn rest ltac:(discriminate) Hr). }
  cbn [bind]. eexists. split; [reflexivity|]. right. rewrite swap_first. eauto.
Qed.

Lemma append_all_made : forall l p, made p -> exists p', append_all Windows E (map fpath l) p = Ok p' /\ made p'.
Proof.
  induction l as [|n l IH]; intros p H; [exists p; auto|]. cbn [map append_all]. destruct (append_made p n H) as (p1 & -> & H1). cbn [bind]. apply IH. exact H1.
Qed.

Lemma dotdots_made : forall k p, made p -> exists p', append_dotdots Windows E k p = Ok p' /\ made p'.
Proof.
  induction k as [|k IH]; intros p H; [exists p; auto|]. cbn [append_dotdots]. change (split_components Windows [dot; dot]) with (fpath (lit "..")). destruct (append_made p (lit "..") H) as (p1 & -> & H1). cbn [bind]. apply IH. exact H1.
Qed.

Definition unrelated (s t : str) : bool :=
  negb (str_eqb (wroot s) (wroot t)) || negb (Bool.eqb (wabsolute s) (wabsolute t)) || negb (wrooted s) && wrooted t.

Lemma relative_head : forall s t, lexically_relative Windows E (split_components Windows s) (split_components Windows t) =
  if unrelated s t then Ok (fin Windows (el_other E) path_default)
  else let '(a, b) := mismatch (elems (split_components Windows s)) (elems (split_components Windows t)) in
    match a, b with
    | [], [] => Ok (fin Windows (el_other E) (split_components Windows [dot]))
    | _, _ =>
        let n := count_updots b in
        if (0 <=? n)%Z then
          do r <- append_dotdots Windows E (Z.to_nat n) path_default ;;
          do r' <- append_all Windows E a r ;;
          Ok (fin Windows (el_other E) r')
        else Ok (fin Windows (el_other E) path_default)
    end.
Proof.
  intros s t. unfold lexically_relative, unrelated. rewrite root_names_ne.
  assert (Hrd : forall s, has_root_directory Windows E (split_components Windows s) = wrooted s) by (clear; intros s; unfold wrooted, wrest; destruct (split_root no_wsep s) eqn:Hr; apply (has_root_directory_split _ _ _ _ Hr)).
  assert (Ha : forall s, is_absolute Windows E (split_components Windows s) = wabsolute s) by (clear; intros s; unfold wabsolute, wroot, wrooted, wrest; destruct (split_root no_wsep s) eqn:Hr; cbn [fst snd]; rewrite host_preferred; apply (is_absolute_split _ _ _ _ Hr)).
  rewrite !Hrd, !Ha. destruct (negb (str_eqb _ _)); [reflexivity|]. destruct (negb (Bool.eqb _ _)); [reflexivity|]. reflexivity.
Qed.

Lemma related : forall s t, unrelated s t = false -> wroot s = wroot t /\ wabsolute s = wabsolute t /\ (wrooted t = true -> wrooted s = true).
Proof.
  intros s t H. unfold unrelated in H. apply orb_false_iff in H. destruct H as [H H3]. apply orb_false_iff in H. destruct H as [H1 H2].
  apply negb_false_iff in H1, H2. apply str_eqb_spec in H1. apply Bool.eqb_prop in H2. split; [exact H1|]. split; [exact H2|]. intros Ht. rewrite Ht, andb_true_r in H3. apply negb_false_iff in H3. exact H3.
Qed.

Lemma relative_made : forall s t, exists r, lexically_relative Windows E (split_components Windows s) (split_components Windows t) = Ok r /\ made r.
Proof.
  intros s t. rewrite relative_head. destruct (unrelated s t) eqn:Hu; [eexists; split; [reflexivity|]; apply made_fin; left; reflexivity|].
  destruct (related s t Hu) as (H1 & H2 & H3). destruct (left_names s t H1 H2 H3) as (c & ns & e & ms & e' & d & _ & _ & _ & _ & Hdt & _ & _ & _ & Hm). rewrite Hm.
  assert (G : exists r, (let n := count_updots (map fpath (ms ++ (if e' then [[]] else []))) in
        if (0 <=? n)%Z then
          do r <- append_dotdots Windows E (Z.to_nat n) path_default ;;
          do r' <- append_all Windows E ((if d then [Path [backslash] [] ROOT_DIR] else []) ++ map fpath (ns ++ (if e then [[]] else []))) r ;;
          Ok (fin Windows (el_other E) r')
        else Ok (fin Windows (el_other E) path_default)) = Ok r /\ made r).
  { cbv zeta. rewrite count_names. destruct (0 <=? upcount (ms ++ (if e' then [[]] else [])))%Z; [|eexists; split; [reflexivity|]; apply made_fin; left; reflexivity].
    destruct d.
    - destruct (Hdt eq_refl) as (-> & -> & _). cbn [app upcount fold_left Z.to_nat append_dotdots bind append_all]. rewrite append_root. cbn [bind].
      destruct (append_all_made (ns ++ (if e then [[]] else [])) (Path [backslash] [] ROOT_DIR)) as (r & -> & Hr); [right; exists [backslash]; reflexivity|]. cbn [bind]. eexists. split; [reflexivity|]. apply made_fin. exact Hr.
    - destruct (dotdots_made (Z.to_nat (upcount (ms ++ (if e' then [[]] else [])))) path_default (or_introl eq_refl)) as (r0 & -> & Hr0). cbn [bind app].
      destruct (append_all_made (ns ++ (if e then [[]] else [])) r0 Hr0) as (r & -> & Hr). cbn [bind]. eexists. split; [reflexivity|]. apply made_fin. exact Hr. }
  destruct ((if d then [Path [backslash] [] ROOT_DIR] else []) ++ map fpath (ns ++ (if e then [[]] else []))); destruct (map fpath (ms ++ (if e' then [[]] else []))); try exact G.
  eexists. split; [reflexivity|]. apply made_fin. right. eauto.
Qed.

End Rel.

(** ** Theorems *)

(** There is always a result: no exception, no failed assertion, no undefined behaviour. *)
Theorem C78_always_a_result : forall E s t, exists q r,
  lexically_relative Windows E (split_components Windows s) (split_components Windows t) = Ok r /\
  lexically_proximate Windows E (split_components Windows s) (split_components Windows t) = Ok q /\
  native q = (if is_nil (native r) then native (split_components Windows s) else native r).
Proof.
  intros E s t. destruct (relative_made E s t) as (r & Hr & Hm). unfold lexically_proximate. rewrite Hr. cbn [bind]. destruct (is_nil (native r)) eqn:Hz.
  - exists (split_components Windows s), r. split; [reflexivity|]. split; [reflexivity|]. rewrite Hz. reflexivity.
  - exists (fin Windows (el_other E) r), r. split; [reflexivity|]. split; [reflexivity|]. rewrite Hz. unfold fin. destruct (el_other E); [reflexivity|]. apply made_stable. exact Hm.
Qed.

(** Different drives or hosts, or only one of the two absolute: the empty path. *)
Theorem C78_unrelated : forall E s t,
  wroot s <> wroot t \/ wabsolute s <> wabsolute t \/ (wrooted s = false /\ wrooted t = true) ->
  exists r, lexically_relative Windows E (split_components Windows s) (split_components Windows t) = Ok r /\ native r = [].
Proof.
  intros E s t H. assert (Hu : unrelated s t = true).
  { unfold unrelated. destruct H as [H|[H|[H H']]].
    - destruct (str_eqb (wroot s) (wroot t)) eqn:He; [apply str_eqb_spec in He; congruence|reflexivity].
    - destruct (Bool.eqb (wabsolute s) (wabsolute t)) eqn:He; [apply Bool.eqb_prop in He; congruence|]. cbn [negb]. rewrite orb_true_r. reflexivity.
    - rewrite H, H'. cbn. apply orb_true_r. }
  rewrite relative_head, Hu. eexists. split; [reflexivity|]. unfold fin. destruct (el_other E); reflexivity.
Qed.

(** The text of the result. *)
Theorem C78_text_partial : forall E s t, first_no_drive s t -> exists r,
  lexically_relative Windows E (split_components Windows s) (split_components Windows t) = Ok r /\ native r = wrelative_text s t.
Proof.
  intros E s t Hf. unfold wrelative_text. fold (unrelated s t). destruct (unrelated s t) eqn:Hu.
  - rewrite relative_head, Hu. eexists. split; [reflexivity|]. unfold fin. destruct (el_other E); reflexivity.
  - destruct (related s t Hu) as (H1 & H2 & H3). destruct (is_nil (left_of s t) && is_nil (left_of_base s t)) eqn:Hz.
    + apply andb_true_iff in Hz. destruct Hz as [Hz1 Hz2]. apply is_nil_true in Hz1, Hz2. rewrite relative_head, Hu.
      destruct (left_names s t H1 H2 H3) as (c & ns & e & ms & e' & d & HA & _ & HB & _ & _ & _ & _ & _ & Hm). rewrite Hm. rewrite Hz1 in HA. rewrite Hz2 in HB.
      destruct d; [discriminate|]. cbn [app] in *. rewrite <- HA, <- HB. cbn [map]. eexists. split; [reflexivity|]. unfold fin. destruct (el_other E); reflexivity.
    + destruct (upcount (left_of_base s t) <? 0)%Z eqn:Hlt.
      * apply Z.ltb_lt in Hlt. rewrite relative_head, Hu. destruct (left_names s t H1 H2 H3) as (c & ns & e & ms & e' & d & HA & _ & HB & _ & _ & _ & _ & _ & Hm). rewrite Hm, <- HB.
        rewrite rel_match; [|right; intros Hmb; apply map_eq_nil in Hmb; rewrite Hmb in Hlt; cbn in Hlt; lia]. rewrite count_names.
        assert ((0 <=? upcount (left_of_base s t))%Z = false) as -> by (apply Z.leb_gt; exact Hlt).
        eexists. split; [reflexivity|]. unfold fin. destruct (el_other E); reflexivity.
      * apply Z.ltb_ge in Hlt. assert (Hne : left_of s t <> [] \/ left_of_base s t <> []) by (destruct (left_of s t); [|left; discriminate]; destruct (left_of_base s t); [discriminate|right; discriminate]).
        destruct (relative_parts E s t H1 H2 H3 Hf Hne Hlt) as (r & d & ns & tr & Hr & _ & _ & Hn & _). exists r. split; [exact Hr|]. rewrite Hn. unfold wrelative_text. fold (unrelated s t). rewrite Hu, Hz.
        assert ((upcount (left_of_base s t) <? 0)%Z = false) as -> by (apply Z.ltb_ge; exact Hlt). reflexivity.
Qed.

(** Following the result from where the base leads ends where the path leads. *)
Theorem C78_meaning_partial : forall E s t, wroot s = wroot t -> wabsolute s = wabsolute t -> (wrooted t = true -> wrooted s = true) ->
  first_no_drive s t -> Forall (fun x => plain x = true \/ x = lit ".") (left_of_base s t) -> exists r,
  lexically_relative Windows E (split_components Windows s) (split_components Windows t) = Ok r /\
  wroot (native r) = [] /\ forall place, wresolve (wresolve place t) (native r) = wresolve place s.
Proof.
  intros E s t H1 H2 H3 Hf Hb. destruct (left_names s t H1 H2 H3) as (c & ns & e & ms & e' & d & HA & HF & HB & HF' & Hdt & Hdf & Hs & Ht & Hm).
  assert (e' = false) as ->.
  { destruct e'; [|reflexivity]. rewrite HB in Hb. apply Forall_app in Hb. destruct Hb as [_ Hb]. inversion Hb as [|? ? Hx _]. destruct Hx; discriminate. }
  rewrite app_nil_r in HB. rewrite HB in Hb. destruct (upcount_plain ms Hb) as (ps & Hup & Hw).
  destruct (is_nil (left_of s t) && is_nil (left_of_base s t)) eqn:Hz.
  - destruct (C78_text_partial E s t Hf) as (r & Hr & Hn). exists r. split; [exact Hr|]. rewrite Hn. unfold wrelative_text. fold (unrelated s t).
    assert (unrelated s t = false) as ->.
    { unfold unrelated. rewrite H1, H2, Bool.eqb_reflx. assert (str_eqb (wroot t) (wroot t) = true) as -> by (apply str_eqb_spec; reflexivity). cbn. clear - H3. destruct (wrooted s), (wrooted t); auto; discriminate (H3 eq_refl). }
    rewrite Hz. split; [reflexivity|]. intros place. apply andb_true_iff in Hz. destruct Hz as [Hz1 Hz2]. apply is_nil_true in Hz1, Hz2. rewrite Hz1 in HA. rewrite Hz2 in HB.
    destruct d; [discriminate|]. symmetry in HA. cbn [app] in HA. apply app_eq_nil in HA. destruct HA as [-> _]. subst ms. unfold wresolve at 1. cbn -[wresolve].
    unfold wresolve. rewrite Hs, Ht, (Hdf eq_refl). reflexivity.
  - assert (Hne : left_of s t <> [] \/ left_of_base s t <> []) by (destruct (left_of s t); [|left; discriminate]; destruct (left_of_base s t); [discriminate|right; discriminate]).
    assert (Hge : (0 <= upcount (left_of_base s t))%Z) by (rewrite HB, Hup; lia).
    destruct (relative_parts E s t H1 H2 H3 Hf Hne Hge) as (r & d' & l & tr & Hr & Hn & Hok & _ & Hl & Hd'). exists r. split; [exact Hr|]. rewrite Hn.
    destruct (ctext_root [] d' l tr Hok) as (rest & Hroot & _ & Hst & Hnm & _). unfold wroot. rewrite Hroot. split; [reflexivity|]. intros place.
    destruct (filter_names ns HF) as (F1 & F2 & F3). assert (Hll : l = repeat (lit "..") (length ps) ++ ns).
    { rewrite Hl, HB, Hup, Nat2Z.id. f_equal. rewrite HA, !filter_app, F1. destruct d, e; cbn; rewrite ?app_nil_r; reflexivity. }
    assert (Hdd : d' = d). { rewrite Hd', HA, !existsb_app, F3. destruct d, e; reflexivity. } clear Hd'. rewrite Hdd in *. clear Hdd d'.
    unfold wresolve at 1. unfold wrooted, wrest. rewrite Hroot. cbn [snd]. rewrite Hst, Hnm, Hll. destruct d.
    + destruct (Hdt eq_refl) as (-> & _ & Hsr & ->). assert (ps = []) as -> by (specialize (Hw []); cbn in Hw; symmetry; exact Hw). cbn [length repeat app].
      unfold wresolve. rewrite Hsr, Hs. reflexivity.
    + unfold wresolve. rewrite (Hdf eq_refl), Hs, Ht, !walk_app. rewrite Hw, walk_up_back. reflexivity.
Qed.

Lemma elements_root : forall s t, win_elements no_wsep s = win_elements no_wsep t -> wroot s <> [] -> wroot t = wroot s.
Proof.
  intros s t He Hs. unfold wroot in *. destruct (split_root no_wsep s) as [rn1 r1] eqn:Hr1. destruct (split_root no_wsep t) as [rn2 r2] eqn:Hr2. cbn [fst] in *.
  rewrite (win_elements_parts s rn1 r1 Hr1), (win_elements_parts t rn2 r2 Hr2) in He. unfold parts_elements in He.
  assert (is_nil (preferred rn1) = false) as Hz by (destruct (preferred rn1); [congruence|reflexivity]). rewrite Hz in He. cbn [app] in He.
  destruct (is_nil (preferred rn2)) eqn:Hz2; [|cbn [app] in He; injection He as He _; symmetry; exact He]. exfalso. apply is_nil_true in Hz2.
  destruct (split_parts_ok t rn2 r2 Hr2) as (_ & Hn & Hd & _). rewrite Hz2 in Hd. specialize (Hd eq_refl).
  destruct (root_text_split s rn1 r1 Hr1) as [H|[(a & H & Ha)|(w & H & Hw & Hp)]]; [congruence| |]; rewrite H in He; destruct (wstarts r2); cbn [app] in He; try discriminate.
  - specialize (Hd eq_refl). destruct (wnames r2) as [|n ns]; [rewrite andb_false_r in He; discriminate|]. cbn [app] in He. injection He as He _. specialize (Hd n eq_refl). rewrite <- He in Hd. cbn in Hd. congruence.
  - destruct (wnames r2) as [|n ns]; [rewrite andb_false_r in He; discriminate|]. cbn [app] in He. injection He as He _. inversion Hn as [|? ? [_ Hx] _]. rewrite <- He in Hx. discriminate.
Qed.

Lemma elements_rooted : forall s t, win_elements no_wsep s = win_elements no_wsep t -> wroot s = wroot t -> wrooted s = wrooted t.
Proof.
  intros s t He Hs. unfold wroot, wrooted, wrest in *. destruct (split_root no_wsep s) as [rn1 r1] eqn:Hr1. destruct (split_root no_wsep t) as [rn2 r2] eqn:Hr2. cbn [fst snd] in *.
  rewrite (win_elements_parts s rn1 r1 Hr1), (win_elements_parts t rn2 r2 Hr2) in He. unfold parts_elements in He. rewrite Hs in He. apply app_inv_head in He.
  pose proof (wnames_all r1) as H1. pose proof (wnames_all r2) as H2.
  assert (G : forall x l (b : bool), Forall wname l -> [backslash] :: x = l ++ (if b && negb (is_nil l) then [[]] else []) -> False).
  { intros x [|n l] b Hl Hx; [rewrite andb_false_r in Hx; discriminate|]. injection Hx as <- _. inversion Hl as [|? ? [_ Hp] _]. discriminate. }
  destruct (wstarts r1), (wstarts r2); auto; exfalso; cbn [app] in He; [eapply G; [exact H2|exact He]|symmetry in He; eapply G; [exact H1|exact He]].
Qed.

(** The same elements: a single dot. *)
Theorem C78_same : forall E s t, win_elements (fun c => negb (is_wsep c)) s = win_elements (fun c => negb (is_wsep c)) t -> exists r,
  lexically_relative Windows E (split_components Windows s) (split_components Windows t) = Ok r /\ native r = lit ".".
Proof.
  intros E s t He. change (fun c => negb (is_wsep c)) with no_wsep in He.
  assert (Hl : forall l, strip_common l l = ([], [])).
  { induction l as [|x l IH]; [reflexivity|]. cbn [strip_common]. assert (str_eqb x x = true) as -> by (apply str_eqb_spec; reflexivity). exact IH. }
  assert (Hr : wroot s = wroot t).
  { destruct (is_nil (wroot s)) eqn:Hz; [|symmetry; apply elements_root; [exact He|intros H; rewrite H in Hz; discriminate]]. apply is_nil_true in Hz.
    destruct (is_nil (wroot t)) eqn:Hz2; [apply is_nil_true in Hz2; congruence|]. apply elements_root; [symmetry; exact He|intros H; rewrite H in Hz2; discriminate]. }
  pose proof (elements_rooted s t He Hr) as Hd.
  destruct (C78_text_partial E s t) as (r & H & Hn).
  - right. unfold left_of. rewrite He, Hl. cbn. discriminate.
  - exists r. split; [exact H|]. rewrite Hn. unfold wrelative_text, wabsolute, left_of, left_of_base. rewrite Hr, Hd, He, Hl, Bool.eqb_reflx. assert (str_eqb (wroot t) (wroot t) = true) as -> by (apply str_eqb_spec; reflexivity).
    cbn [negb orb fst snd is_nil andb]. destruct (wrooted t); reflexivity.
Qed.

(** A name that looks like a drive becomes one when it comes first in the result: the file "c:y" in \d, seen from \d,
    is said to be the file y on drive c. *)
Theorem C78_hidden_drive_refuted : forall E a, is_wsep a = false -> exists r,
  lexically_relative Windows E (split_components Windows (lit "\d\" ++ a :: lit ":y")) (split_components Windows (lit "\d")) = Ok r /\
  wroot (lit "\d\" ++ a :: lit ":y") = [] /\ wroot (native r) = [a; colon].
Proof.
  intros E a Ha. set (s := lit "\d\" ++ a :: lit ":y").
  assert (Hroot : split_root no_wsep s = ([], s)) by reflexivity.
  assert (Hn : wnames s = [lit "d"; a :: lit ":y"]).
  { unfold s. change (lit "\d\" ++ a :: lit ":y") with (lit "\d" ++ backslash :: (a :: lit ":y")).
    rewrite wnames_app by reflexivity. rewrite (wnames_plain (a :: lit ":y")); [reflexivity|discriminate|]. unfold wplain. cbn [forallb]. unfold no_wsep at 1. rewrite Ha. reflexivity. }
  assert (Hws : win_elements no_wsep s = [[backslash]; lit "d"; a :: lit ":y"]).
  { rewrite (win_elements_parts s [] s Hroot). unfold parts_elements. rewrite Hn. reflexivity. }
  assert (Hrs : wrooted s = true) by reflexivity. assert (Hr1 : wroot s = []) by reflexivity.
  assert (Hu : unrelated s (lit "\d") = false) by reflexivity.
  destruct (related s (lit "\d") Hu) as (G1 & G2 & G3). destruct (left_names s (lit "\d") G1 G2 G3) as (c & ns & e & ms & e' & d & HA & HF & HB & _ & _ & _ & _ & _ & Hm).
  assert (Hl : left_of s (lit "\d") = [a :: lit ":y"]) by (unfold left_of; rewrite Hws; reflexivity).
  assert (Hlb : left_of_base s (lit "\d") = []) by (unfold left_of_base; rewrite Hws; reflexivity).
  rewrite relative_head, Hu, Hm, <- HB, Hlb. rewrite Hl in HA. destruct d; [discriminate|]. cbn [app] in *. rewrite <- HA. cbn [map count_updots fold_left Z.leb Z.compare Z.to_nat append_dotdots bind append_all].
  assert (Hok0 : ctext_ok [] false []) by (split; [left; reflexivity|]; split; [constructor|]; split; [discriminate|discriminate]).
  rewrite (Rep_append E [] false [] false path_default (fpath (a :: lit ":y")) Hok0 (hosted false) (or_intror (or_introl (conj eq_refl eq_refl))) (or_intror (ex_intro _ _ eq_refl))). cbn [bind].
  eexists. split; [reflexivity|]. split; [reflexivity|]. change (ctext [] false [] true ++ pathname (fpath (a :: lit ":y"))) with (a :: lit ":y").
  assert (Hst : forall b, native (fin Windows b (split_components Windows (a :: lit ":y"))) = a :: lit ":y").
  { assert (Hok : ctext_ok [a; colon] false [lit "y"]).
    { split; [right; left; exists a; auto|]. split; [constructor; [split; [discriminate|reflexivity]|constructor]|]. split; [discriminate|]. cbn. rewrite Ha. discriminate. }
    intros b. pose proof (fin_ctext [a; colon] false [lit "y"] false (split_components Windows (a :: lit ":y")) b Hok (or_introl eq_refl)) as H. exact H. }
  rewrite Hst. unfold wroot. assert (Hr2 : split_root no_wsep (a :: lit ":y") = ([a; colon], lit "y")) by (cbn [split_root lit list_ascii_of_string]; unfold no_wsep; rewrite Ha; reflexivity).
  rewrite Hr2. cbn [fst]. unfold preferred. cbn [map]. rewrite (plain_nosep a Ha). reflexivity.
Qed.

(** ** Instances *)

Example C78_example : forall E, exists r,
  lexically_relative Windows E (split_components Windows (lit "c:/a/b\c")) (split_components Windows (lit "c:\a/d\.\e")) = Ok r /\
  native r = lit "..\..\b\c" /\ first_no_drive (lit "c:/a/b\c") (lit "c:\a/d\.\e") /\
  wresolve (wresolve [] (lit "c:\a/d\.\e")) (lit "..\..\b\c") = [lit "a"; lit "b"; lit "c"].
Proof.
  intros E. assert (Hf : first_no_drive (lit "c:/a/b\c") (lit "c:\a/d\.\e")) by (left; vm_compute; reflexivity).
  destruct (C78_text_partial E (lit "c:/a/b\c") (lit "c:\a/d\.\e") Hf) as (r & Hr & Hn). exists r. split; [exact Hr|]. split; [rewrite Hn; vm_compute; reflexivity|]. split; [exact Hf|reflexivity].
Qed.

Example C78_meaning_example : wroot (lit "\\h\a") = wroot (lit "//h/b/c") /\ wabsolute (lit "\\h\a") = wabsolute (lit "//h/b/c") /\
  first_no_drive (lit "\\h\a") (lit "//h/b/c") /\ Forall (fun x => plain x = true \/ x = lit ".") (left_of_base (lit "\\h\a") (lit "//h/b/c")) /\
  wrelative_text (lit "\\h\a") (lit "//h/b/c") = lit "..\..\a" /\ wrelative_text (lit "//h/a") (lit "//h") = lit "\a" /\
  wroot (lit "c:\a") <> wroot (lit "d:\a").
Proof.
  split; [reflexivity|]. split; [reflexivity|]. split; [left; vm_compute; reflexivity|]. split; [repeat constructor|]. split; [vm_compute; reflexivity|]. split; [vm_compute; reflexivity|]. discriminate.
Qed.

Example C78_same_example : win_elements (fun c => negb (is_wsep c)) (lit "c:\a//b") = win_elements (fun c => negb (is_wsep c)) (lit "c:/a\b").
Proof. reflexivity. Qed.

Print Assumptions C78_always_a_result.
Print Assumptions C78_unrelated.
Print Assumptions C78_text_partial.
Print Assumptions C78_meaning_partial.
Print Assumptions C78_same.
Print Assumptions C78_hidden_drive_refuted.
