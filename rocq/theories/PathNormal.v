(** lexically_normal on constructed POSIX paths. *)
From Coq Require Import Ascii String Bool Arith NArith ZArith Lia List.
From Verif Require Import Str PathModel PathSpec StrProofs PathProofs PathOps PathOps2.
Import ListNotations.

(** * Iteration yields constructed paths *)

Lemma tok_paths : forall rest off cur, noslash cur ->
  map comp_path (tok off cur rest) = map mkpath (names (cur ++ rest)).
Proof.
  intros. rewrite <- (tok_names rest off cur) by auto. rewrite map_map. apply map_ext_in.
  intros c Hc. pose proof (tok_types _ _ _ _ Hc) as Ht.
  assert (In (c_str c) (names (cur ++ rest))).
  { rewrite <- (tok_names rest off cur) by auto. apply in_map. auto. }
  pose proof (names_all (cur ++ rest)) as HF. rewrite Forall_forall in HF. apply HF in H0 as [H0 _].
  rewrite mkpath_name by auto. unfold comp_path. rewrite Ht. reflexivity.
Qed.

Lemma comp_paths_mkcomps : forall s, map comp_path (mkcomps s) = map mkpath (elements s).
Proof.
  intros. unfold mkcomps, elements. rewrite !map_app. rewrite tok_paths by reflexivity.
  f_equal; [|f_equal].
  - unfold rootc. destruct (starts_slash s); reflexivity.
  - unfold trailc. destruct (_ && _); reflexivity.
Qed.

Lemma elems_paths : forall s, elems (mkpath s) = map mkpath (elements s).
Proof.
  intros. destruct (mkpath_shape s) as [->|H1 H2|H1 H2|H1 H2 H3]; unfold elems; cbn [ptyp comps].
  - reflexivity.
  - rewrite elements_only by auto. reflexivity.
  - rewrite elements_noslash by auto. unfold empty. cbn [pathname]. destruct s; [congruence|].
    cbn [is_nil map]. rewrite mkpath_name by auto. reflexivity.
  - apply comp_paths_mkcomps.
Qed.

(** * Representations met inside the loop *)

Definition loose (s : str) (k : nat) : list comp :=
  rootc s ++ tok 0 [] s ++ (if ends_slash s && negb (is_nil (names s)) then [Comp [] FILENAME k] else []).

Definition is_loose (s : str) (p : path) : Prop :=
  s <> [] /\ ends_slash s = true /\ exists k, p = Path s (loose s k) MULTI.

Definition Rep (s : str) (p : path) : Prop :=
  is_text s /\ (p = mkpath s \/ (s = [] /\ p = path_default) \/ is_loose s p).

Lemma loose_types : forall s k c, In c (loose s k) -> c_type c <> ROOT_NAME.
Proof.
  intros s k c H. unfold loose in H. apply in_app_or in H as [H|H]; [|apply in_app_or in H as [H|H]].
  - apply rootc_type in H. congruence.
  - apply tok_types in H. congruence.
  - destruct (_ && _); cbn in H; [destruct H as [<-|[]]; cbn; congruence|contradiction].
Qed.

Lemma loose_head : forall s k, names s <> [] -> exists l c,
  tok 0 [] s ++ (if ends_slash s && negb (is_nil (names s)) then [Comp [] FILENAME k] else []) = c :: l /\
  c_type c = FILENAME /\ c_pos c = length s - length (drop_slashes s).
Proof.
  intros. destruct (tok_first s 0 H) as (n & l & -> & _). cbn [app].
  eexists. eexists. split; [reflexivity|]. auto.
Qed.

Lemma loose_no_rn : forall s k, has_root_name (Path s (loose s k) MULTI) = false.
Proof.
  intros. unfold has_root_name. cbn [ptyp comps ptype_eqb orb].
  destruct (loose s k) eqn:Hm; auto.
  pose proof (loose_types s k c). rewrite Hm in H. specialize (H (or_introl eq_refl)).
  destruct (c_type c) eqn:?; cbn; congruence.
Qed.

Lemma skip_root_name_loose : forall s k, skip_root_name (loose s k) = loose s k.
Proof.
  intros. unfold skip_root_name. destruct (loose s k) eqn:Hm; auto.
  pose proof (loose_types s k c). rewrite Hm in H. specialize (H (or_introl eq_refl)).
  destruct (c_type c) eqn:?; cbn; congruence.
Qed.

Lemma has_root_directory_loose : forall E s k, has_root_directory Posix E (Path s (loose s k) MULTI) = starts_slash s.
Proof.
  intros. unfold has_root_directory, root_directory. cbn [ptyp comps]. rewrite skip_root_name_loose.
  unfold loose. destruct (rootc_cases s) as [[Hs ->]|[Hs ->]]; rewrite Hs; cbn [app].
  - cbn. destruct (el_other E); reflexivity.
  - destruct (names s) as [|n ns] eqn:Hn.
    + rewrite (proj2 (tok_nil_names s) Hn). cbn [is_nil negb]. rewrite andb_false_r. cbn.
      destruct (el_other E); reflexivity.
    + rewrite <- Hn. destruct (loose_head s k) as (l & c & -> & Hc & _); [congruence|].
      rewrite Hc. cbn. destruct (el_other E); reflexivity.
Qed.

Lemma has_relative_path_loose : forall E s k,
  has_relative_path Posix E (Path s (loose s k) MULTI) = Ok (negb (is_nil (names s))).
Proof.
  intros. unfold has_relative_path, relative_path. cbn [ptyp comps]. rewrite skip_root_name_loose.
  assert (Hsk : skip_root_dir (loose s k) =
    tok 0 [] s ++ (if ends_slash s && negb (is_nil (names s)) then [Comp [] FILENAME k] else [])).
  { unfold loose. destruct (rootc_cases s) as [[Hs ->]|[Hs ->]]; auto. cbn [app].
    destruct (names s) as [|n ns] eqn:Hn.
    - rewrite (proj2 (tok_nil_names s) Hn). cbn [is_nil negb]. rewrite andb_false_r. reflexivity.
    - rewrite <- Hn. destruct (loose_head s k) as (l & c & -> & Hc & _); [congruence|].
      unfold skip_root_dir. rewrite Hc. reflexivity. }
  rewrite Hsk. destruct (names s) as [|n ns] eqn:Hn.
  - rewrite (proj2 (tok_nil_names s) Hn). cbn [is_nil negb]. rewrite andb_false_r. cbn.
    destruct (el_other E); reflexivity.
  - rewrite <- Hn. destruct (loose_head s k) as (l & c & -> & Hc & Hp); [congruence|]. rewrite Hp.
    unfold str_substr_from. cbn [pathname]. rewrite (proj2 (Nat.leb_le _ _)) by lia. cbn [bind].
    rewrite skipn_drop_slashes. unfold empty. change (pathname ?p) with (native p).
    rewrite fin_mkpath, native_is_text by apply drop_slashes_text. rewrite Hn. cbn [is_nil negb].
    destruct (drop_slashes s) eqn:Hd; auto. apply drop_slashes_nil in Hd. congruence.
Qed.

Lemma has_filename_loose : forall s k, s <> [] -> ends_slash s = true ->
  has_filename Posix (Path s (loose s k) MULTI) = Ok false.
Proof.
  intros. unfold has_filename, filename, empty. cbn [pathname ptyp].
  destruct s as [|c r] eqn:Hs; [congruence|]. cbn [is_nil]. rewrite <- Hs in *. rewrite last_pref, H0. reflexivity.
Qed.

(** Observations on any representation. *)
Lemma Rep_pathname : forall s p, Rep s p -> pathname p = s.
Proof.
  intros s p [Ht [->|[[-> ->]|(_ & _ & k & ->)]]]; auto. apply (native_is_text s Ht).
Qed.

Lemma Rep_no_rn : forall s p, Rep s p -> has_root_name p = false.
Proof.
  intros s p [Ht [->|[[-> ->]|(_ & _ & k & ->)]]]; auto.
  - apply has_root_name_mkpath.
  - apply loose_no_rn.
Qed.

Lemma Rep_root_directory : forall E s p, Rep s p -> has_root_directory Posix E p = starts_slash s.
Proof.
  intros E s p [Ht [->|[[-> ->]|(_ & _ & k & ->)]]]; auto.
  - apply has_root_directory_mkpath.
  - destruct E as [? ? []]; reflexivity.
  - apply has_root_directory_loose.
Qed.

Lemma Rep_has_filename : forall s p, Rep s p -> has_filename Posix p = Ok (negb (is_nil (after_last_slash s))).
Proof.
  intros s p [Ht [->|[[-> ->]|(Hn & He & k & ->)]]]; auto.
  - apply has_filename_mkpath.
  - rewrite has_filename_loose, ends_after by auto. reflexivity.
Qed.

Lemma Rep_has_relative_path : forall E s p, Rep s p -> has_relative_path Posix E p = Ok (negb (is_nil (names s))).
Proof.
  intros E s p [Ht [->|[[-> ->]|(Hn & He & k & ->)]]]; auto.
  - apply has_relative_path_mkpath.
  - destruct E as [? ? []]; reflexivity.
  - apply has_relative_path_loose.
Qed.

Lemma path_eta : forall p, Path (pathname p) (comps p) (ptyp p) = p.
Proof. destruct p; reflexivity. Qed.

Lemma Rep_append : forall E g s p q, Rep s p -> canon q ->
  path_append Posix E g p q = Ok (mkpath (append_text s (native q))).
Proof.
  intros E g s p q Hp Hq.
  assert (Hqs : path_append Posix E g p q = path_append Posix E g p (mkpath (native q))).
  { destruct (canon_cases q Hq) as [[->|Hq1] _].
    - apply path_append_default_r.
    - rewrite Hq1 at 1. reflexivity. }
  rewrite Hqs. assert (Htq : is_text (native q)) by (apply canon_native; auto).
  revert Htq. generalize (native q). clear q Hq Hqs. intros b Htb.
  pose proof (native_is_text b Htb) as Hnb. unfold native in Hnb.
  unfold path_append. rewrite has_root_name_mkpath, is_absolute_mkpath, has_root_directory_mkpath.
  rewrite (Rep_no_rn _ _ Hp), (Rep_has_filename _ _ Hp), (Rep_root_directory E _ _ Hp), (Rep_pathname _ _ Hp).
  unfold is_absolute. rewrite (Rep_no_rn _ _ Hp), (Rep_root_directory E _ _ Hp).
  rewrite mkpath_ptyp_rn.
  rewrite (mkpath_no_rootname_lhs _ b (fun c => skipn (length (c_str c)) (pathname (mkpath b)))).
  rewrite Hnb. cbn [negb andb orb]. rewrite andb_true_r, !orb_false_r. unfold append_text.
  destruct (starts_slash b) eqn:Hb; [reflexivity|].
  replace (negb (starts_slash s) && starts_slash s) with false by (destruct (starts_slash s); reflexivity).
  cbn [bind preferred_separator]. rewrite orb_false_r.
  destruct g; destruct (is_nil (after_last_slash s)); cbn [negb swap fst app];
      rewrite <- ?app_assoc; cbn [app]; f_equal;
      rewrite ?path_eta; reflexivity.
Qed.

Lemma Rep_mkpath : forall s, is_text s -> Rep s (mkpath s).
Proof. intros. split; auto. Qed.

(** * States of the loop *)

Definition nf_text (a : bool) (stk : list str) (tr : bool) : str :=
  (if a then [slash] else []) ++ join (rev stk) ++
  (if tr && negb (is_nil stk) then [slash] else []).

Lemma goodname_rev : forall l, Forall goodname l -> Forall goodname (rev l).
Proof. intros. apply Forall_rev. auto. Qed.

Lemma join_rev_cons : forall n stk, join (rev (n :: stk)) =
  match stk with [] => n | _ => join (rev stk) ++ slash :: n end.
Proof.
  intros. cbn [rev]. destruct stk as [|x r]; [reflexivity|].
  apply join_snoc. cbn [rev]. destruct (rev r); discriminate.
Qed.

Lemma starts_nf : forall a stk tr, Forall goodname stk -> starts_slash (nf_text a stk tr) = a.
Proof.
  intros. unfold nf_text. destruct a; [reflexivity|]. cbn [app].
  pose proof (starts_join _ (goodname_rev _ H)) as Hs.
  destruct (join (rev stk)) eqn:Hj; auto.
  destruct stk as [|x r]; [rewrite andb_false_r; reflexivity|].
  exfalso. apply (join_ne (rev (x :: r))); auto. apply goodname_rev; auto.
  cbn. destruct (rev r); discriminate.
Qed.

Lemma names_app_sl : forall a, names (a ++ [slash]) = names a.
Proof. intros. rewrite names_app_slash. cbn. apply app_nil_r. Qed.

Lemma names_nf : forall a stk tr, Forall goodname stk -> names (nf_text a stk tr) = rev stk.
Proof.
  intros. unfold nf_text. rewrite app_assoc.
  assert (Hb : names ((if a then [slash] else []) ++ join (rev stk)) = rev stk).
  { destruct a; cbn [app]; rewrite ?names_cons_slash; apply names_join, goodname_rev; auto. }
  destruct (tr && negb (is_nil stk)).
  - rewrite names_app_sl. auto.
  - rewrite app_nil_r. auto.
Qed.

Lemma nf_is_text : forall a stk tr, Forall goodname stk -> is_text (nf_text a stk tr).
Proof.
  intros. destruct stk as [|x r].
  - unfold nf_text. rewrite andb_false_r. destruct a; reflexivity.
  - apply names_is_text. rewrite names_nf by auto. cbn. destruct (rev r); discriminate.
Qed.

Lemma nf_nil : forall a tr, nf_text a [] tr = if a then [slash] else [].
Proof. intros. unfold nf_text. rewrite andb_false_r. destruct a; reflexivity. Qed.

Lemma nf_trail : forall a x r, nf_text a (x :: r) true = nf_text a (x :: r) false ++ [slash].
Proof. intros. unfold nf_text. cbn [is_nil negb andb]. rewrite app_nil_r, app_assoc. reflexivity. Qed.

Lemma nf_cons : forall a x r, nf_text a (x :: r) false = nf_text a r true ++ x.
Proof.
  intros. unfold nf_text. cbn [andb]. rewrite app_nil_r, join_rev_cons.
  destruct r as [|y r].
  - cbn [is_nil negb andb rev join app]. rewrite !app_nil_r. reflexivity.
  - cbn [is_nil negb andb]. rewrite <- !app_assoc. reflexivity.
Qed.

Lemma nf_true_slash : forall a r, nf_text a r true = [] \/ ends_slash (nf_text a r true) = true.
Proof.
  intros. destruct r as [|x r].
  - rewrite nf_nil. destruct a; auto.
  - rewrite nf_trail, ends_slash_snoc. auto.
Qed.

Lemma sep_before_name : forall x n, noslash n -> n <> [] -> x = [] \/ ends_slash x = true ->
  after_last_slash (x ++ n) = n /\ upto_last_slash (x ++ n) = x.
Proof.
  intros x n H1 H2 [->|Hx].
  - cbn [app]. rewrite after_last_slash_noslash, upto_last_slash_noslash; auto.
  - apply ends_slash_spec in Hx as [a ->]. rewrite <- app_assoc. cbn [app].
    rewrite after_last_slash_app, upto_last_slash_app by auto. auto.
Qed.

Lemma after_nf_name : forall a x r, goodname x ->
  after_last_slash (nf_text a (x :: r) false) = x /\ upto_last_slash (nf_text a (x :: r) false) = nf_text a r true.
Proof. intros a x r [H1 H2]. rewrite nf_cons. apply sep_before_name; auto. apply nf_true_slash. Qed.

Lemma after_nf_true : forall a r, after_last_slash (nf_text a r true) = [].
Proof. intros. apply after_last_nil. apply nf_true_slash. Qed.

Lemma nf_tr_nil : forall a tr, nf_text a [] tr = nf_text a [] true.
Proof. intros. rewrite !nf_nil. reflexivity. Qed.

(** Appending to a state. *)
Lemma append_nf_empty : forall a stk tr, Forall goodname stk ->
  append_text (nf_text a stk tr) [] = nf_text a stk true.
Proof.
  intros. unfold append_text. cbn [starts_slash]. rewrite app_nil_r.
  destruct stk as [|x r].
  - rewrite (nf_tr_nil a tr), after_nf_true. cbn. apply app_nil_r.
  - destruct tr.
    + rewrite after_nf_true. cbn. apply app_nil_r.
    + inversion H; subst. destruct (after_nf_name a x r) as [-> _]; auto.
      destruct H2 as [_ H2]. destruct x; [congruence|]. cbn [is_nil]. rewrite nf_trail. reflexivity.
Qed.

Lemma append_nf_name : forall a stk tr n, Forall goodname stk -> goodname n ->
  append_text (nf_text a stk tr) n = nf_text a (n :: stk) false.
Proof.
  intros a stk tr n H Hn. unfold append_text.
  assert (starts_slash n = false) as ->.
  { destruct Hn as [Hn _]. destruct n; auto. apply noslash_cons in Hn. cbn. tauto. }
  rewrite nf_cons. rewrite app_assoc. f_equal.
  rewrite <- (append_nf_empty a stk tr) by auto. unfold append_text. cbn [starts_slash].
  rewrite app_nil_r. reflexivity.
Qed.

(** * The branch with a trailing separator *)

Lemma nth_error_mid : forall A (l : list A) x r, nth_error (l ++ x :: r) (length l) = Some x.
Proof. intros. rewrite nth_error_app2, Nat.sub_diag by lia. reflexivity. Qed.

Lemma tok_snoc_name : forall x n, (x = [] \/ ends_slash x = true) -> noslash n -> n <> [] ->
  tok 0 [] (x ++ n ++ [slash]) = tok 0 [] x ++ [Comp n FILENAME (length x)].
Proof.
  intros x n [->|Hx] H1 H2.
  - cbn [app length]. rewrite tok_trail, tok_name by auto. reflexivity.
  - apply ends_slash_spec in Hx as [a ->]. rewrite <- app_assoc. cbn [app].
    change (slash :: n ++ [slash]) with ((slash :: n) ++ [slash]).
    rewrite app_assoc, tok_trail, tok_last, tok_trail by auto. rewrite app_length. reflexivity.
Qed.

Definition is_updir (n : str) : bool := str_eqb n (lit "..").

Lemma is_dotdot_eq : forall p, is_dotdot p = str_eqb (native p) (lit "..").
Proof.
  intros. unfold is_dotdot, str_eqb. destruct (str_eq_dec (native p) (lit "..")) as [->|H]; [reflexivity|].
  destruct (native p) as [|c [|d [|e r]]]; auto.
  destruct (Ascii.eqb c dot) eqn:Hc; auto. destruct (Ascii.eqb d dot) eqn:Hd; auto.
  apply Ascii.eqb_eq in Hc, Hd. subst. exfalso. apply H. reflexivity.
Qed.

Lemma is_dot_eq : forall p, is_dot p = str_eqb (native p) (lit ".").
Proof.
  intros. unfold is_dot, str_eqb. destruct (str_eq_dec (native p) (lit ".")) as [->|H]; [reflexivity|].
  destruct (native p) as [|c [|d r]]; auto.
  destruct (Ascii.eqb c dot) eqn:Hc; auto. apply Ascii.eqb_eq in Hc. subst. exfalso. apply H. reflexivity.
Qed.

Lemma normal_trailing_spec : forall E x n k p, is_text x -> (x = [] \/ ends_slash x = true) -> goodname n -> canon p ->
  exists ret', normal_trailing Posix E (Path (x ++ n ++ [slash]) (loose (x ++ n ++ [slash]) k) MULTI) p = Ok ret' /\
  Rep (if is_updir n then append_text (x ++ n ++ [slash]) (native p) else x) ret'.
Proof.
  intros E x n k p Htx Hx [Hn1 Hn2] Hp.
  set (t := x ++ n ++ [slash]).
  assert (Hte : ends_slash t = true).
  { unfold t. rewrite app_assoc, ends_slash_snoc. reflexivity. }
  assert (Htn : t <> []) by (unfold t; destruct x; destruct n; discriminate).
  assert (Hnames : names t = names x ++ [n]).
  { unfold t. rewrite app_assoc, names_app_sl.
    destruct Hx as [->|Hx]; [apply names_noslash; auto|].
    apply ends_slash_spec in Hx as [a ->]. rewrite <- app_assoc. cbn [app].
    rewrite names_app_slash, names_app_sl, (names_noslash n) by auto. reflexivity. }
  assert (Httext : is_text t) by (apply names_is_text; rewrite Hnames; destruct (names x); discriminate).
  set (pre := rootc t ++ tok 0 [] x).
  assert (Hl : loose t k = pre ++ Comp n FILENAME (length x) :: [Comp [] FILENAME k]).
  { unfold loose. rewrite Hte, Hnames. unfold t at 2. rewrite tok_snoc_name by auto.
    destruct (names x ++ [n]) eqn:Hc; [destruct (names x); discriminate|]. cbn [is_nil negb andb].
    unfold pre. rewrite <- !app_assoc. reflexivity. }
  assert (HRep : Rep t (Path t (loose t k) MULTI)).
  { split; auto. right. right. split; auto. split; auto. eauto. }
  unfold normal_trailing. unfold it_end. cbn [ptyp comps]. unfold it_dec at 1. cbn [ptyp].
  assert (Hlen : length (loose t k) = S (S (length pre))).
  { rewrite Hl, app_length. cbn. lia. }
  rewrite Hlen. cbn [bind]. unfold it_dec at 1. cbn [ptyp bind].
  assert (Hmid : nth_error (loose t k) (length pre) = Some (Comp n FILENAME (length x)))
    by (rewrite Hl; apply nth_error_mid).
  unfold it_deref. cbn [ptyp comps]. rewrite Hmid. cbn [bind].
  assert (Hcp : comp_path (Comp n FILENAME (length x)) = mkpath n) by (rewrite mkpath_name; auto).
  rewrite Hcp. rewrite has_filename_mkpath, after_last_slash_noslash by auto. cbn [bind].
  rewrite is_dotdot_eq, native_is_text by (apply noslash_text; auto). fold (is_updir n).
  assert (Hnn : is_nil n = false) by (destruct n; [congruence|reflexivity]). rewrite Hnn. cbn [negb andb].
  destruct (is_updir n); cbn [negb].
  - rewrite (Rep_append E true t _ p HRep Hp). eexists. split; [reflexivity|].
    unfold append_text. apply Rep_mkpath.
    destruct (starts_slash (native p)).
    + apply canon_native. auto.
    + rewrite ends_after by auto. cbn [is_nil app]. apply names_is_text.
      replace (t ++ native p) with ((x ++ n) ++ slash :: native p)
        by (unfold t; rewrite <- !app_assoc; reflexivity).
      rewrite names_app_slash. intros Hz. apply app_eq_nil in Hz as [Hz _].
      rewrite <- (names_app_sl (x ++ n)), <- app_assoc in Hz. fold t in Hz. rewrite Hnames in Hz.
      destruct (names x); discriminate.
  - unfold it_begin. cbn [ptyp it_equals].
    destruct (length pre) as [|j] eqn:Hj.
    + cbn [Nat.eqb]. eexists. split; [reflexivity|].
      assert (x = []) as ->.
      { destruct Hx as [Hx|Hx]; auto. exfalso. unfold pre in Hj. rewrite app_length in Hj.
        assert (rootc t = []) as Hr by (destruct (rootc t); cbn in Hj; [auto|lia]).
        assert (tok 0 [] x = []) as Htx0 by (destruct (tok 0 [] x); cbn in Hj; [auto|lia]).
        apply tok_nil_names in Htx0. apply only_slashes_names in Htx0.
        unfold rootc in Hr. destruct x as [|c x']; [discriminate|]. unfold t in Hr. cbn in Hr, Htx0.
        apply andb_true_iff in Htx0 as [Hc _]. rewrite Hc in Hr. discriminate. }
      cbn [clear]. split; [reflexivity|]. left. reflexivity.
    + cbn [Nat.eqb it_cur bind comps]. rewrite Hmid. cbn [c_pos pathname].
      rewrite (str_erase_app t x (n ++ [slash])) by reflexivity. cbn [bind].
      unfold it_dec. cbn [ptyp bind it_cur].
      assert (Hxne : x <> []).
      { intros ->. unfold pre, t in Hj. cbn [app] in Hj. rewrite app_nil_r in Hj. unfold rootc in Hj.
        destruct n as [|c n']; [congruence|]. apply noslash_cons in Hn1 as [Hn1 _]. cbn in Hj. rewrite Hn1 in Hj. discriminate. }
      assert (Hxe : ends_slash x = true) by (destruct Hx; congruence).
      assert (Hrx : rootc t = rootc x).
      { unfold rootc, t. destruct x; [congruence|]. reflexivity. }
      assert (Hf1 : firstn (S j) (loose t k) = pre) by (rewrite Hl; apply firstn_exact; auto).
      assert (Hs1 : skipn (S (S j)) (loose t k) = [Comp [] FILENAME k]).
      { rewrite Hl. change (Comp n FILENAME (length x) :: [Comp [] FILENAME k]) with
          ([Comp n FILENAME (length x)] ++ [Comp [] FILENAME k]). rewrite app_assoc.
        apply skipn_exact. rewrite app_length. cbn. lia. }
      assert (Hpre : exists l d, pre = l ++ [d]).
      { destruct (exists_last (l := pre)) as (l & d & Hd); [destruct pre; [discriminate|congruence]|eauto]. }
      destruct Hpre as (l & d & Hd).
      assert (Hnth : nth_error (loose t k) j = Some d).
      { rewrite Hl, Hd, <- app_assoc. cbn [app]. replace j with (length l); [apply nth_error_mid|].
        rewrite Hd, app_length in Hj. cbn in Hj. lia. }
      rewrite Hnth.
      destruct (names x) as [|y ys] eqn:Hny.
      * assert (Ht0 : tok 0 [] x = []) by (apply tok_nil_names; auto).
        assert (Hprex : pre = loose x k).
        { unfold pre, loose. rewrite Ht0, Hrx, Hny. cbn [is_nil negb]. rewrite andb_false_r. reflexivity. }
        assert (Hdt : c_type d = ROOT_DIR).
        { apply (rootc_type t). unfold pre in Hd. rewrite Ht0, app_nil_r in Hd. rewrite Hd.
          apply in_or_app. right. left. reflexivity. }
        rewrite Hdt. cbn [ptype_eqb]. eexists. split; [reflexivity|].
        split; auto. right. right. split; auto. split; auto. exists k. rewrite Hf1, Hprex. reflexivity.
      * assert (Ht0 : tok 0 [] x <> []) by (intros Hz; apply tok_nil_names in Hz; congruence).
        assert (Hdt : c_type d = FILENAME).
        { destruct (exists_last Ht0) as (l' & d' & Hd'). unfold pre in Hd. rewrite Hd', app_assoc in Hd.
          apply app_inj_tail in Hd as [_ <-]. apply (tok_types x 0 []). rewrite Hd'.
          apply in_or_app. right. left. reflexivity. }
        rewrite Hdt. cbn [ptype_eqb]. eexists. split; [reflexivity|].
        split; auto. right. right. split; auto. split; auto. exists k. rewrite Hf1, Hs1.
        unfold pre, loose. rewrite Hrx, Hxe, Hny. cbn [is_nil negb andb]. rewrite <- app_assoc. reflexivity.
Qed.

(** * One iteration *)

Definition push_tr (stk : list str) (n : str) : bool :=
  if str_eqb n (lit "..") then
    match stk with
    | [] => false
    | x :: _ => negb (is_updir x)
    end
  else negb (plain n).

Lemma canon_name : forall n, canon (mkpath n).
Proof. intros. apply canon_mkpath. Qed.

Lemma native_name : forall n, noslash n -> native (mkpath n) = n.
Proof. intros. apply native_is_text, noslash_text. auto. Qed.

Lemma noslash_dotdot : noslash (lit "..").
Proof. reflexivity. Qed.

Lemma good_dotdot : goodname (lit "..").
Proof. split; [reflexivity|discriminate]. Qed.

Lemma reduce1_good : forall a stk n, Forall goodname stk -> goodname n -> Forall goodname (reduce1 a stk n).
Proof.
  intros. unfold reduce1. destruct (str_eqb n (lit ".")); auto.
  destruct (str_eqb n (lit "..")); auto.
  destruct stk as [|x r]; [destruct a; auto|].
  destruct (str_eqb x (lit "..")); auto. inversion H; auto.
Qed.

Lemma Rep_multi : forall a x r ret, Forall goodname (x :: r) -> Rep (nf_text a (x :: r) true) ret ->
  exists k, ret = Path (nf_text a (x :: r) true) (loose (nf_text a (x :: r) true) k) MULTI.
Proof.
  intros a x r ret HF [Ht [->|[[H _]|(_ & _ & H)]]]; auto.
  - exists (length (nf_text a (x :: r) true)). rewrite mkpath_multi; [reflexivity|].
    apply elements_text_multi.
    + rewrite names_nf by auto. cbn. destruct (rev r); discriminate.
    + right. rewrite nf_trail, ends_slash_snoc. reflexivity.
  - rewrite nf_trail in H. destruct (nf_text a (x :: r) false); discriminate.
Qed.

Lemma normal_step_name : forall E a stk tr ret n, Forall goodname stk -> noslash n ->
  Rep (nf_text a stk tr) ret ->
  exists ret', normal_step Posix E ret (mkpath n) = Ok ret' /\
    Rep (if is_nil n then nf_text a stk true else nf_text a (reduce1 a stk n) (push_tr stk n)) ret'.
Proof.
  intros E a stk tr ret n HF Hn HR. unfold normal_step.
  rewrite is_dotdot_eq, is_dot_eq, native_name by auto.
  destruct n as [|n0 n'] eqn:Hnn.
  { cbn [is_nil]. change (str_eqb [] (lit "..")) with false. change (str_eqb [] (lit ".")) with false.
    rewrite (Rep_append _ _ _ _ _ HR) by apply canon_name.
    rewrite native_name by auto. rewrite append_nf_empty by auto.
    eexists. split; [reflexivity|]. apply Rep_mkpath, nf_is_text. auto. }
  cbn [is_nil]. rewrite <- Hnn in *. assert (Hg : goodname n) by (split; [auto|congruence]).
  unfold reduce1, push_tr, plain. destruct (str_eqb n (lit "..")) eqn:Hdd.
  - apply str_eqb_spec in Hdd. clear Hnn.
    replace (str_eqb n (lit ".")) with false by (subst n; reflexivity).
    rewrite (Rep_has_filename _ _ HR). cbn [bind].
    destruct stk as [|x r].
    + rewrite nf_tr_nil in *. rewrite after_nf_true. cbn [is_nil negb].
      rewrite (Rep_has_relative_path _ _ _ HR). cbn [bind]. rewrite names_nf by auto. cbn [rev is_nil negb].
      rewrite (Rep_root_directory _ _ _ HR), starts_nf by auto.
      destruct a; cbn [negb].
      * eexists. split; [reflexivity|]. rewrite nf_tr_nil. exact HR.
      * rewrite (Rep_append _ _ _ _ _ HR) by apply canon_name. rewrite native_name by auto.
        rewrite append_nf_name by auto. eexists. split; [reflexivity|].
        apply Rep_mkpath, nf_is_text. auto.
    + inversion HF as [|? ? Hx HF']; subst x0 l. destruct Hx as [Hx1 Hx2]. destruct tr.
      * rewrite after_nf_true. cbn [is_nil negb].
        rewrite (Rep_has_relative_path _ _ _ HR). cbn [bind]. rewrite names_nf by auto.
        replace (is_nil (rev (x :: r))) with false by (cbn; destruct (rev r); reflexivity). cbn [negb].
        destruct (Rep_multi _ _ _ _ HF HR) as [k Hk]. rewrite Hk.
        assert (Ht : nf_text a (x :: r) true = nf_text a r true ++ x ++ [slash]).
        { rewrite nf_trail, nf_cons, <- app_assoc. reflexivity. }
        pose proof (normal_trailing_spec E (nf_text a r true) x k (mkpath n)) as Hs.
        rewrite <- Ht in Hs. destruct Hs as (ret' & Hr' & HR').
        { apply nf_is_text. auto. }
        { apply nf_true_slash. }
        { split; auto. }
        { apply canon_name. }
        exists ret'. split; [exact Hr'|]. fold (is_updir x). destruct (is_updir x); cbn [negb]; auto.
        rewrite native_name, append_nf_name in HR' by auto. exact HR'.
      * destruct (after_nf_name a x r) as [Ha Hu]; [split; auto|]. rewrite Ha.
        replace (is_nil x) with false by (destruct x; [congruence|reflexivity]). cbn [negb].
        assert (Hret : ret = mkpath (nf_text a (x :: r) false)).
        { destruct HR as [_ [HR|[[HR _]|(_ & HR & _)]]]; auto.
          - rewrite HR in Ha. cbn in Ha. congruence.
          - apply ends_after in HR. congruence. }
        assert (Hfn : filename Posix ret = Ok (mkpath x)).
        { rewrite Hret, filename_mkpath, Ha. destruct x; [congruence|reflexivity]. }
        rewrite Hfn. cbn [bind].
        rewrite is_dotdot_eq, native_name by auto. fold (is_updir x).
        destruct (is_updir x); cbn [negb].
        -- rewrite (Rep_append _ _ _ _ _ HR) by apply canon_name. rewrite native_name, append_nf_name by auto.
           eexists. split; [reflexivity|]. apply Rep_mkpath, nf_is_text. auto.
        -- rewrite Hret, remove_filename_mkpath, Hu. eexists. split; [reflexivity|].
           apply Rep_mkpath, nf_is_text. auto.
  - replace (is_nil n) with false by (subst n; reflexivity). cbn [negb andb].
    destruct (str_eqb n (lit ".")) eqn:Hd; cbn [negb andb].
    + rewrite (Rep_append _ _ _ _ _ HR) by apply canon_default.
      change (native path_default) with (@nil ascii). rewrite append_nf_empty by auto.
      eexists. split; [reflexivity|]. apply Rep_mkpath, nf_is_text. auto.
    + rewrite (Rep_append _ _ _ _ _ HR) by apply canon_name.
      rewrite native_name, append_nf_name by auto.
      eexists. split; [reflexivity|]. apply Rep_mkpath, nf_is_text. auto.
Qed.

(** * The loop *)

Fixpoint final_tr (a : bool) (stk ns : list str) (tr : bool) : bool :=
  match ns with [] => tr | n :: r => final_tr a (reduce1 a stk n) r (push_tr stk n) end.

Lemma normal_loop_names : forall E a ns stk tr ret rest, Forall goodname stk -> Forall goodname ns ->
  Rep (nf_text a stk tr) ret ->
  exists ret', normal_loop Posix E (map mkpath ns ++ rest) ret = normal_loop Posix E rest ret' /\
    Rep (nf_text a (fold_left (reduce1 a) ns stk) (final_tr a stk ns tr)) ret' /\
    Forall goodname (fold_left (reduce1 a) ns stk).
Proof.
  induction ns as [|n ns IH]; intros stk tr ret rest HS HN HR.
  - exists ret. cbn. auto.
  - inversion HN as [|? ? Hn HN']; subst. pose proof Hn as [Hn1 Hn2].
    destruct (normal_step_name E a stk tr ret n HS Hn1 HR) as (r1 & H1 & HR1).
    replace (is_nil n) with false in HR1 by (destruct n; [congruence|reflexivity]).
    cbn [map app normal_loop fold_left final_tr]. rewrite H1. cbn [bind].
    apply IH; auto. apply reduce1_good; auto.
Qed.

(** The text before the final adjustment, and the final text. *)
Definition norm_stk (s : str) : list str := fold_left (reduce1 (starts_slash s)) (names s) [].
Definition norm_tr (s : str) : bool :=
  final_tr (starts_slash s) [] (names s) false || ends_slash s.

Lemma norm_stk_good : forall s, Forall goodname (norm_stk s).
Proof.
  intros. unfold norm_stk.
  assert (H : forall ns stk, Forall goodname stk -> Forall goodname ns ->
    Forall goodname (fold_left (reduce1 (starts_slash s)) ns stk)).
  { induction ns; intros; cbn; auto. inversion H0; subst. apply IHns; auto. apply reduce1_good; auto. }
  apply H; auto. apply names_all.
Qed.

Lemma normal_loop_mkpath : forall E s, s <> [] -> exists ret,
  normal_loop Posix E (elems (mkpath s)) path_default = Ok ret /\
  Rep (nf_text (starts_slash s) (norm_stk s) (norm_tr s)) ret.
Proof.
  intros E s Hs. rewrite elems_paths. unfold elements. rewrite !map_app.
  assert (Hroot : exists r0, normal_loop Posix E (map mkpath (if starts_slash s then ([[slash]] : list str) else []) ++
      map mkpath (names s) ++ map mkpath (if ends_slash s && negb (is_nil (names s)) then ([[]] : list str) else [])) path_default =
      normal_loop Posix E (map mkpath (names s) ++
        map mkpath (if ends_slash s && negb (is_nil (names s)) then ([[]] : list str) else [])) r0 /\
      Rep (nf_text (starts_slash s) [] false) r0).
  { destruct (starts_slash s) eqn:Ha.
    - exists (mkpath [slash]). cbn [map app normal_loop]. unfold normal_step.
      rewrite is_dotdot_eq, is_dot_eq. change (native (mkpath [slash])) with [slash].
      change (str_eqb [slash] (lit "..")) with false. change (str_eqb [slash] (lit ".")) with false.
      rewrite (path_append_canon E true path_default (mkpath [slash])) by (apply canon_default || apply canon_mkpath).
      split; [reflexivity|]. rewrite nf_nil. apply Rep_mkpath. reflexivity.
    - exists path_default. split; [reflexivity|]. split; [reflexivity|]. auto. }
  destruct Hroot as (r0 & H0 & HR0).
  cut (exists ret, normal_loop Posix E (map mkpath (names s) ++
        map mkpath (if ends_slash s && negb (is_nil (names s)) then ([[]] : list str) else [])) r0 = Ok ret /\
        Rep (nf_text (starts_slash s) (norm_stk s) (norm_tr s)) ret).
  { intros (ret & G1 & G2). exists ret. split; [|exact G2]. rewrite <- G1. exact H0. }
  clear H0.
  destruct (normal_loop_names E (starts_slash s) (names s) [] false r0
     (map mkpath (if ends_slash s && negb (is_nil (names s)) then ([[]] : list str) else []))) as (r1 & -> & HR1 & HG); auto.
  { apply names_all. }
  fold (norm_stk s) in *. unfold norm_tr.
  destruct (ends_slash s) eqn:He; cbn [andb].
  - destruct (names s) as [|n ns] eqn:Hn; cbn [is_nil negb].
    + exists r1. split; [reflexivity|]. unfold norm_stk in *. rewrite Hn in *. cbn [fold_left] in *.
      rewrite nf_tr_nil in HR1. rewrite nf_tr_nil. exact HR1.
    + rewrite <- Hn in *. cbn [map normal_loop].
      destruct (normal_step_name E (starts_slash s) (norm_stk s) _ r1 [] HG eq_refl HR1) as (r2 & -> & HR2).
      cbn [bind normal_loop is_nil] in *. exists r2. split; [reflexivity|]. rewrite orb_true_r. exact HR2.
  - exists r1. split; [reflexivity|]. rewrite orb_false_r. exact HR1.
Qed.

Lemma loose_elements : forall s k, map c_str (loose s k) = elements s.
Proof.
  intros. rewrite <- mkcomps_elements. unfold loose, mkcomps, trailc. rewrite !map_app.
  destruct (_ && _); reflexivity.
Qed.

Lemma shows_loose : forall s k, s <> [] -> shows (Path s (loose s k) MULTI) (elements s).
Proof.
  intros. split; [|split].
  - rewrite elems_multi. apply loose_elements.
  - rewrite elements_nil. unfold empty. cbn [pathname]. rewrite is_nil_true. tauto.
  - intros; eapply elements_head; eauto.
Qed.

Lemma Rep_shows : forall s p, Rep s p -> shows p (elements s).
Proof.
  intros s p [Ht [->|[[-> ->]|(Hn & _ & k & ->)]]].
  - apply shows_mkpath.
  - apply shows_default.
  - apply shows_loose. auto.
Qed.

Definition final_text (a : bool) (stk : list str) (tr : bool) : str :=
  match stk with
  | [] => if a then [slash] else [dot]
  | x :: r => nf_text a (x :: r) (tr && negb (is_updir x))
  end.

Lemma loose_two : forall a x r k, Forall goodname (x :: r) ->
  loose (nf_text a (x :: r) true) k =
  (rootc (nf_text a (x :: r) true) ++ tok 0 [] (nf_text a r true)) ++
  [Comp x FILENAME (length (nf_text a r true)); Comp [] FILENAME k].
Proof.
  intros a x r k H. unfold loose. rewrite names_nf by auto.
  assert (ends_slash (nf_text a (x :: r) true) = true) as -> by (rewrite nf_trail, ends_slash_snoc; reflexivity).
  replace (is_nil (rev (x :: r))) with false by (cbn; destruct (rev r); reflexivity). cbn [negb andb].
  inversion H as [|? ? [Hx1 Hx2] _]; subst.
  assert (Ht : nf_text a (x :: r) true = nf_text a r true ++ x ++ [slash]).
  { rewrite nf_trail, nf_cons, <- app_assoc. reflexivity. }
  rewrite Ht at 2. rewrite tok_snoc_name by (auto; apply nf_true_slash).
  rewrite <- !app_assoc. reflexivity.
Qed.

Lemma elements_nf_false : forall a stk, Forall goodname stk ->
  elements (nf_text a stk false) = (if a then [[slash]] else []) ++ rev stk.
Proof.
  intros. unfold nf_text. cbn [andb]. rewrite app_nil_r. apply elements_root_join. apply goodname_rev. auto.
Qed.

Lemma normal_finish_spec : forall a stk tr ret, Forall goodname stk -> Rep (nf_text a stk tr) ret ->
  exists r, normal_finish Posix ret = Ok r /\ native r = final_text a stk tr /\
            shows r (elements (final_text a stk tr)).
Proof.
  intros a stk tr ret HF HR.
  assert (Hkeep : normal_finish Posix ret = Ok ret -> final_text a stk tr = nf_text a stk tr ->
    exists r, normal_finish Posix ret = Ok r /\ native r = final_text a stk tr /\
            shows r (elements (final_text a stk tr))).
  { intros H1 H2. exists ret. rewrite H2. split; auto. split; [exact (Rep_pathname _ _ HR)|].
    apply Rep_shows. auto. }
  destruct stk as [|x r].
  - rewrite nf_nil in *. destruct a.
    + apply Hkeep; [|reflexivity].
      destruct HR as [_ [->|[[HR _]|(_ & _ & k & ->)]]]; [reflexivity|discriminate|].
      unfold normal_finish. reflexivity.
    + exists (mkpath [dot]). split.
      * destruct HR as [_ [->|[[HR ->]|(HR & _ & k & ->)]]]; [reflexivity|reflexivity|congruence].
      * split; [reflexivity|]. apply shows_mkpath.
  - inversion HF as [|? ? Hx HF']; subst. destruct tr.
    + destruct (Rep_multi _ _ _ _ HF HR) as [k Hk]. subst ret.
      assert (Hrev : rev (loose (nf_text a (x :: r) true) k) =
         Comp [] FILENAME k :: Comp x FILENAME (length (nf_text a r true)) ::
         rev (rootc (nf_text a (x :: r) true) ++ tok 0 [] (nf_text a r true))).
      { rewrite loose_two by auto.
        change [Comp x FILENAME (length (nf_text a r true)); Comp [] FILENAME k] with
          ([Comp x FILENAME (length (nf_text a r true))] ++ [Comp [] FILENAME k]).
        rewrite app_assoc, !rev_snoc. reflexivity. }
      unfold normal_finish in *. cbn [comps pathname ptyp] in *. rewrite Hrev in *.
      cbn [c_str is_nil andb] in *.
      assert (Hud : is_dotdot (comp_path (Comp x FILENAME (length (nf_text a r true)))) = is_updir x).
      { rewrite is_dotdot_eq. reflexivity. }
      rewrite Hud in *. unfold final_text in *. cbn [andb] in *.
      destruct (is_updir x); cbn [negb] in *; [|auto].
      rewrite nf_trail, rev_snoc. rewrite rev_involutive.
      eexists. split; [reflexivity|]. split; [reflexivity|].
      rewrite <- rev_snoc, rev_involutive.
      set (cs := (rootc (nf_text a (x :: r) true) ++ tok 0 [] (nf_text a r true)) ++
                 [Comp x FILENAME (length (nf_text a r true))]).
      assert (Hcs : map c_str cs = elements (nf_text a (x :: r) false)).
      { unfold cs. rewrite elements_nf_false by auto. rewrite !map_app, tok_names0, names_nf by auto.
        unfold rootc. rewrite starts_nf by auto. cbn [map c_str rev]. rewrite <- app_assoc.
        destruct a; reflexivity. }
      rewrite <- nf_trail. fold cs.
      split; [|split].
      * rewrite elems_multi. exact Hcs.
      * rewrite elements_nil. unfold empty. cbn [pathname]. rewrite is_nil_true. tauto.
      * intros; eapply elements_head; eauto.
    + apply Hkeep; [|reflexivity].
      destruct (after_nf_name a x r Hx) as [Ha _]. destruct Hx as [Hx1 Hx2].
      assert (Hret : ret = mkpath (nf_text a (x :: r) false)).
      { destruct HR as [_ [HR|[[HR _]|(_ & HR & _)]]]; auto.
        - rewrite HR in Ha. cbn in Ha. congruence.
        - apply ends_after in HR. congruence. }
      rewrite Hret. unfold normal_finish.
      assert (Hne : empty (mkpath (nf_text a (x :: r) false)) = false).
      { unfold empty. rewrite <- Hret, (Rep_pathname _ _ HR).
        destruct (nf_text a (x :: r) false); [cbn in Ha; congruence|reflexivity]. }
      destruct (mkpath_shape (nf_text a (x :: r) false)) as [Hz|H1 H2|H1 H2|H1 H2 H3]; cbn [comps rev].
      * rewrite Hz in Ha. cbn in Ha. congruence.
      * reflexivity.
      * unfold empty in *. cbn [pathname] in *. rewrite Hne. reflexivity.
      * destruct (mkcomps_last _ H2) as (l & -> & _ & _). rewrite rev_snoc. cbn [c_str]. rewrite Ha.
        replace (is_nil x) with false by (destruct x; [congruence|reflexivity]). cbn [andb].
        unfold empty in *. cbn [pathname] in *. rewrite Hne. destruct (rev l); reflexivity.
Qed.

Lemma final_text_is_text : forall a stk tr, Forall goodname stk -> is_text (final_text a stk tr).
Proof.
  intros. unfold final_text. destruct stk.
  - destruct a; reflexivity.
  - apply nf_is_text. auto.
Qed.

Definition normal_text (s : str) : str := final_text (starts_slash s) (norm_stk s) (norm_tr s).

Lemma normal_text_is_text : forall s, is_text (normal_text s).
Proof. intros. apply final_text_is_text, norm_stk_good. Qed.

Lemma lexically_normal_mkpath : forall E s, s <> [] -> exists r,
  lexically_normal Posix E (mkpath s) = Ok r /\ native r = normal_text s /\
  shows r (elements (normal_text s)) /\ (el_normal E = false -> canon r).
Proof.
  intros E s Hs. unfold lexically_normal.
  assert (empty (mkpath s) = false) as ->.
  { unfold empty. change (pathname ?p) with (native p). rewrite native_mkpath.
    unfold reported_text. destruct s; [congruence|]. cbn [is_nil negb andb].
    destruct (only_slashes (a :: s)); reflexivity. }
  destruct (normal_loop_mkpath E s Hs) as (ret & -> & HR). cbn [bind].
  destruct (normal_finish_spec _ _ _ _ (norm_stk_good s) HR) as (r & -> & Hn & Hsh). cbn [bind].
  eexists. split; [reflexivity|]. unfold fin. destruct (el_normal E).
  - split; auto. split; auto. congruence.
  - change (pathname r) with (native r). rewrite Hn. fold (normal_text s).
    rewrite native_is_text by apply normal_text_is_text.
    split; auto. split; [apply shows_mkpath|]. intros _. apply canon_mkpath.
Qed.
