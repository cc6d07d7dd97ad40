(** Constructed POSIX paths: what each member function returns on [mkpath s]. *)
From Coq Require Import Ascii String Bool Arith NArith ZArith Lia List.
From Verif Require Import Str PathModel PathSpec StrProofs PathProofs.
Import ListNotations.

(** * Texts *)

(** Texts that [native()] can report. *)
Definition is_text (s : str) : Prop := reported_text s = s.

Lemma reported_is_text : forall s, is_text (reported_text s).
Proof.
  intros. unfold is_text, reported_text.
  destruct (negb (is_nil s) && only_slashes s) eqn:H.
  - reflexivity.
  - rewrite H. reflexivity.
Qed.

Lemma mkpath_reported : forall s, mkpath (reported_text s) = mkpath s.
Proof.
  intros. unfold reported_text.
  destruct (negb (is_nil s) && only_slashes s) eqn:H; auto.
  apply andb_true_iff in H as [H1 H2]. destruct s as [|c r]; [discriminate|].
  destruct (mkpath_shape (c :: r)) as [Hn|_ _|_ Hno|_ Hn _]; [discriminate| | |].
  - reflexivity.
  - apply noslash_cons in Hno as [Hno _]. cbn in H2. rewrite Hno in H2. discriminate.
  - apply only_slashes_names in H2. congruence.
Qed.

Lemma mkpath_native : forall s, mkpath (native (mkpath s)) = mkpath s.
Proof. intros. rewrite native_mkpath. apply mkpath_reported. Qed.

Lemma is_text_cases : forall s, is_text s -> s = [] \/ s = [slash] \/ names s <> [].
Proof.
  intros s H. unfold is_text, reported_text in H.
  destruct s as [|c r]; auto. cbn [is_nil negb andb] in H.
  destruct (only_slashes (c :: r)) eqn:Ho.
  - auto.
  - right. right. intros Hn. apply only_slashes_names in Hn. congruence.
Qed.

Lemma names_is_text : forall s, names s <> [] -> is_text s.
Proof.
  intros. unfold is_text, reported_text. destruct (only_slashes s) eqn:Ho.
  - apply only_slashes_names in Ho. congruence.
  - rewrite andb_false_r. reflexivity.
Qed.

Lemma native_is_text : forall s, is_text s -> native (mkpath s) = s.
Proof. intros. rewrite native_mkpath. exact H. Qed.

Lemma starts_reported : forall s, starts_slash (reported_text s) = starts_slash s.
Proof.
  intros. unfold reported_text. destruct (negb (is_nil s) && only_slashes s) eqn:H; auto.
  destruct s; [discriminate|]. cbn in *. apply andb_true_iff in H as [H _]. rewrite H. reflexivity.
Qed.

Lemma names_reported : forall s, names (reported_text s) = names s.
Proof.
  intros. unfold reported_text. destruct (negb (is_nil s) && only_slashes s) eqn:H; auto.
  apply andb_true_iff in H as [_ H]. apply only_slashes_names in H. rewrite H. reflexivity.
Qed.

Lemma only_slashes_ends : forall s, s <> [] -> only_slashes s = true -> ends_slash s = true.
Proof.
  intros. destruct (exists_last H) as (l & c & ->). rewrite ends_slash_snoc.
  unfold only_slashes in H0. rewrite forallb_app in H0. apply andb_true_iff in H0 as [_ H0].
  cbn in H0. rewrite andb_true_r in H0. exact H0.
Qed.

Lemma elements_reported : forall s, elements (reported_text s) = elements s.
Proof.
  intros. rewrite <- !elems_mkpath, mkpath_reported. reflexivity.
Qed.

Lemma ends_reported : forall s, ends_slash (reported_text s) = ends_slash s.
Proof.
  intros. unfold reported_text. destruct (negb (is_nil s) && only_slashes s) eqn:H; auto.
  apply andb_true_iff in H as [H1 H2]. destruct s; [discriminate|].
  rewrite only_slashes_ends with (s := a :: s) by (auto; congruence). reflexivity.
Qed.

Lemma after_last_reported : forall s, after_last_slash (reported_text s) = after_last_slash s.
Proof.
  intros. unfold reported_text. destruct (negb (is_nil s) && only_slashes s) eqn:H; auto.
  apply andb_true_iff in H as [H1 H2]. destruct s; [discriminate|].
  symmetry. apply ends_after. apply only_slashes_ends; auto. congruence.
Qed.

Lemma drop_slashes_reported : forall s, drop_slashes (reported_text s) = drop_slashes s.
Proof.
  intros. unfold reported_text. destruct (negb (is_nil s) && only_slashes s) eqn:H; auto.
  apply andb_true_iff in H as [H1 H2]. apply only_slashes_names in H2. apply drop_slashes_nil in H2.
  rewrite H2. reflexivity.
Qed.

Lemma noslash_text : forall s, noslash s -> is_text s.
Proof.
  intros. destruct s; [reflexivity|]. apply names_is_text. rewrite names_noslash; congruence.
Qed.

Lemma drop_slashes_text : forall s, is_text (drop_slashes s).
Proof.
  intros. unfold is_text, reported_text. destruct (drop_slashes s) eqn:H; auto.
  cbn [is_nil negb andb]. destruct (only_slashes (a :: s0)) eqn:Ho; auto.
  pose proof (drop_slashes_starts s) as Hs. rewrite H in Hs. cbn in *. rewrite Hs in Ho. discriminate.
Qed.

(** The simple cases of [mkpath]. *)
Lemma mkpath_nil : mkpath [] = Path [] [] FILENAME.
Proof. reflexivity. Qed.

Lemma mkpath_slash : mkpath [slash] = Path [slash] [] ROOT_DIR.
Proof. reflexivity. Qed.

Lemma mkpath_name : forall n, noslash n -> mkpath n = Path n [] FILENAME.
Proof.
  intros. destruct (mkpath_shape n) as [->|H1 H2|H1 H2|H1 H2 H3]; auto.
  - destruct n; [congruence|]. apply noslash_cons in H as [H _]. cbn in H2. rewrite H in H2. discriminate.
  - rewrite mkcomps_length, elements_noslash in H3 by auto. cbn in H3. lia.
Qed.

Lemma mkpath_multi : forall s, 2 <= length (elements s) -> mkpath s = Path s (mkcomps s) MULTI.
Proof.
  intros. destruct (mkpath_shape s) as [->|H1 H2|H1 H2|H1 H2 H3]; auto.
  - cbn in H. lia.
  - rewrite elements_only in H by auto. cbn in H. lia.
  - rewrite elements_noslash in H by auto. cbn in H. lia.
Qed.

(** Canonical representations: those of constructed paths, and that of [path()]. *)
Definition canon (p : path) : Prop := p = path_default \/ exists s, p = mkpath s.

Lemma canon_native : forall p, canon p -> is_text (native p).
Proof.
  intros p [->|[s ->]].
  - reflexivity.
  - rewrite native_mkpath. apply reported_is_text.
Qed.

Lemma canon_cases : forall p, canon p ->
  (p = path_default \/ p = mkpath (native p)) /\ is_text (native p).
Proof.
  intros p H. split; [|apply canon_native; auto].
  destruct H as [->|[s ->]]; auto. right. symmetry. apply mkpath_native.
Qed.

Lemma canon_mkpath : forall s, canon (mkpath s).
Proof. intros. right. eauto. Qed.

Lemma canon_default : canon path_default.
Proof. left. reflexivity. Qed.

Lemma fin_mkpath : forall b s, fin Posix b (mkpath s) = mkpath s.
Proof. intros. unfold fin. destruct b; auto. apply mkpath_native. Qed.

Lemma fin_canon : forall b p, canon p -> canon (fin Posix b p) /\ native (fin Posix b p) = native p.
Proof.
  intros b p [->|[s ->]].
  - destruct b; cbn; split; auto; [left|right; exists []]; reflexivity.
  - rewrite fin_mkpath. split; auto. apply canon_mkpath.
Qed.

(** * Positions in the cache *)

Lemma tok_app_slash : forall a off cur b,
  tok off cur (a ++ slash :: b) = tok off cur a ++ tok (off + length cur + length a + 1) [] b.
Proof.
  induction a as [|c a IH]; intros; cbn [app tok].
  - rewrite is_slash_slash. cbn [length]. rewrite Nat.add_0_r. reflexivity.
  - destruct (is_slash c).
    + rewrite IH. rewrite <- app_assoc. f_equal. f_equal. f_equal. cbn [length]. lia.
    + rewrite IH. f_equal. f_equal. rewrite app_length. cbn [length]. lia.
Qed.

Lemma tok_name_gen : forall rest off cur, noslash (cur ++ rest) -> cur ++ rest <> [] ->
  tok off cur rest = [Comp (cur ++ rest) FILENAME off].
Proof.
  induction rest as [|x rest IH]; intros; cbn [tok].
  - rewrite app_nil_r in *. unfold flush. destruct cur; congruence.
  - assert (is_slash x = false) as ->.
    { apply noslash_app in H as [_ H]. apply noslash_cons in H. tauto. }
    rewrite IH; rewrite <- app_assoc; auto.
Qed.

Lemma tok_name : forall off n, noslash n -> n <> [] -> tok off [] n = [Comp n FILENAME off].
Proof. intros. apply tok_name_gen; auto. Qed.

Lemma tok_trail : forall off a, tok off [] (a ++ [slash]) = tok off [] a.
Proof. intros. rewrite tok_app_slash. cbn. apply app_nil_r. Qed.

Lemma tok_last : forall a b, noslash b -> b <> [] ->
  tok 0 [] (a ++ slash :: b) = tok 0 [] a ++ [Comp b FILENAME (length a + 1)].
Proof. intros. rewrite tok_app_slash, (tok_name _ b) by auto. reflexivity. Qed.

Lemma tok_first_cur : forall rest off x cur, exists n l,
  tok off (x :: cur) rest = Comp n FILENAME off :: l /\ n <> [].
Proof.
  induction rest as [|c r IH]; intros; cbn [tok].
  - exists (x :: cur), []. split; [reflexivity|congruence].
  - destruct (is_slash c).
    + exists (x :: cur), (tok (off + length (x :: cur) + 1) [] r). split; [reflexivity|congruence].
    + apply (IH off x (cur ++ [c])).
Qed.

Lemma tok_first : forall s off, names s <> [] ->
  exists n l, tok off [] s = Comp n FILENAME (off + (length s - length (drop_slashes s))) :: l /\ n <> [].
Proof.
  induction s as [|c r IH]; intros off H.
  - exfalso. apply H. reflexivity.
  - cbn [tok drop_slashes]. destruct (is_slash c) eqn:Hc.
    + apply is_slash_true in Hc. subst c. rewrite names_cons_slash in H.
      destruct (IH (off + length (@nil ascii) + 1) H) as (n & l & Hn & Hl). exists n, l. split; auto.
      cbn [flush app]. rewrite Hn. f_equal. f_equal. cbn [length].
      assert (length (drop_slashes r) <= length r).
      { destruct (drop_slashes_split r) as [k Hk]. rewrite Hk at 2. rewrite app_length. lia. }
      lia.
    + destruct (tok_first_cur r off c []) as (n & l & Hn & Hl). exists n, l. split; auto.
      cbn [app]. rewrite Hn. f_equal. f_equal. lia.
Qed.

Lemma skipn_drop_slashes : forall s, skipn (length s - length (drop_slashes s)) s = drop_slashes s.
Proof.
  intros. destruct (drop_slashes_split s) as [n Hn]. rewrite Hn at 3. apply skipn_exact.
  rewrite Hn at 1. rewrite app_length. lia.
Qed.

(** * Decomposition of constructed paths *)

Lemma rootc_type : forall s c, In c (rootc s) -> c_type c = ROOT_DIR.
Proof. intros s c. unfold rootc. destruct (starts_slash s); cbn; intuition. subst. reflexivity. Qed.

Lemma mkcomps_types : forall s c, In c (mkcomps s) -> c_type c <> ROOT_NAME.
Proof.
  intros s c H. unfold mkcomps in H. apply in_app_or in H as [H|H]; [|apply in_app_or in H as [H|H]].
  - apply rootc_type in H. congruence.
  - apply tok_types in H. congruence.
  - unfold trailc in H. destruct (_ && _); cbn in H; [destruct H as [<-|[]]; cbn; congruence|contradiction].
Qed.

Lemma has_root_name_mkpath : forall s, has_root_name (mkpath s) = false.
Proof.
  intros. destruct (mkpath_shape s) as [->|H1 H2|H1 H2|H1 H2 H3]; auto.
  unfold has_root_name. cbn [ptyp comps ptype_eqb orb].
  destruct (mkcomps s) eqn:Hm; auto.
  pose proof (mkcomps_types s c). rewrite Hm in H. specialize (H (or_introl eq_refl)).
  destruct (c_type c) eqn:?; cbn; congruence.
Qed.

Lemma root_name_mkpath : forall E s, root_name Posix E (mkpath s) = fin Posix (el_other E) path_default.
Proof.
  intros. unfold root_name. f_equal.
  destruct (mkpath_shape s) as [->|H1 H2|H1 H2|H1 H2 H3]; auto. cbn [ptyp comps ptype_eqb].
  destruct (mkcomps s) eqn:Hm; auto.
  pose proof (mkcomps_types s c). rewrite Hm in H. specialize (H (or_introl eq_refl)).
  destruct (c_type c) eqn:?; cbn; congruence.
Qed.

Lemma skip_root_name_mkcomps : forall s, skip_root_name (mkcomps s) = mkcomps s.
Proof.
  intros. unfold skip_root_name. destruct (mkcomps s) eqn:Hm; auto.
  pose proof (mkcomps_types s c). rewrite Hm in H. specialize (H (or_introl eq_refl)).
  destruct (c_type c) eqn:?; cbn; congruence.
Qed.

Lemma skip_root_dir_mkcomps : forall s, skip_root_dir (mkcomps s) = tok 0 [] s ++ trailc s.
Proof.
  intros. unfold mkcomps. destruct (rootc_cases s) as [[H ->]|[H ->]]; auto. cbn [app].
  unfold skip_root_dir. destruct (tok 0 [] s ++ trailc s) as [|c l] eqn:Hc; auto.
  assert (In c (tok 0 [] s ++ trailc s)) as Hin by (rewrite Hc; left; auto).
  apply in_app_or in Hin as [Hin|Hin].
  - apply tok_types in Hin. rewrite Hin. reflexivity.
  - unfold trailc in Hin. destruct (_ && _); cbn in Hin; intuition. subst. reflexivity.
Qed.

Lemma trailc_type : forall s c, In c (trailc s) -> c_type c = FILENAME.
Proof. intros s c. unfold trailc. destruct (_ && _); cbn; intuition. subst. reflexivity. Qed.

Lemma head_root_dir : forall s, names s <> [] ->
  match mkcomps s with
  | c :: _ => if ptype_eqb (c_type c) ROOT_DIR then comp_path c else path_default
  | [] => path_default
  end = if starts_slash s then mkpath [slash] else path_default.
Proof.
  intros. unfold mkcomps. destruct (rootc_cases s) as [[Hs ->]|[Hs ->]]; rewrite Hs; auto.
  cbn [app]. destruct (tok_first s 0 H) as (n & l & -> & _). reflexivity.
Qed.

Lemma root_directory_mkpath : forall E s,
  root_directory Posix E (mkpath s) =
  fin Posix (el_other E) (if starts_slash s then mkpath [slash] else if is_nil s then path_default else path_default).
Proof.
  intros. unfold root_directory. f_equal.
  replace (if is_nil s then path_default else path_default) with path_default by (destruct s; auto).
  destruct (mkpath_shape s) as [->|H1 H2|H1 H2|H1 H2 H3]; cbn [ptyp comps].
  - reflexivity.
  - destruct s; [congruence|]. cbn in *. apply andb_true_iff in H2 as [-> _]. reflexivity.
  - destruct s; [congruence|]. apply noslash_cons in H2 as [H2 _]. cbn in *. rewrite H2. reflexivity.
  - rewrite skip_root_name_mkcomps. apply head_root_dir; auto.
Qed.

Lemma native_root_directory : forall E s,
  native (root_directory Posix E (mkpath s)) = if starts_slash s then [slash] else [].
Proof.
  intros. rewrite root_directory_mkpath. destruct (starts_slash s).
  - rewrite fin_mkpath. reflexivity.
  - destruct (is_nil s); destruct (el_other E); reflexivity.
Qed.

Lemma has_root_directory_mkpath : forall E s, has_root_directory Posix E (mkpath s) = starts_slash s.
Proof.
  intros. unfold has_root_directory, empty. fold (native (root_directory Posix E (mkpath s))).
  rewrite native_root_directory. destruct (starts_slash s); reflexivity.
Qed.

Lemma root_path_mkpath : forall E s,
  native (root_path Posix E (mkpath s)) = (if starts_slash s then [slash] else []) /\
  canon (root_path Posix E (mkpath s)).
Proof.
  intros. unfold root_path.
  assert (H : (match ptyp (mkpath s) with
     | ROOT_NAME | ROOT_DIR => mkpath s
     | _ =>
         match comps (mkpath s) with
         | c :: r =>
             match c_type c with
             | ROOT_NAME =>
                 match r with
                 | d :: _ => if ptype_eqb (c_type d) ROOT_DIR
                             then mkpath (c_str c ++ [preferred_separator Posix])
                             else comp_path c
                 | [] => comp_path c
                 end
             | ROOT_DIR => comp_path c
             | _ => path_default
             end
         | [] => path_default
         end
     end) = if starts_slash s then mkpath [slash] else path_default).
  { destruct (mkpath_shape s) as [->|H1 H2|H1 H2|H1 H2 H3]; cbn [ptyp comps].
    - reflexivity.
    - destruct s; [congruence|]. cbn in *. apply andb_true_iff in H2 as [-> _]. reflexivity.
    - destruct s; [congruence|]. apply noslash_cons in H2 as [H2 _]. cbn in *. rewrite H2. reflexivity.
    - unfold mkcomps. destruct (rootc_cases s) as [[Hs ->]|[Hs ->]]; rewrite Hs; auto.
      cbn [app]. destruct (tok_first s 0 H2) as (n & l & -> & _). reflexivity. }
  rewrite H. destruct (starts_slash s).
  - rewrite fin_mkpath. split; [reflexivity|apply canon_mkpath].
  - destruct (fin_canon (el_other E) path_default canon_default) as [Ha Hb]. rewrite Hb. split; auto.
Qed.

Lemma is_absolute_mkpath : forall E s, is_absolute Posix E (mkpath s) = starts_slash s.
Proof.
  intros. unfold is_absolute. rewrite has_root_directory_mkpath, has_root_name_mkpath.
  apply orb_false_r.
Qed.

Lemma relative_path_mkpath : forall E s, exists q,
  relative_path Posix E (mkpath s) = Ok q /\ native q = drop_slashes s /\ canon q.
Proof.
  intros. unfold relative_path.
  destruct (mkpath_shape s) as [->|H1 H2|H1 H2|H1 H2 H3]; cbn [ptyp comps].
  - eexists. split; [reflexivity|]. change (Path [] [] FILENAME) with (mkpath []).
    rewrite fin_mkpath. split; [reflexivity|apply canon_mkpath].
  - cbn. eexists. split; [reflexivity|].
    destruct (fin_canon (el_other E) path_default canon_default) as [Ha Hb]. rewrite Hb.
    split; auto. apply only_slashes_names in H2. apply drop_slashes_nil in H2. rewrite H2. reflexivity.
  - eexists. split; [reflexivity|]. rewrite <- mkpath_name by auto. rewrite fin_mkpath.
    split; [|apply canon_mkpath]. rewrite mkpath_name by auto. cbn. symmetry. apply drop_slashes_noop.
    destruct s; auto. apply noslash_cons in H2. cbn. tauto.
  - rewrite skip_root_name_mkcomps, skip_root_dir_mkcomps.
    destruct (tok_first s 0 H2) as (n & l & -> & _). cbn [app c_pos].
    unfold str_substr_from. cbn [pathname]. rewrite (proj2 (Nat.leb_le _ _)) by lia.
    cbn [bind]. eexists. split; [reflexivity|]. rewrite fin_mkpath. split; [|apply canon_mkpath].
    cbn [Nat.add]. rewrite skipn_drop_slashes. apply native_is_text. apply drop_slashes_text.
Qed.

Lemma has_relative_path_mkpath : forall E s,
  has_relative_path Posix E (mkpath s) = Ok (negb (is_nil (names s))).
Proof.
  intros. unfold has_relative_path. destruct (relative_path_mkpath E s) as (q & -> & Hq & _).
  cbn [bind]. unfold empty. change (pathname q) with (native q). rewrite Hq. f_equal. f_equal.
  destruct (names s) eqn:Hn.
  - apply drop_slashes_nil in Hn. rewrite Hn. reflexivity.
  - destruct (drop_slashes s) eqn:Hd; auto. apply drop_slashes_nil in Hd. congruence.
Qed.

Lemma mkpath_text_multi : forall s, is_text s -> 2 <= length (elements s) -> mkpath s = Path s (mkcomps s) MULTI.
Proof. intros. apply mkpath_multi. auto. Qed.

(** The last component. *)
Lemma mkcomps_last : forall s, names s <> [] ->
  exists l, mkcomps s = l ++ [Comp (after_last_slash s) FILENAME (length (upto_last_slash s))] /\
            (after_last_slash s <> [] -> l = rootc s ++ tok 0 [] (upto_last_slash s)) /\
            (after_last_slash s = [] -> l = rootc s ++ tok 0 [] s).
Proof.
  intros. destruct (last_slash_split s) as [Hno|(a & b & -> & Hb)].
  - rewrite after_last_slash_noslash, upto_last_slash_noslash by auto.
    assert (s <> []) by (intros ->; apply H; reflexivity).
    unfold mkcomps, trailc. rewrite noslash_ends by auto. cbn [andb].
    rewrite app_nil_r, tok_name by auto. exists (rootc s). split; auto. split; [|congruence].
    intros _. cbn. rewrite app_nil_r. reflexivity.
  - rewrite after_last_slash_app, upto_last_slash_app by auto.
    assert (He : ends_slash (a ++ slash :: b) = is_nil b).
    { rewrite ends_slash_app by congruence. destruct b; auto.
      change (slash :: a0 :: b) with ([slash] ++ a0 :: b). rewrite ends_slash_app by congruence.
      apply noslash_ends. auto. }
    unfold mkcomps, trailc. rewrite He.
    destruct b as [|x b]; cbn [is_nil andb].
    + destruct (names (a ++ [slash])) eqn:Hn; [congruence|]. cbn [is_nil negb].
      exists (rootc (a ++ [slash]) ++ tok 0 [] (a ++ [slash])).
      rewrite <- app_assoc. auto.
    + rewrite app_nil_r. rewrite tok_last by (auto; congruence).
      exists (rootc (a ++ slash :: x :: b) ++ tok 0 [] a). rewrite app_assoc. split.
      * rewrite app_length. reflexivity.
      * split; [|congruence]. intros _. rewrite tok_trail. reflexivity.
Qed.

Lemma last_pref : forall s, match last (map Some s) None with
  | Some c => Ascii.eqb c (preferred_separator Posix) | None => false end = ends_slash s.
Proof. intros. exact (last_sep s). Qed.

Lemma noslash_after : forall s, noslash (after_last_slash s).
Proof.
  intros. destruct (last_slash_split s) as [Hno|(a & b & -> & Hb)].
  - rewrite after_last_slash_noslash; auto.
  - rewrite after_last_slash_app; auto.
Qed.

Lemma filename_mkpath : forall s,
  filename Posix (mkpath s) = Ok (match after_last_slash s with [] => path_default | _ => mkpath (after_last_slash s) end).
Proof.
  intros. unfold filename.
  destruct (mkpath_shape s) as [->|H1 H2|H1 H2|H1 H2 H3]; cbn [ptyp comps].
  - reflexivity.
  - cbn. rewrite ends_after; auto. apply only_slashes_ends; auto.
  - rewrite after_last_slash_noslash by auto. destruct s; [congruence|]. cbn [empty pathname is_nil].
    rewrite mkpath_name by auto. reflexivity.
  - unfold empty. cbn [pathname]. destruct s as [|c r] eqn:Hs; [congruence|]. cbn [is_nil].
    rewrite <- Hs in *. rewrite last_pref.
    destruct (ends_slash s) eqn:He.
    + rewrite ends_after by auto. reflexivity.
    + destruct (mkcomps_last s H2) as (l & -> & _ & _). rewrite last_map_Some. cbn [c_type ptype_eqb].
      destruct (after_last_slash s) eqn:Ha.
      * apply after_last_nil in Ha as [Ha|Ha]; congruence.
      * rewrite mkpath_name; auto. rewrite <- Ha. apply noslash_after.
Qed.

Lemma has_filename_mkpath : forall s, has_filename Posix (mkpath s) = Ok (negb (is_nil (after_last_slash s))).
Proof.
  intros. unfold has_filename. rewrite filename_mkpath. cbn [bind]. f_equal. f_equal.
  destruct (after_last_slash s) eqn:Ha; auto. rewrite <- Ha.
  unfold empty. change (pathname ?p) with (native p). rewrite native_is_text.
  - rewrite Ha. reflexivity.
  - apply noslash_text, noslash_after.
Qed.

(** * Append *)

Definition append_text (a b : str) : str :=
  if starts_slash b then b
  else a ++ (if is_nil (after_last_slash a) then [] else [slash]) ++ b.

Lemma path_eq_refl : forall p, path_eq p p = true.
Proof.
  assert (D : forall l k, do_compare l l k = 0%Z).
  { induction l; intros; cbn; auto. rewrite str_compare_refl. auto. }
  intros. unfold path_eq, compare. destruct (empty p && empty p); auto.
  destruct (ptyp p); rewrite ?D, ?str_compare_refl; reflexivity.
Qed.

Lemma mkpath_no_rootname_lhs : forall A s (f : comp -> A) (y : A),
  match comps (mkpath s) with
  | c :: _ => if ptype_eqb (c_type c) ROOT_NAME then f c else y
  | [] => y
  end = y.
Proof.
  intros. destruct (mkpath_shape s) as [->|H1 H2|H1 H2|H1 H2 H3]; cbn [comps]; auto.
  destruct (mkcomps s) eqn:Hm; auto.
  pose proof (mkcomps_types s c). rewrite Hm in H. specialize (H (or_introl eq_refl)).
  destruct (c_type c) eqn:?; cbn; congruence.
Qed.

Lemma mkpath_ptyp_rn : forall s, ptype_eqb (ptyp (mkpath s)) ROOT_NAME = false.
Proof. intros. destruct (mkpath_shape s); reflexivity. Qed.

Lemma path_append_mkpath : forall E grow a b,
  path_append Posix E grow (mkpath a) (mkpath b) = Ok (mkpath (append_text (reported_text a) (reported_text b))).
Proof.
  intros. unfold path_append.
  rewrite !has_root_name_mkpath, !is_absolute_mkpath, !has_root_directory_mkpath.
  cbn [negb andb orb]. rewrite andb_true_r, orb_false_r.
  unfold append_text. rewrite starts_reported.
  destruct (starts_slash b) eqn:Hb.
  - f_equal. symmetry. apply mkpath_reported.
  - rewrite has_filename_mkpath. cbn [bind].
    rewrite mkpath_ptyp_rn.
    rewrite (mkpath_no_rootname_lhs _ b (fun c => skipn (length (c_str c)) (pathname (mkpath b)))).
    change (pathname ?p) with (native p). rewrite !native_mkpath.
    rewrite after_last_reported. rewrite andb_comm.
    replace (starts_slash a && negb (starts_slash a)) with false by (destruct (starts_slash a); reflexivity).
    rewrite orb_false_r. cbn [preferred_separator].
    destruct grow; destruct (is_nil (after_last_slash a)); cbn [negb swap fst app];
      rewrite <- ?app_assoc; cbn [app]; f_equal;
      destruct (mkpath _); reflexivity.
Qed.

Lemma reported_nil : reported_text [] = [].
Proof. reflexivity. Qed.

(** [path()] acts like [path("")]. *)
Lemma path_append_default_l : forall E grow q, canon q ->
  path_append Posix E grow path_default q = path_append Posix E grow (mkpath []) q.
Proof.
  intros. unfold path_append. cbn [has_root_name path_default mkpath split_components ptyp comps ptype_eqb orb].
  cbn [negb]. rewrite andb_true_r.
  replace (root_name Posix E path_default) with (root_name Posix E (mkpath [])).
  2:{ rewrite root_name_mkpath. reflexivity. }
  change (pathname path_default) with (@nil ascii). change (pathname (Path [] [] FILENAME)) with (@nil ascii).
  replace (has_filename Posix path_default) with (Ok false) by reflexivity.
  replace (has_filename Posix (Path [] [] FILENAME)) with (Ok false) by reflexivity.
  replace (has_root_directory Posix E path_default) with false by (destruct E as [? ? []]; reflexivity).
  replace (has_root_directory Posix E (Path [] [] FILENAME)) with false by (destruct E as [? ? []]; reflexivity).
  replace (is_absolute Posix E path_default) with false by (destruct E as [? ? []]; reflexivity).
  replace (is_absolute Posix E (Path [] [] FILENAME)) with false by (destruct E as [? ? []]; reflexivity).
  reflexivity.
Qed.

Lemma path_append_default_r : forall E grow p,
  path_append Posix E grow p path_default = path_append Posix E grow p (mkpath []).
Proof.
  intros. unfold path_append.
  replace (is_absolute Posix E path_default) with (is_absolute Posix E (mkpath [])) by (destruct E as [? ? []]; reflexivity).
  replace (has_root_directory Posix E path_default) with (has_root_directory Posix E (mkpath [])) by (destruct E as [? ? []]; reflexivity).
  replace (is_absolute Posix E (mkpath [])) with false by (destruct E as [? ? []]; reflexivity).
  reflexivity.
Qed.

Lemma path_append_canon : forall E grow p q, canon p -> canon q ->
  path_append Posix E grow p q = Ok (mkpath (append_text (native p) (native q))).
Proof.
  intros E grow p q Hp Hq.
  assert (H : forall a, path_append Posix E grow (mkpath a) q = Ok (mkpath (append_text (reported_text a) (native q)))).
  { intros a. destruct Hq as [->|[b ->]].
    - rewrite path_append_default_r, path_append_mkpath. reflexivity.
    - rewrite path_append_mkpath, native_mkpath. reflexivity. }
  destruct Hp as [->|[a ->]].
  - rewrite path_append_default_l by auto. rewrite H. reflexivity.
  - rewrite H, native_mkpath. reflexivity.
Qed.

(** * Modifiers *)

Lemma starts_app_slash : forall a b, starts_slash (a ++ slash :: b) = starts_slash (a ++ [slash]).
Proof. destruct a; reflexivity. Qed.

Lemma rootc_app_slash : forall a b, rootc (a ++ slash :: b) = rootc (a ++ [slash]).
Proof. intros. unfold rootc. rewrite starts_app_slash. reflexivity. Qed.

Lemma rev_snoc : forall A (l : list A) x, rev (l ++ [x]) = x :: rev l.
Proof. intros. rewrite rev_app_distr. reflexivity. Qed.

Lemma mkcomps_trail : forall a, mkcomps (a ++ [slash]) =
  rootc (a ++ [slash]) ++ tok 0 [] a ++
  (if is_nil (names a) then [] else [Comp [] FILENAME (length a + 1)]).
Proof.
  intros. unfold mkcomps. rewrite tok_trail. unfold trailc.
  rewrite ends_slash_snoc, is_slash_slash. cbn [andb].
  rewrite names_app_slash. cbn [names pieces filter is_nil negb]. rewrite app_nil_r.
  rewrite app_length. destruct (names a); reflexivity.
Qed.

Lemma elements_text_multi : forall s, names s <> [] -> (starts_slash s = true \/ ends_slash s = true) ->
  2 <= length (elements s).
Proof.
  intros. unfold elements. destruct (names s) eqn:Hn; [congruence|].
  rewrite !app_length. destruct H0 as [-> | ->]; cbn [is_nil negb andb]; cbn; lia.
Qed.

Lemma starts_only : forall a, names a = [] -> starts_slash (a ++ [slash]) = true.
Proof.
  intros. apply only_slashes_names in H. destruct a; auto. cbn in *.
  apply andb_true_iff in H. tauto.
Qed.

Lemma only_slashes_shape : forall s, s <> [] -> names s = [] -> mkpath s = Path [slash] [] ROOT_DIR.
Proof.
  intros. rewrite <- mkpath_reported. unfold reported_text.
  apply only_slashes_names in H0. rewrite H0. destruct s; [congruence|reflexivity].
Qed.

Lemma str_erase_app : forall s a b, a ++ b = s -> str_erase s (length a) = Ok a.
Proof.
  intros s a b <-. unfold str_erase. rewrite (proj2 (Nat.leb_le _ _)) by (rewrite app_length; lia).
  rewrite firstn_exact by auto. reflexivity.
Qed.

Lemma remove_filename_mkpath : forall s,
  remove_filename Posix (mkpath s) = Ok (mkpath (upto_last_slash s)).
Proof.
  intros. unfold remove_filename.
  destruct (mkpath_shape s) as [->|H1 H2|H1 H2|H1 H2 H3]; cbn [ptyp comps].
  - reflexivity.
  - f_equal. assert (upto_last_slash s = s) as ->.
    { rewrite <- (upto_after s) at 2. rewrite ends_after; [|apply only_slashes_ends; auto].
      rewrite app_nil_r. reflexivity. }
    apply only_slashes_names in H2. rewrite only_slashes_shape; auto.
  - rewrite upto_last_slash_noslash by auto. reflexivity.
  - destruct (mkcomps_last s H2) as (l & Hl & Hl1 & Hl2).
    rewrite Hl, rev_snoc. cbn [c_type c_str c_pos ptype_eqb pathname andb].
    destruct (after_last_slash s) as [|x f] eqn:Ha; cbn [is_nil negb andb].
    + f_equal. rewrite <- Hl.
      assert (upto_last_slash s = s) as ->.
      { rewrite <- (upto_after s) at 2. rewrite Ha, app_nil_r. reflexivity. }
      symmetry. apply mkpath_multi. rewrite <- mkcomps_length. auto.
    + rewrite Hl1 in * by congruence.
      destruct (last_slash_split s) as [Hno|(a & b & -> & Hb)].
      { rewrite mkcomps_length, elements_noslash in H3 by auto. cbn in H3. lia. }
      rewrite after_last_slash_app in Ha by auto. subst b.
      rewrite upto_last_slash_app in * by auto.
      rewrite (str_erase_app _ (a ++ [slash]) (x :: f)) by (rewrite <- app_assoc; reflexivity). cbn [bind].
      rewrite tok_trail. rewrite rootc_app_slash.
      destruct (tok 0 [] a) as [|t0 tl0] eqn:Ht.
      * apply tok_nil_names in Ht. rewrite app_nil_r.
        unfold rootc. rewrite starts_only by auto. cbn. f_equal.
        symmetry. apply only_slashes_shape. { destruct a; discriminate. }
        rewrite names_app_slash, Ht. reflexivity.
      * assert (Hne : t0 :: tl0 <> []) by congruence.
        destruct (exists_last Hne) as (t & c & Htc). rewrite Htc.
        rewrite app_assoc, rev_snoc.
        assert (Hc : c_type c = FILENAME).
        { eapply tok_types. rewrite Ht, Htc. apply in_or_app. right. left. reflexivity. }
        rewrite Hc. cbn [ptype_eqb orb]. f_equal.
        rewrite <- rev_snoc, rev_involutive.
        replace ((rootc (a ++ [slash]) ++ t) ++ [c]) with (rootc (a ++ [slash]) ++ tok 0 [] a)
          by (rewrite Ht, Htc, app_assoc; reflexivity).
        assert (Hna : names a <> []).
        { intros Hx. apply tok_nil_names in Hx. congruence. }
        rewrite mkpath_multi.
        -- rewrite mkcomps_trail. destruct (names a) eqn:Hn; [congruence|]. cbn [is_nil].
           rewrite <- app_assoc. rewrite app_length. reflexivity.
        -- apply elements_text_multi.
           ++ rewrite names_app_slash. cbn. rewrite app_nil_r. auto.
           ++ right. rewrite ends_slash_snoc. reflexivity.
Qed.
