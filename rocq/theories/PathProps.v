(** The path properties (C01-C21).

    [mkpath s] is the path a program constructs from the text [s] on POSIX
    (split_components Posix s, i.e. path(s)). [E] says which returns the compiler copy-elides. The
    vocabulary of the right-hand sides is in PathSpec.v. *)
From Coq Require Import Ascii String Bool Arith NArith ZArith Lia List.
From Verif Require Import Str PathModel PathSpec StrProofs PathProofs PathOps PathOps2 PathNormal PathNormal2 PathMisc PathReach PathLaws.
Import ListNotations.

(** * C01 *)

Theorem C01_text_kept : forall s,
  (s <> [] -> only_slashes s = true -> native (mkpath s) = lit "/") /\
  (only_slashes s = false -> native (mkpath s) = s) /\
  (s = [] -> native (mkpath s) = []) /\
  (empty (mkpath s) = true <-> s = []).
Proof.
  intros s. rewrite native_mkpath. unfold reported_text. split; [|split; [|split]].
  - intros H1 H2. rewrite H2. destruct s; [congruence|reflexivity].
  - intros H. rewrite H, andb_false_r. reflexivity.
  - intros ->. reflexivity.
  - destruct (shows_mkpath s) as (_ & H & _). rewrite <- H. apply elements_nil.
Qed.

Example C01_example :
  native (mkpath (lit "//a//b/")) = lit "//a//b/" /\ native (mkpath (lit "////")) = lit "/".
Proof. split; reflexivity. Qed.

(** * C02 *)

Theorem C02_root_decomposition : forall E s, let p := mkpath s in
  native (root_name Posix E p) = [] /\
  native (root_directory Posix E p) = (if starts_slash s then lit "/" else []) /\
  native (root_path Posix E p) = (if starts_slash s then lit "/" else []) /\
  (exists r, relative_path Posix E p = Ok r /\ native r = drop_slashes s /\
     native (root_path Posix E p) ++ native r = (if starts_slash s then lit "/" else []) ++ drop_slashes s) /\
  is_absolute Posix E p = starts_slash s /\ is_relative Posix E p = negb (starts_slash s).
Proof.
  intros E s p. unfold p. split; [|split; [|split; [|split; [|split]]]].
  - rewrite root_name_mkpath. apply fin_canon, canon_default.
  - apply native_root_directory.
  - apply root_path_mkpath.
  - destruct (relative_path_mkpath E s) as (r & H1 & H2 & _). exists r. split; auto. split; auto.
    rewrite (proj1 (root_path_mkpath E s)), H2. reflexivity.
  - apply is_absolute_mkpath.
  - unfold is_relative. rewrite is_absolute_mkpath. reflexivity.
Qed.

Example C02_example : forall E,
  match relative_path Posix E (mkpath (lit "//a/b")) with Ok r => native r | _ => [] end = lit "a/b" /\
  native (root_path Posix E (mkpath (lit "//a/b"))) = lit "/".
Proof. destruct E as [[] [] []]; split; reflexivity. Qed.

(** * C03 *)

Theorem C03_iteration : forall s, let p := mkpath s in
  exists l, forward p (it_begin p) l /\ map native l = elements s /\
            (forall m, forward p (it_begin p) m -> m = l) /\
            backward p (it_end p) (rev l).
Proof.
  intros s p. exists (elems p). split; [apply forward_elems|]. split; [apply elems_mkpath|].
  split; [intros m H; symmetry; eapply forward_fun; [apply forward_elems|exact H]|].
  destruct (ptyp p) eqn:Ht; [apply backward_elems; auto| | | ];
    (destruct (empty p) eqn:He; [|apply backward_elems; auto];
     unfold elems; rewrite Ht, He; cbn [rev]; apply backward_empty; auto; congruence).
Qed.

Theorem C03_steps_inverse : forall (p : path) i j,
  (it_inc p i = Ok j -> it_dec p j = Ok i) /\ (it_dec p i = Ok j -> it_inc p j = Ok i \/ i = ItMulti (S (length (comps p)))
     \/ exists n, i = ItMulti n /\ length (comps p) < n).
Proof.
  intros p i j. split.
  - unfold it_inc, it_dec. destruct (ptyp p), i as [n|[]]; try discriminate;
      try (destruct (n =? length (comps p)); [discriminate|]); intros H; injection H as <-; reflexivity.
  - unfold it_inc, it_dec. destruct (ptyp p), i as [[|n]|[]]; try discriminate; intros H; injection H as <-; auto.
    destruct (n =? length (comps p)) eqn:He; auto. apply Nat.eqb_eq in He. subst. auto.
Qed.

Example C03_example : map native (elems (mkpath (lit "//a/b//"))) = [lit "/"; lit "a"; lit "b"; []] /\
  elements (lit "//a/b//") = [lit "/"; lit "a"; lit "b"; []].
Proof. split; reflexivity. Qed.

(** * C04 *)

Theorem C04_filename_parent : forall E s, let p := mkpath s in
  (exists f, filename Posix p = Ok f /\ native f = after_last_slash s) /\
  (exists q, parent_path Posix E p = Ok q /\
     (names s = [] -> native q = native p) /\
     (names s <> [] -> map native (elems q) = parent_elements (elements s)) /\
     map native (elems q) = elements (native q)).
Proof.
  intros E s p. unfold p. split.
  - destruct (gives_filename (mkpath s) (canon_mkpath s)) as (f & H1 & _ & H2). exists f. split; auto.
    rewrite H2, native_mkpath. apply after_last_reported.
  - destruct (parent_path_mkpath E s) as (q & H1 & H2 & H3 & _). exists q. split; auto. split; [|split].
    + intros Hn. rewrite H2, native_mkpath. unfold parent_text. rewrite names_reported, Hn. reflexivity.
    + intros Hn. rewrite H3, elements_parent_text, elements_reported; auto. rewrite names_reported. auto.
    + rewrite H3, H2. reflexivity.
Qed.

Theorem C04_recompose : forall E s, after_last_slash s <> [] -> exists q f r,
  parent_path Posix E (mkpath s) = Ok q /\ filename Posix (mkpath s) = Ok f /\
  path_div Posix E q f = Ok r /\ path_eq r (mkpath s) = true.
Proof.
  intros E s Ha. destruct (parent_append E s) as (q & Hq & Hrn & Hf).
  destruct (parent_path_mkpath E s) as (q' & Hq' & Hn & _). rewrite Hq in Hq'. injection Hq' as <-.
  exists q, (mkpath (after_last_slash s)), (mkpath (append_text (native q) (after_last_slash s))).
  split; auto. split.
  { rewrite filename_mkpath. destruct (after_last_slash s); [congruence|reflexivity]. }
  assert (Hno := noslash_after s).
  split.
  - unfold path_div. rewrite append_any; auto.
    + cbn [bind]. rewrite fin_mkpath. reflexivity.
    + destruct (after_last_slash s); auto. apply noslash_cons in Hno. cbn. tauto.
    + apply noslash_text. auto.
  - apply (path_eq_shows _ _ _ _ (shows_mkpath _) (shows_mkpath s)). rewrite Hn.
    rewrite <- (after_last_reported s) in *. rewrite elements_parent_append; auto using reported_is_text.
    apply elements_reported.
Qed.

Example C04_example : after_last_slash (lit "/a//b.c") <> [] /\
  parent_elements (elements (lit "/a//b.c")) = [lit "/"; lit "a"] /\
  parent_elements (elements (lit "a/b/")) = [lit "a"].
Proof. split; [discriminate|split; reflexivity]. Qed.

(** * C05 *)

Theorem C05_stem_extension : forall s, let p := mkpath s in exists f, filename Posix p = Ok f /\
  is_stem_ext (native f) (native (stem Posix p)) (native (extension Posix p)) /\
  (forall st ex, is_stem_ext (native f) st ex -> st = native (stem Posix p) /\ ex = native (extension Posix p)) /\
  has_stem p = negb (empty (stem Posix p)) /\
  has_extension p = negb (empty (extension Posix p)).
Proof.
  intros s p. unfold p.
  destruct (gives_filename (mkpath s) (canon_mkpath s)) as (f & H1 & _ & H2). exists f. split; auto.
  rewrite native_mkpath, after_last_reported in H2.
  unfold empty. change (pathname ?x) with (native x).
  rewrite (proj1 (stem_mkpath s)), (proj1 (extension_mkpath s)), H2, has_stem_mkpath, has_extension_mkpath.
  split; [apply stem_ext_ok|]. split; [|split].
  - intros st ex H. eapply stem_ext_unique; [exact H|apply stem_ext_ok].
  - f_equal. destruct (after_last_slash s) as [|c t] eqn:Ha; [reflexivity|].
    destruct (stem_ext_ok (c :: t)) as [He [[Hx _]|(x & _ & _ & Hne & _)]].
    + rewrite Hx, app_nil_r in He. rewrite <- He. reflexivity.
    + destruct (stem_text (c :: t)); [congruence|reflexivity].
  - reflexivity.
Qed.

Example C05_example : is_stem_ext (lit "foo.bar.txt") (lit "foo.bar") (lit ".txt") /\
  is_stem_ext (lit ".profile") (lit ".profile") [] /\
  native (extension Posix (mkpath (lit "/x/foo.bar.txt"))) = lit ".txt".
Proof.
  repeat split; auto.
  - right. exists (lit "txt"). repeat split; try discriminate. cbn. intuition discriminate.
  - left. split; auto. right. right. cbn. intuition discriminate.
Qed.

(** * C06 *)

Theorem C06_queries : forall E s, let p := mkpath s in
  has_root_name p = negb (empty (root_name Posix E p)) /\
  has_root_directory Posix E p = negb (empty (root_directory Posix E p)) /\
  has_root_path Posix E p = negb (empty (root_path Posix E p)) /\
  (exists r, relative_path Posix E p = Ok r /\ has_relative_path Posix E p = Ok (negb (empty r))) /\
  (exists r, parent_path Posix E p = Ok r /\ has_parent_path Posix E p = Ok (negb (empty r))) /\
  (exists r, filename Posix p = Ok r /\ has_filename Posix p = Ok (negb (empty r))) /\
  is_relative Posix E p = negb (is_absolute Posix E p).
Proof.
  intros E s p. unfold p. split; [|split; [|split; [|split; [|split; [|split]]]]]; auto.
  - rewrite has_root_name_mkpath, root_name_mkpath. destruct (fin_canon (el_other E) path_default canon_default) as [_ H].
    unfold empty. change (pathname ?x) with (native x). rewrite H. reflexivity.
  - destruct (relative_path_mkpath E s) as (r & H & _). exists r. unfold has_relative_path. rewrite H. auto.
  - destruct (parent_path_mkpath E s) as (r & H & _). exists r. unfold has_parent_path. rewrite H. auto.
  - unfold has_filename. rewrite filename_mkpath. eexists. split; reflexivity.
Qed.

Example C06_example : forall E, has_filename Posix (mkpath (lit "/a/")) = Ok false /\
  has_parent_path Posix E (mkpath (lit "/a/")) = Ok true /\ has_root_name (mkpath (lit "//host/a")) = false.
Proof. destruct E as [[] [] []]; repeat split; reflexivity. Qed.

(** * C07, C08 *)

(** The representations a program can hold: constructed from text, default constructed, or returned by
    parent_path or lexically_normal, whichever way those returns are compiled. *)
Inductive held (E : elision) : path -> str -> Prop :=
| HText : forall s, held E (mkpath s) s
| HDefault : held E path_default []
| HParent : forall s q, parent_path Posix E (mkpath s) = Ok q -> held E q (native q)
| HNormal : forall s q, lexically_normal Posix E (mkpath s) = Ok q -> held E q (native q).

Lemma held_shows : forall E p t, held E p t -> shows p (elements t).
Proof.
  intros E p t [s| |s q Hq|s q Hq].
  - apply shows_mkpath.
  - apply shows_default.
  - destruct (parent_path_mkpath E s) as (q' & Hq' & H1 & H2 & _). rewrite Hq in Hq'. injection Hq' as <-.
    split; [rewrite H2, H1; reflexivity|]. split; [|intros; eapply elements_head; eauto].
    rewrite elements_nil. unfold empty. fold (native q). destruct (native q); cbn; split; congruence.
  - destruct s as [|c s].
    + unfold lexically_normal in Hq. cbn [empty mkpath pathname is_nil] in Hq. injection Hq as <-.
      destruct (fin_canon (el_normal E) path_default canon_default) as [Hc Hn]. apply shows_canon in Hc. auto.
    + destruct (lexically_normal_mkpath E (c :: s)) as (q' & Hq' & H1 & H2 & _); [congruence|].
      rewrite Hq in Hq'. injection Hq' as <-. rewrite H1. auto.
Qed.

Theorem C07_compare_lexicographic : forall E1 E2 p s q t, held E1 p s -> held E2 q t ->
  Z.sgn (compare p q) = match lex_compare (elements s) (elements t) with Lt => -1 | Eq => 0 | Gt => 1 end%Z.
Proof.
  intros E1 E2 p s q t Hp Hq. apply held_shows in Hp, Hq.
  rewrite (compare_shows p q _ _ Hp Hq). destruct (lex_compare _ _); reflexivity.
Qed.

Theorem C07_compare_order : forall E1 E2 E3 p s q t r u, held E1 p s -> held E2 q t -> held E3 r u ->
  (compare p q = 0 <-> elements s = elements t)%Z /\
  Z.sgn (compare q p) = (- Z.sgn (compare p q))%Z /\
  ((compare p q < 0 -> compare q r < 0 -> compare p r < 0)%Z) /\
  path_eq p q = (compare p q =? 0)%Z /\ path_ne p q = negb (compare p q =? 0)%Z /\
  path_lt p q = (compare p q <? 0)%Z /\ path_gt p q = (compare p q >? 0)%Z /\
  path_le p q = (compare p q <=? 0)%Z /\ path_ge p q = (compare p q >=? 0)%Z.
Proof.
  intros E1 E2 E3 p s q t r u Hp Hq Hr. apply held_shows in Hp, Hq, Hr.
  pose proof (compare_shows p q _ _ Hp Hq) as C1. pose proof (compare_shows q p _ _ Hq Hp) as C2.
  pose proof (compare_shows q r _ _ Hq Hr) as C3. pose proof (compare_shows p r _ _ Hp Hr) as C4.
  pose proof (path_eq_shows p q _ _ Hp Hq) as Heq.
  assert (A : Z.sgn (compare q p) = (- Z.sgn (compare p q))%Z).
  { rewrite C1, C2, (lex_compare_antisym (elements s) (elements t)). destruct (lex_compare (elements s) (elements t)); reflexivity. }
  split; [|split; [exact A|split]].
  - unfold path_eq in Heq. rewrite Z.eqb_eq in Heq. exact Heq.
  - intros L1 L2.
    assert (lex_compare (elements s) (elements t) = Lt) by (destruct (lex_compare (elements s) (elements t)); cbn in C1; auto; lia).
    assert (lex_compare (elements t) (elements u) = Lt) by (destruct (lex_compare (elements t) (elements u)); cbn in C3; auto; lia).
    rewrite (lex_compare_lt_trans _ _ _ H H0) in C4. cbn in C4. lia.
  - unfold path_ne, path_le, path_ge, path_gt, path_lt, path_eq.
    repeat split; try reflexivity; destruct (compare p q), (compare q p); cbn in A; try lia; reflexivity.
Qed.

Example C07_example :
  held (Elision true true true) (Path (lit "/a") [Comp (lit "/") ROOT_DIR 0; Comp (lit "a") FILENAME 3] MULTI) (lit "/a") /\
  (compare (Path (lit "/a") [Comp (lit "/") ROOT_DIR 0; Comp (lit "a") FILENAME 3] MULTI) (mkpath (lit "//a")) = 0)%Z /\
  (compare (mkpath (lit "a/b")) (mkpath (lit "a.b")) < 0)%Z.
Proof.
  split; [|split; reflexivity].
  apply (HParent (Elision true true true) (lit "///a/b") (Path (lit "/a") [Comp (lit "/") ROOT_DIR 0; Comp (lit "a") FILENAME 3] MULTI)). reflexivity.
Qed.

Theorem C08_hash_consistent : forall E1 E2 (h : str -> N) p s q t, held E1 p s -> held E2 q t ->
  path_eq p q = true -> hash_value h p = hash_value h q.
Proof.
  intros E1 E2 h p s q t Hp Hq H. apply held_shows in Hp, Hq.
  pose proof (path_eq_shows p q _ _ Hp Hq) as He. apply He in H.
  destruct Hp as [Hp _], Hq as [Hq _]. rewrite (hash_shows h p _ Hp), (hash_shows h q _ Hq), H. reflexivity.
Qed.

Example C08_example : path_eq (mkpath (lit "/a//b")) (mkpath (lit "//a/b")) = true /\
  native (mkpath (lit "/a//b")) <> native (mkpath (lit "//a/b")).
Proof. split; [reflexivity|discriminate]. Qed.

(** * C09, C10, C11 *)

(** Text of [p / q]. *)
Theorem C09_append_text : forall E grow s t, exists r, path_append Posix E grow (mkpath s) (mkpath t) = Ok r /\
  native r = (if starts_slash t then native (mkpath t)
              else native (mkpath s) ++ (if is_nil (after_last_slash s) then [] else lit "/") ++ t).
Proof.
  intros E grow s t. rewrite path_append_mkpath. eexists. split; [reflexivity|].
  rewrite native_is_text by (apply append_text_text; apply reported_is_text).
  unfold append_text. rewrite starts_reported, after_last_reported, !native_mkpath.
  destruct (starts_slash t) eqn:Ht; auto. f_equal. f_equal.
  unfold reported_text. destruct t; [reflexivity|]. cbn in *. rewrite Ht. reflexivity.
Qed.

(** Elements of [p / q]: those of [p] without a trailing empty one, then those of [q]. *)
Theorem C09_append_elements : forall E grow s t, exists r, path_append Posix E grow (mkpath s) (mkpath t) = Ok r /\
  map native (elems r) =
    if starts_slash t then elements t
    else (if starts_slash s then [lit "/"] else []) ++ names s ++
         (if is_nil t then (if is_nil (names s) then [] else [[]]) else elements t).
Proof.
  intros E grow s t. rewrite path_append_mkpath. eexists. split; [reflexivity|]. rewrite elems_mkpath.
  destruct (starts_slash t) eqn:Ht.
  - unfold append_text. rewrite starts_reported, Ht. apply elements_reported.
  - destruct t as [|c t].
    + cbn [is_nil]. change (reported_text []) with (@nil ascii). rewrite elements_append_empty, starts_reported, names_reported. reflexivity.
    + assert (Hr : reported_text (c :: t) = c :: t).
      { unfold reported_text. cbn in *. rewrite Ht. reflexivity. }
      rewrite Hr. cbn [is_nil]. rewrite elements_append by (auto; congruence). rewrite starts_reported, names_reported. reflexivity.
Qed.

Theorem C09_capacity_independent : forall E s t,
  path_append Posix E true (mkpath s) (mkpath t) = path_append Posix E false (mkpath s) (mkpath t).
Proof. intros. rewrite !path_append_mkpath. reflexivity. Qed.

(** p / q is what p /= q makes of p, however many copies of it are elided. *)
Theorem C09_division : forall E grow s t, path_div Posix E (mkpath s) (mkpath t) = path_append Posix E grow (mkpath s) (mkpath t).
Proof. intros E grow s t. unfold path_div. rewrite !path_append_mkpath. cbn [bind]. rewrite fin_mkpath. reflexivity. Qed.

Example C09_example : forall E,
  path_append Posix E true (mkpath (lit "/a//")) (mkpath (lit "b/")) = Ok (mkpath (lit "/a//b/")) /\
  path_append Posix E false (mkpath (lit "a")) (mkpath (lit "/b")) = Ok (mkpath (lit "/b")).
Proof. destruct E as [[] [] []]; split; reflexivity. Qed.

Theorem C10_associative : forall E s t u, t <> [] -> exists ab abc bc abc',
  path_div Posix E (mkpath s) (mkpath t) = Ok ab /\ path_div Posix E ab (mkpath u) = Ok abc /\
  path_div Posix E (mkpath t) (mkpath u) = Ok bc /\ path_div Posix E (mkpath s) bc = Ok abc' /\
  abc = abc' /\ path_eq abc abc' = true.
Proof.
  intros E s t u Ht. unfold path_div. rewrite !path_append_mkpath. cbn [bind]. rewrite !fin_mkpath.
  assert (T : forall a b, reported_text (append_text (reported_text a) (reported_text b)) =
                          append_text (reported_text a) (reported_text b)).
  { intros. apply append_text_text; apply reported_is_text. }
  do 4 eexists. split; [reflexivity|]. split; [rewrite path_append_mkpath; cbn [bind]; rewrite fin_mkpath; reflexivity|].
  split; [reflexivity|]. split; [rewrite path_append_mkpath; cbn [bind]; rewrite fin_mkpath; reflexivity|].
  rewrite !T, append_text_assoc.
  - split; auto. apply path_eq_refl.
  - unfold reported_text. destruct t; [congruence|]. cbn [is_nil negb andb]. destruct (only_slashes (a :: t)); discriminate.
Qed.

Theorem C10_left_identity : forall E s, path_div Posix E path_default (mkpath s) = Ok (mkpath s).
Proof.
  intros. unfold path_div. rewrite path_append_canon by (auto using canon_default, canon_mkpath).
  cbn [native path_default pathname]. rewrite append_text_nil_l. cbn [bind]. rewrite fin_mkpath, mkpath_native. reflexivity.
Qed.

(** The condition on the middle path is needed: appending an empty path adds a separator. *)
Theorem C10_empty_middle_differs : forall E, exists s t u ab abc bc abc', t = [] /\
  path_div Posix E (mkpath s) (mkpath t) = Ok ab /\ path_div Posix E ab (mkpath u) = Ok abc /\
  path_div Posix E (mkpath t) (mkpath u) = Ok bc /\ path_div Posix E (mkpath s) bc = Ok abc' /\
  path_eq ab (mkpath s) = false.
Proof.
  intros. exists (lit "a"), [], (lit "b"). unfold path_div. rewrite !path_append_mkpath. cbn [bind]. rewrite !fin_mkpath.
  do 4 eexists. split; auto. split; [reflexivity|].
  split; [rewrite path_append_mkpath; cbn [bind]; rewrite fin_mkpath; reflexivity|].
  split; [reflexivity|]. split; [rewrite path_append_mkpath; cbn [bind]; rewrite fin_mkpath; reflexivity|]. reflexivity.
Qed.

Example C10_example : forall E, exists r, path_div Posix E (mkpath (lit "a")) (mkpath (lit "b/c")) = Ok r /\
  path_div Posix E r (mkpath (lit "d")) = Ok (mkpath (lit "a/b/c/d")).
Proof. destruct E as [[] [] []]; eexists; split; reflexivity. Qed.

Theorem C11_concat : forall p s,
  path_concat Posix p s = mkpath (native p ++ s) /\
  native (path_concat Posix p s) = reported_text (native p ++ s) /\
  map native (elems (path_concat Posix p s)) = elements (native p ++ s).
Proof. intros. split; auto. split; [apply native_mkpath|apply elems_mkpath]. Qed.

Example C11_example : map native (elems (path_concat Posix (mkpath (lit "a/b")) (lit "c/d"))) = [lit "a"; lit "bc"; lit "d"].
Proof. reflexivity. Qed.

(** * C12, C13 *)

Theorem C12_remove_filename : forall s, let p := mkpath s in exists q,
  remove_filename Posix p = Ok q /\
  native q = reported_text (upto_last_slash s) /\
  has_filename Posix q = Ok false /\
  remove_filename Posix q = Ok q.
Proof.
  intros s p. exists (mkpath (upto_last_slash s)). unfold p.
  assert (Ha : after_last_slash (upto_last_slash s) = []).
  { destruct (last_slash_split s) as [H|(a & b & -> & H)].
    - rewrite upto_last_slash_noslash by auto. reflexivity.
    - rewrite upto_last_slash_app by auto. apply (after_last_slash_app a []). reflexivity. }
  split; [apply remove_filename_mkpath|]. split; [apply native_mkpath|]. split.
  - rewrite has_filename_mkpath, Ha. reflexivity.
  - rewrite remove_filename_mkpath. f_equal. f_equal.
    pose proof (upto_after (upto_last_slash s)) as H. rewrite Ha, app_nil_r in H. exact H.
Qed.


Lemma elements_replace_own : forall s, after_last_slash s <> [] ->
  elements (append_text (reported_text (upto_last_slash s)) (after_last_slash s)) = elements s.
Proof.
  intros s Ha. assert (Hno := noslash_after s).
  assert (Hst : starts_slash (after_last_slash s) = false).
  { destruct (after_last_slash s); auto. apply noslash_cons in Hno. cbn. tauto. }
  rewrite elements_append by auto. rewrite starts_reported, names_reported, elements_noslash by auto.
  unfold elements. destruct (last_slash_split s) as [H|(a & b & Hs & H)].
  - rewrite after_last_slash_noslash in * by auto. rewrite upto_last_slash_noslash by auto. cbn [starts_slash app].
    rewrite names_nil, Hst, names_noslash, noslash_ends by auto. reflexivity.
  - rewrite Hs in *. rewrite after_last_slash_app in * by auto. rewrite upto_last_slash_app by auto.
    rewrite (starts_app_slash a b), (names_app_slash a b), names_app_sl, (names_noslash b) by auto.
    change (a ++ slash :: b) with (a ++ [slash] ++ b). rewrite (app_assoc a [slash] b), ends_slash_app, (noslash_ends b) by auto.
    cbn [andb]. rewrite app_nil_r, <- ?app_assoc. reflexivity.
Qed.

Lemma starts_upto : forall s, starts_slash (upto_last_slash s) = starts_slash s.
Proof.
  intros s. destruct (last_slash_split s) as [H|(a & b & -> & H)].
  - rewrite upto_last_slash_noslash by auto. destruct s; auto. apply noslash_cons in H. cbn. symmetry. tauto.
  - rewrite upto_last_slash_app, (starts_app_slash a b) by auto. reflexivity.
Qed.

Theorem C12_replace_filename : forall E s t, let p := mkpath s in exists q r,
  remove_filename Posix p = Ok q /\ replace_filename Posix E p (mkpath t) = Ok r /\
  path_append Posix E true q (mkpath t) = Ok r /\
  (starts_slash t = false -> t <> [] -> map native (elems r) =
     (if starts_slash s then [lit "/"] else []) ++ names (upto_last_slash s) ++ elements t).
Proof.
  intros E s t p. unfold p.
  exists (mkpath (upto_last_slash s)), (mkpath (append_text (reported_text (upto_last_slash s)) (reported_text t))).
  split; [apply remove_filename_mkpath|].
  split; [unfold replace_filename; rewrite remove_filename_mkpath; cbn [bind]; apply path_append_mkpath|].
  split; [apply path_append_mkpath|]. intros Ht Hne. rewrite elems_mkpath.
  assert (Hr : reported_text t = t).
  { unfold reported_text. destruct t; auto. cbn in *. rewrite Ht. reflexivity. }
  rewrite Hr, elements_append, starts_reported, names_reported, starts_upto by auto. reflexivity.
Qed.

Theorem C12_replace_own : forall E s f, after_last_slash s <> [] -> filename Posix (mkpath s) = Ok f ->
  exists r, replace_filename Posix E (mkpath s) f = Ok r /\ path_eq r (mkpath s) = true.
Proof.
  intros E s f Ha Hf. rewrite filename_mkpath in Hf.
  assert (f = mkpath (after_last_slash s)) as -> by (destruct (after_last_slash s); [congruence|injection Hf as <-; reflexivity]).
  eexists. split; [unfold replace_filename; rewrite remove_filename_mkpath; cbn [bind]; apply path_append_mkpath|].
  apply (path_eq_shows _ _ _ _ (shows_mkpath _) (shows_mkpath s)).
  rewrite (noslash_text (after_last_slash s) (noslash_after s)). apply elements_replace_own. auto.
Qed.

Example C12_example :
  remove_filename Posix (mkpath (lit "/a//b.c")) = Ok (mkpath (lit "/a//")) /\
  (forall E, replace_filename Posix E (mkpath (lit "/a//b.c")) (mkpath (lit "x/y")) = Ok (mkpath (lit "/a//x/y"))) /\
  after_last_slash (lit "/a//b.c") <> [].
Proof. split; [reflexivity|split; [destruct E as [[] [] []]; reflexivity|discriminate]]. Qed.

(** [replace_extension]: everything up to the stem is kept, then a dot unless the replacement
    has one or is empty, then the replacement. *)
Theorem C13_replace_extension_text : forall s r, let p := mkpath s in exists q,
  replace_extension Posix p (mkpath r) = Ok q /\
  native q = reported_text (upto_last_slash (reported_text s) ++ native (stem Posix p) ++
    match native (mkpath r) with [] => [] | c :: x => if Ascii.eqb c dot then c :: x else dot :: c :: x end).
Proof.
  intros s r p. unfold p. rewrite <- (mkpath_reported s), replace_extension_canon by apply reported_is_text.
  eexists. split; [reflexivity|]. rewrite native_mkpath, (proj1 (stem_mkpath _)).
  unfold dotted. destruct (native (mkpath r)); reflexivity.
Qed.

Lemma after_upto_app : forall s f, noslash f -> after_last_slash (upto_last_slash s ++ f) = f.
Proof.
  intros s f Hf. destruct (last_slash_split s) as [H|(a & b & -> & H)].
  - rewrite upto_last_slash_noslash by auto. apply after_last_slash_noslash. auto.
  - rewrite upto_last_slash_app, <- app_assoc by auto. apply after_last_slash_app. auto.
Qed.

Lemma dotted_noslash : forall r, noslash r -> noslash (dotted r).
Proof. intros [|c r] H; auto. unfold dotted. destruct (Ascii.eqb c dot); auto. Qed.

(** The new extension and the unchanged stem can be read back when the replacement is one
    extension (no slash, no dot except possibly in front) and the stem is neither empty nor ".". *)
Theorem C13_replace_extension_reads_back : forall s r, let p := mkpath s in
  after_last_slash s <> [] -> native (stem Posix p) <> lit "." ->
  ~ In slash r -> r <> [] -> ~ In dot (tl r) -> (hd dot r = dot \/ ~ In dot r) ->
  exists q, replace_extension Posix p (mkpath r) = Ok q /\
    native (stem Posix q) = native (stem Posix p) /\
    native (extension Posix q) = (if Ascii.eqb (hd dot r) dot then r else dot :: r) /\
    parent_elements (elements (native q)) = parent_elements (elements (native p)).
Proof.
  intros s r p Ha Hst Hsl Hr Hd1 Hd2. unfold p in *.
  apply noslash_In in Hsl.
  assert (Hstem := proj1 (stem_mkpath s)). rewrite Hstem in *.
  assert (Hne : stem_text (after_last_slash s) <> []).
  { destruct (stem_ext_ok (after_last_slash s)) as [He [[Hx _]|(x & _ & _ & Hne & _)]]; auto.
    rewrite Hx, app_nil_r in He. congruence. }
  rewrite <- (mkpath_reported s), replace_extension_canon by apply reported_is_text.
  rewrite after_last_reported.
  assert (Hnat : native (mkpath r) = r).
  { rewrite native_mkpath. apply noslash_text. auto. }
  rewrite Hnat.
  set (f' := stem_text (after_last_slash s) ++ dotted r).
  assert (Hf' : noslash f').
  { apply noslash_app. split; [apply stem_text_noslash, noslash_after|apply dotted_noslash; auto]. }
  eexists. split; [reflexivity|].
  rewrite (proj1 (stem_mkpath _)), (proj1 (extension_mkpath _)), mkpath_reported.
  rewrite after_upto_app by auto.
  destruct (stem_ext_unique f' (stem_text f') (ext_text f') _ _ (stem_ext_ok f') (stem_dotted _ r Hne Hst Hr Hd1 Hd2)) as [U1 U2].
  rewrite U1, U2. split; auto. split.
  - destruct r as [|c r]; [congruence|]. reflexivity.
  - rewrite !native_mkpath, !elements_reported.
    assert (Hf'ne : f' <> []) by (unfold f'; destruct (stem_text (after_last_slash s)); [congruence|discriminate]).
    assert (P : forall f, noslash f -> f <> [] -> elements (upto_last_slash s ++ f) =
        (if starts_slash s then [[slash]] else []) ++ names (upto_last_slash s) ++ [f]).
    { intros f F1 F2. destruct (last_slash_split s) as [H|(a & b & Hs & H)].
      - rewrite upto_last_slash_noslash by auto. cbn [app]. rewrite names_nil, elements_noslash by auto.
        assert (starts_slash s = false) as ->. { destruct s; auto. apply noslash_cons in H. cbn. tauto. } reflexivity.
      - rewrite Hs. rewrite upto_last_slash_app by auto. rewrite <- app_assoc. cbn [app]. unfold elements.
        rewrite (starts_app_slash a f), (starts_app_slash a b), (names_app_slash a f), names_app_sl, (names_noslash f) by auto.
        change (a ++ slash :: f) with (a ++ [slash] ++ f). rewrite (app_assoc a [slash] f), ends_slash_app, (noslash_ends f) by auto.
        cbn [andb]. rewrite app_nil_r. reflexivity. }
    assert (Hup : upto_last_slash (reported_text s) = upto_last_slash s).
    { unfold reported_text. destruct (negb (is_nil s) && only_slashes s) eqn:Ho; auto.
      exfalso. apply andb_true_iff in Ho as [Ho1 Ho2]. apply Ha, ends_after, only_slashes_ends; auto.
      destruct s; discriminate. }
    rewrite Hup, P by auto.
    rewrite <- (upto_after s) at 3. rewrite P by (auto using noslash_after).
    unfold parent_elements. rewrite !app_assoc, !rev_app_distr. cbn [rev app is_nil].
    destruct f'; [congruence|]. destruct (after_last_slash s); [congruence|]. reflexivity.
Qed.

(** Replacing the extension by the path's own extension changes nothing. *)
Theorem C13_replace_own : forall s,
  replace_extension Posix (mkpath s) (extension Posix (mkpath s)) = Ok (mkpath s).
Proof.
  intros s. rewrite <- (mkpath_native s). generalize (canon_native _ (canon_mkpath s)). generalize (native (mkpath s)). clear s. intros s Ht.
  rewrite replace_extension_canon by auto. rewrite (proj1 (extension_mkpath s)), ext_text_dotted.
  rewrite app_assoc, <- (app_assoc (upto_last_slash s)), stem_ext_app, upto_after. reflexivity.
Qed.

Example C13_example :
  replace_extension Posix (mkpath (lit "/a/b.tar.gz")) (mkpath (lit "zip")) = Ok (mkpath (lit "/a/b.tar.zip")) /\
  replace_extension Posix (mkpath (lit "a/.profile")) (mkpath (lit ".x")) = Ok (mkpath (lit "a/.profile.x")) /\
  replace_extension Posix (mkpath (lit "a.b.c")) (mkpath []) = Ok (mkpath (lit "a.b")).
Proof. repeat split; reflexivity. Qed.

(** * C14 *)

(** When neither parent_path nor lexically_normal elides its return, no sequence of operations on
    paths throws, asserts or is undefined, and two variables of any two such histories whose texts are
    equal answer every question alike. Missing: elided returns (see the refutations below) and
    operations whose argument is the changed object itself ([no_alias]; those are in AliasReach.v). *)
Theorem C14_text_determines_partial : forall E l1 l2,
  el_parent E = false -> el_normal E = false ->
  forallb no_alias l1 = true -> forallb no_alias l2 = true ->
  exists st1 st2, exec_all Posix E start l1 = Ok st1 /\ exec_all Posix E start l2 = Ok st2 /\
    forall x y, native (st1 x) = native (st2 y) -> same_view (view_of Posix E (st1 x)) (view_of Posix E (st2 y)).
Proof.
  intros E l1 l2 H1 H2 _ _.
  destruct (exec_all_canon E l1 start H1 H2 (fun _ => canon_default)) as (st1 & A1 & C1).
  destruct (exec_all_canon E l2 start H1 H2 (fun _ => canon_default)) as (st2 & A2 & C2).
  exists st1, st2. split; auto. split; auto. intros. apply canon_views; auto.
Qed.

Example C14_example : forall b, exists st,
  exec_all Posix (Elision false false b) start
    [SText 0 (lit "//a//b/c"); SParentPath 1 0; SText 2 (lit "//a//b"); SNormal 3 1; SRelative 4 0 1] = Ok st /\
  native (st 1) = lit "/a/b" /\ native (st 3) = lit "/a/b" /\ native (st 4) = lit "c".
Proof. intros []; eexists; repeat split; reflexivity. Qed.

(** With parent_path's return elided (GCC 14, Clang): equal texts, different answers. *)
Theorem C14_text_determines_refuted : forall a b, exists st1 st2,
  exec_all Posix (Elision true a b) start [SText 0 (lit "///a/b"); SParentPath 1 0] = Ok st1 /\
  exec_all Posix (Elision true a b) start [SText 1 (lit "/a")] = Ok st2 /\
  native (st1 1) = native (st2 1) /\
  relative_path Posix (Elision true a b) (st1 1) = Throw out_of_range /\
  text_of (relative_path Posix (Elision true a b) (st2 1)) = Ok (lit "a").
Proof. intros [] []; do 2 eexists; repeat split; reflexivity. Qed.

Theorem C14_normal_then_remove_filename_refuted : forall a b,
  exec_all Posix (Elision a true b) start [SText 0 (lit "../"); SNormal 1 0; SRemoveFilename 1] = UB.
Proof. intros [] []; reflexivity. Qed.

Theorem C14_parent_then_remove_filename_refuted : forall a b,
  exec_all Posix (Elision true a b) start [SText 0 (lit "a/b"); SParentPath 1 0; SRemoveFilename 1] = UB.
Proof. intros [] []; reflexivity. Qed.

(** * C15, C16, C17 *)

Theorem C15_normal_form : forall E s, exists q, lexically_normal Posix E (mkpath s) = Ok q /\
  (s = [] -> native q = []) /\
  (s <> [] -> is_normal_text (native q)) /\
  map native (elems q) = elements (native q).
Proof.
  intros E [|c s].
  - exists (fin Posix (el_normal E) path_default). split; [reflexivity|].
    destruct (fin_canon (el_normal E) path_default canon_default) as [Hc Hn]. split; auto. split; [congruence|].
    apply shows_canon in Hc. apply Hc.
  - destruct (lexically_normal_mkpath E (c :: s)) as (q & Hq & H1 & H2 & _); [congruence|].
    exists q. split; auto. split; [congruence|]. split; [intros _; rewrite H1; apply normal_text_normal|].
    rewrite H1. apply H2.
Qed.

Theorem C16_normal_meaning : forall E s, exists q, lexically_normal Posix E (mkpath s) = Ok q /\
  starts_slash (native q) = starts_slash s /\
  (forall place, resolve place (native q) = resolve place s) /\
  (s <> [] -> native q <> lit "/" ->
     (ends_slash (native q) = true <->
        plain (last (elements s) []) = false /\ plain (last (names (native q)) []) = true)).
Proof.
  intros E [|c s].
  - exists (fin Posix (el_normal E) path_default). split; [reflexivity|].
    destruct (fin_canon (el_normal E) path_default canon_default) as [_ ->]. split; auto. split; auto. congruence.
  - destruct (lexically_normal_mkpath E (c :: s)) as (q & Hq & H1 & _); [congruence|].
    exists q. split; auto. rewrite H1. split; [|split].
    + apply starts_final, norm_stk_good.
    + intros. apply normal_text_resolve.
    + intros _ Hr. rewrite normal_text_trailing by auto. split.
      * intros (A & n & B & C). subst n. auto.
      * intros (A & B). split; auto. eauto.
Qed.

Theorem C17_idempotent : forall E s q, lexically_normal Posix E (mkpath s) = Ok q ->
  exists r, lexically_normal Posix E (mkpath (native q)) = Ok r /\ native r = native q.
Proof.
  intros E [|c s] q H.
  - injection H as <-. destruct (fin_canon (el_normal E) path_default canon_default) as [_ Hn]. rewrite Hn.
    eexists. split; [reflexivity|]. apply (fin_canon (el_normal E) path_default canon_default).
  - destruct (lexically_normal_mkpath E (c :: s)) as (q' & Hq & H1 & _); [congruence|].
    rewrite H in Hq. injection Hq as <-. rewrite H1.
    destruct (lexically_normal_mkpath E (normal_text (c :: s))) as (r & Hr & H2 & _).
    { intros H0. pose proof (normal_text_normal (c :: s)) as N. rewrite H0 in N.
      destruct N as [N|(a & ns & tr & N & F & _ & M & _)]; [discriminate|].
      destruct a; [discriminate|]. destruct ns as [|n ns]; [destruct M; auto; discriminate|].
      inversion F as [|? ? [_ F1] _]; subst. cbn [app join] in N. destruct ns, n; try congruence; discriminate. }
    exists r. split; auto. rewrite H2. apply normal_text_idem.
Qed.

(** Two texts of the same kind that lead to the same place from everywhere, and agree on whether they
    end in an ordinary name, have the same normal form. *)
Theorem C17_canonical : forall E s t, s <> [] -> t <> [] ->
  starts_slash s = starts_slash t ->
  (forall place, Forall (fun n => plain n = true /\ ~ In slash n) place -> resolve place s = resolve place t) ->
  plain (last (elements s) []) = plain (last (elements t) []) ->
  exists q r, lexically_normal Posix E (mkpath s) = Ok q /\ lexically_normal Posix E (mkpath t) = Ok r /\
    native q = native r /\ path_eq q r = true.
Proof.
  intros E s t Hs Ht H1 H2 H3.
  destruct (lexically_normal_mkpath E s Hs) as (q & Hq & Nq & Sq & _).
  destruct (lexically_normal_mkpath E t Ht) as (r & Hr & Nr & Sr & _).
  pose proof (normal_text_canonical s t H1 H2 H3) as Hc.
  exists q, r. split; auto. split; auto. split; [congruence|].
  apply (path_eq_shows q r _ _ Sq Sr). congruence.
Qed.

Example C15_C16_C17_example : forall E, 
  text_of (lexically_normal Posix E (mkpath (lit "../a/./b//../c/."))) = Ok (lit "../a/c/") /\ resolve [lit "x"; lit "y"] (lit "../a/./b//../c/.") = [lit "x"; lit "a"; lit "c"].
Proof. destruct E as [[] [] []]; split; vm_compute; reflexivity. Qed.

(** * C18 *)

Theorem C18_lexically_relative : forall E s t, exists r,
  lexically_relative Posix E (mkpath s) (mkpath t) = Ok r /\ native r = relative_text s t /\
  (starts_slash s <> starts_slash t -> native r = []) /\
  (elements s = elements t -> native r = lit ".") /\
  (starts_slash s = starts_slash t ->
   Forall (fun x => plain x = true \/ x = lit ".") (snd (strip_common (elements s) (elements t))) ->
   forall place, resolve (resolve place t) (native r) = resolve place s).
Proof.
  intros E s t. destruct (lexically_relative_mkpath E s t) as (r & H & _ & Hn). exists r. split; auto. split; auto.
  rewrite Hn. split; [|split].
  - intros Hd. unfold relative_text. destruct (starts_slash s), (starts_slash t); try congruence; reflexivity.
  - intros He. unfold relative_text. rewrite <- (elements_starts s t He), Bool.eqb_reflx, He. cbn [negb].
    assert (R : strip_common (elements t) (elements t) = ([], [])).
    { generalize (elements t). induction l as [|x l IH]; auto. cbn.
      destruct (str_eqb x x) eqn:Hx; auto. assert (str_eqb x x = true) by (apply str_eqb_spec; auto). congruence. }
    rewrite R. reflexivity.
  - intros. apply relative_text_meaning; auto.
Qed.

(** proximate: the relative path, or the path itself when there is none. *)
Theorem C18_lexically_proximate : forall E s t, exists q r,
  lexically_relative Posix E (mkpath s) (mkpath t) = Ok r /\
  lexically_proximate Posix E (mkpath s) (mkpath t) = Ok q /\
  native q = (if is_nil (native r) then native (mkpath s) else native r).
Proof.
  intros E s t. destruct (lexically_relative_mkpath E s t) as (r & H & Hc & Hn).
  unfold lexically_proximate. rewrite H. cbn [bind].
  destruct (is_nil (native r)) eqn:Hr.
  - exists (mkpath s), r. split; auto. rewrite Hr. auto.
  - exists (fin Posix (el_other E) r), r. split; auto. rewrite Hr. split; auto. apply (fin_canon _ r Hc).
Qed.

Example C18_example : forall E, 
  text_of (lexically_relative Posix E (mkpath (lit "/a/d/e")) (mkpath (lit "/a/b/./c"))) = Ok (lit "../../d/e") /\ resolve [lit "z"] (lit "/a/b/./c") = [lit "a"; lit "b"; lit "c"].
Proof. destruct E as [[] [] []]; split; vm_compute; reflexivity. Qed.

(** Without the condition on the base the result leads elsewhere: a trailing slash of the base counts as a directory level. With [cs] the
    names the two have in common, one ".." too many is given, and a name of [cs] is lost on the way. *)
Theorem C18_trailing_slash_refuted : forall E s t cs xs ys, starts_slash s = starts_slash t ->
  names s = cs ++ xs -> ends_slash s = false -> names t = cs ++ ys -> ends_slash t = true ->
  forallb plain (cs ++ xs) = true -> forallb plain ys = true -> ys <> [] -> hd_error xs <> hd_error ys ->
  exists r, lexically_relative Posix E (mkpath s) (mkpath t) = Ok r /\ native r = join (repeat (lit "..") (S (length ys)) ++ xs) /\
    forall place, let start := if starts_slash t then [] else place in
      resolve (resolve place t) (native r) = removelast (start ++ cs) ++ xs /\
      (start ++ cs <> [] -> resolve (resolve place t) (native r) <> resolve place s).
Proof.
  intros E s t cs xs ys Hst Ns Es Nt Et P1 P2 Hy Hd. destruct (lexically_relative_mkpath E s t) as (r & H & _ & Hn). exists r. split; [exact H|].
  assert (Gn : Forall goodname (cs ++ xs)) by (rewrite <- Ns; apply names_all). apply Forall_app in Gn as [_ Gx].
  rewrite forallb_app in P1. apply andb_true_iff in P1 as [Pc Px].
  assert (Sc : forall c a b, strip_common (c ++ a) (c ++ b) = strip_common a b).
  { induction c as [|x c IH]; intros; [reflexivity|]. cbn [app strip_common]. rewrite (proj2 (str_eqb_spec x x) eq_refl). apply IH. }
  assert (S0 : strip_common (elements s) (elements t) = (xs, ys ++ [[]])).
  { unfold elements. rewrite Hst, Es, Et, Ns, Nt. cbn [andb]. rewrite app_nil_r. destruct (is_nil (cs ++ ys)) eqn:Z; [apply is_nil_true, app_eq_nil in Z as [_ Z]; congruence|].
    cbn [negb]. rewrite <- app_assoc, !Sc. destruct ys as [|y ys]; [congruence|]. destruct xs as [|x xs]; [reflexivity|]. cbn [app strip_common].
    destruct (str_eqb x y) eqn:X; [apply str_eqb_spec in X; subst; cbn in Hd; congruence|reflexivity]. }
  assert (U : upcount (ys ++ [[]]) = Z.of_nat (S (length ys))).
  { unfold upcount. rewrite fold_left_app. cbn [fold_left].
    assert (G : forall l z, forallb plain l = true -> fold_left (fun n x => if str_eqb x (lit "..") then (n - 1)%Z else if str_eqb x (lit ".") then n else (n + 1)%Z) l z = (z + Z.of_nat (length l))%Z).
    { induction l as [|x l IH]; intros z; [cbn; lia|]. cbn [forallb fold_left length]. intros X. apply andb_true_iff in X as [X1 X2]. unfold plain in X1.
      apply andb_true_iff in X1 as [X1 X3]. apply andb_true_iff in X1 as [_ X1]. apply negb_true_iff in X1, X3. rewrite X3, X1. rewrite IH by exact X2. lia. }
    rewrite (G ys 0%Z P2). change (str_eqb [] (lit "..")) with false. change (str_eqb [] (lit ".")) with false. cbv iota. lia. }
  assert (Gx2 : forall l, Forall goodname l -> filter (fun x => negb (is_nil x)) l = l /\ existsb is_nil l = false).
  { induction 1 as [|x l [_ X] _ [IH1 IH2]]; [split; reflexivity|]. cbn [filter existsb]. destruct x; [congruence|]. cbn [is_nil negb orb]. rewrite IH1. auto. }
  assert (N : native r = join (repeat (lit "..") (S (length ys)) ++ xs)).
  { rewrite Hn. unfold relative_text. rewrite S0, Hst, eqb_reflx. cbn [fst snd negb]. replace (is_nil (ys ++ [[]])) with false by (destruct ys; reflexivity).
    rewrite andb_false_r, U. destruct (Z.ltb_spec (Z.of_nat (S (length ys))) 0); [lia|]. rewrite Nat2Z.id. destruct (Gx2 xs Gx) as [-> ->].
    cbn [andb]. apply app_nil_r. }
  split; [exact N|]. intros place start.
  assert (Gr : Forall goodname (repeat (lit "..") (S (length ys)) ++ xs)).
  { apply Forall_app. split; [|exact Gx]. apply Forall_forall. intros x X. apply repeat_spec in X as ->. split; [reflexivity|discriminate]. }
  assert (Rt : resolve place t = (start ++ cs) ++ ys).
  { unfold resolve. fold start. rewrite Nt, walk_app, walk_plain, walk_plain by assumption. reflexivity. }
  assert (R : resolve (resolve place t) (native r) = removelast (start ++ cs) ++ xs).
  { rewrite Rt, N. unfold resolve at 1. rewrite (starts_join _ Gr), (names_join _ Gr), walk_app.
    replace (S (length ys)) with (length ys + 1) by lia. rewrite repeat_app, walk_app, walk_up_back. cbn [repeat walk fold_left]. unfold walk1 at 1. cbn -[removelast].
    apply walk_plain. exact Px. }
  split; [exact R|]. intros Hne X. rewrite R in X. unfold resolve in X. rewrite Hst in X. fold start in X. rewrite Ns, walk_app, walk_plain, walk_plain in X by assumption.
  apply app_inv_tail in X. apply (f_equal (@length _)) in X. destruct (exists_last Hne) as (a & b & Z). rewrite Z, removelast_snoc, app_length in X. cbn in X. lia.
Qed.

(** "/a/c" relative to "/a/b/" is "../../c", which from /a/b is /c. *)
Example C18_trailing_slash_example : forall E, names (lit "/a/c") = [lit "a"] ++ [lit "c"] /\ names (lit "/a/b/") = [lit "a"] ++ [lit "b"] /\ ends_slash (lit "/a/b/") = true /\
  text_of (lexically_relative Posix E (mkpath (lit "/a/c")) (mkpath (lit "/a/b/"))) = Ok (lit "../../c") /\ resolve (resolve [] (lit "/a/b/")) (lit "../../c") = [lit "c"].
Proof. destruct E as [[] [] []]; repeat split; vm_compute; reflexivity. Qed.

(** * C19, C20, C21 *)

Theorem C19_generic : forall s,
  generic_string (mkpath s) = squeezed s /\
  ~ has_double_slash (generic_string (mkpath s)) /\
  map native (elems (mkpath (generic_string (mkpath s)))) = map native (elems (mkpath s)) /\
  path_eq (mkpath (generic_string (mkpath s))) (mkpath s) = true.
Proof.
  intros. rewrite generic_mkpath. split; auto. split; [apply squeezed_no_double|].
  rewrite !elems_mkpath, elements_squeezed. split; auto.
  apply (path_eq_shows _ _ _ _ (shows_mkpath _) (shows_mkpath s)), elements_squeezed.
Qed.

Example C19_example : generic_string (mkpath (lit "//a///b//")) = lit "/a/b/".
Proof. reflexivity. Qed.

(** Reading back what was written, with more text following, restores the text and leaves the rest. *)
Theorem C20_stream_round_trip : forall s q rest,
  stream_in Posix q (stream_out (mkpath s) ++ rest) = (mkpath s, rest).
Proof. intros. rewrite stream_round_trip, assign_str_eq, mkpath_native. reflexivity. Qed.

Example C20_example : stream_out (mkpath (lit "a ""b\")) = lit """a \""b\\""" /\
  stream_in Posix path_default (stream_out (mkpath (lit "a b")) ++ lit " tail") = (mkpath (lit "a b"), lit " tail").
Proof. split; reflexivity. Qed.

Theorem C21_moves : forall s q, let p := mkpath s in
  fst (move_ctor Posix p) = p /\ empty (snd (move_ctor Posix p)) = true /\
  fst (move_assign Posix q p) = p /\ empty (snd (move_assign Posix q p)) = true /\
  swap p q = (q, p) /\
  empty (clear Posix q) = true /\ elems (clear Posix q) = [] /\
  assign_str Posix q (native p) = p /\ assign_str Posix q s = mkpath s.
Proof.
  intros s q p. unfold p. split; [apply mkpath_native|]. split; [reflexivity|].
  split; [cbn [fst move_assign]; apply path_eta|]. split; [reflexivity|].
  split; [unfold swap; rewrite !path_eta; reflexivity|]. split; [reflexivity|]. split; [reflexivity|].
  rewrite !assign_str_eq. split; auto using mkpath_native.
Qed.

Example C21_example : fst (move_ctor Posix (mkpath (lit "/a/b"))) = mkpath (lit "/a/b") /\
  map native (elems (fst (swap (mkpath (lit "x")) (mkpath (lit "/a/b"))))) = [lit "/"; lit "a"; lit "b"].
Proof. split; reflexivity. Qed.

(** * Assumptions *)

Print Assumptions C01_text_kept.
Print Assumptions C02_root_decomposition.
Print Assumptions C03_iteration.
Print Assumptions C03_steps_inverse.
Print Assumptions C04_filename_parent.
Print Assumptions C04_recompose.
Print Assumptions C05_stem_extension.
Print Assumptions C06_queries.
Print Assumptions C07_compare_lexicographic.
Print Assumptions C07_compare_order.
Print Assumptions C08_hash_consistent.
Print Assumptions C09_append_text.
Print Assumptions C09_append_elements.
Print Assumptions C09_capacity_independent.
Print Assumptions C09_division.
Print Assumptions C10_associative.
Print Assumptions C10_left_identity.
Print Assumptions C10_empty_middle_differs.
Print Assumptions C11_concat.
Print Assumptions C12_remove_filename.
Print Assumptions C12_replace_filename.
Print Assumptions C12_replace_own.
Print Assumptions C13_replace_extension_text.
Print Assumptions C13_replace_extension_reads_back.
Print Assumptions C13_replace_own.
Print Assumptions C14_text_determines_partial.
Print Assumptions C14_text_determines_refuted.
Print Assumptions C14_normal_then_remove_filename_refuted.
Print Assumptions C14_parent_then_remove_filename_refuted.
Print Assumptions C15_normal_form.
Print Assumptions C16_normal_meaning.
Print Assumptions C17_idempotent.
Print Assumptions C17_canonical.
Print Assumptions C18_lexically_relative.
Print Assumptions C18_lexically_proximate.
Print Assumptions C18_trailing_slash_refuted.
Print Assumptions C19_generic.
Print Assumptions C20_stream_round_trip.
Print Assumptions C21_moves.
