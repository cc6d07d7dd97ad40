(** Lemmas about the POSIX instance of the path model. *)
From Coq Require Import Ascii String Bool Arith NArith ZArith Lia List.
From Verif Require Import Str PathModel PathSpec StrProofs.
Import ListNotations.

Notation mkpath := (split_components Posix).

(** * The element cache *)

Definition flush (off : nat) (cur : str) : list comp :=
  match cur with [] => [] | _ => [Comp cur FILENAME off] end.

Fixpoint tok (off : nat) (cur rest : str) : list comp :=
  match rest with
  | [] => flush off cur
  | c :: r => if is_slash c then flush off cur ++ tok (off + length cur + 1) [] r
              else tok off (cur ++ [c]) r
  end.

Lemma after_last_slash_cons_app : forall cur r, noslash cur ->
  after_last_slash (cur ++ slash :: r) = after_last_slash r.
Proof.
  intros. unfold after_last_slash. rewrite pieces_app_slash, last_app_ne by apply pieces_nonnil. reflexivity.
Qed.

Lemma substr_mid : forall pre cur rest : str,
  substr (pre ++ cur ++ rest) (length pre) (length cur) = cur.
Proof. intros. unfold substr. rewrite skipn_exact by auto. apply firstn_exact. auto. Qed.

Lemma scan_tok : forall rest s pre cur acc a b p,
  s = pre ++ cur ++ rest -> noslash cur ->
  scan Posix s rest (length pre + length cur) (length pre) acc = (a, b, p) ->
  a ++ (if b =? p then [] else [filename_comp s b (p - b)]) = acc ++ tok (length pre) cur rest /\
  p = length s /\ p - b = length (after_last_slash (cur ++ rest)) /\ b <= p.
Proof.
  induction rest as [|c r IH]; intros s pre cur acc a b p Hs Hc Hscan; cbn in Hscan.
  - injection Hscan as <- <- <-.
    rewrite app_nil_r in *. subst s.
    rewrite app_length, after_last_slash_noslash by auto.
    replace (length pre + length cur - length pre) with (length cur) by lia.
    split; [|lia]. f_equal. cbn. unfold flush.
    destruct cur as [|x cur].
    + rewrite (proj2 (Nat.eqb_eq _ _)) by (cbn; lia). reflexivity.
    + rewrite (proj2 (Nat.eqb_neq _ _)) by (cbn; lia).
      unfold filename_comp. f_equal. f_equal.
      rewrite <- (app_nil_r (x :: cur)) at 1. apply substr_mid.
  - cbn [tok]. change (Ascii.eqb c slash) with (is_slash c) in Hscan.
    destruct (is_slash c) eqn:Hcs.
    + apply is_slash_true in Hcs. subst c.
      set (acc' := if length pre =? length pre + length cur then acc
                   else acc ++ [filename_comp s (length pre) (length pre + length cur - length pre)]) in *.
      assert (Hacc : acc' = acc ++ flush (length pre) cur).
      { unfold acc', flush. destruct cur as [|x cur].
        - rewrite (proj2 (Nat.eqb_eq _ _)) by (cbn; lia). rewrite app_nil_r. reflexivity.
        - rewrite (proj2 (Nat.eqb_neq _ _)) by (cbn; lia). f_equal. f_equal. unfold filename_comp. f_equal.
          replace (length pre + length (x :: cur) - length pre) with (length (x :: cur)) by lia.
          subst s. apply substr_mid. }
      specialize (IH s (pre ++ cur ++ [slash]) [] acc' a b p).
      assert (Hl : length (pre ++ cur ++ [slash]) = S (length pre + length cur))
        by (rewrite !app_length; cbn; lia).
      rewrite Hl in IH. cbn [length] in IH. rewrite Nat.add_0_r in IH.
      destruct IH as (H1 & H2 & H3 & H4).
      * subst s. rewrite <- !app_assoc. reflexivity.
      * reflexivity.
      * exact Hscan.
      * split; [|split; [auto|split; [|auto]]].
        -- rewrite H1, Hacc, <- app_assoc. f_equal. f_equal.
           replace (length pre + length cur + 1) with (S (length pre + length cur)) by lia. reflexivity.
        -- rewrite H3. cbn [app]. rewrite after_last_slash_cons_app by auto. reflexivity.
    + specialize (IH s pre (cur ++ [c]) acc a b p).
      rewrite app_length in IH. cbn [length] in IH.
      replace (length pre + (length cur + 1)) with (S (length pre + length cur)) in IH by lia.
      rewrite <- app_assoc in IH. cbn [app] in IH. apply IH; auto.
      apply noslash_app. split; auto. apply noslash_cons. split; auto.
      reflexivity.
Qed.

Lemma tok_names : forall rest off cur, noslash cur ->
  map c_str (tok off cur rest) = names (cur ++ rest).
Proof.
  induction rest as [|c r IH]; intros; cbn [tok].
  - rewrite app_nil_r. unfold flush. destruct cur.
    + reflexivity.
    + rewrite names_noslash by (auto; congruence). reflexivity.
  - destruct (is_slash c) eqn:Hc.
    + apply is_slash_true in Hc. subst c. rewrite map_app, IH by reflexivity.
      rewrite names_app_slash. f_equal. unfold flush. destruct cur; auto.
      rewrite names_noslash by (auto; congruence). reflexivity.
    + rewrite IH.
      * rewrite <- app_assoc. reflexivity.
      * apply noslash_app. split; auto. apply noslash_cons. split; auto. reflexivity.
Qed.

Lemma tok_types : forall rest off cur c, In c (tok off cur rest) -> c_type c = FILENAME.
Proof.
  assert (F : forall off cur c, In c (flush off cur) -> c_type c = FILENAME).
  { intros off cur c. unfold flush. destruct cur; cbn; intuition. subst. reflexivity. }
  induction rest as [|x r IH]; intros; cbn [tok] in H.
  - eauto.
  - destruct (is_slash x).
    + apply in_app_or in H as [H|H]; eauto.
    + eauto.
Qed.

(** The components of a non-empty text before trimming. *)
Definition rootc (s : str) : list comp :=
  if starts_slash s then [Comp [slash] ROOT_DIR 0] else [].
Definition trailc (s : str) : list comp :=
  if ends_slash s && negb (is_nil (names s)) then [Comp [] FILENAME (length s)] else [].
Definition mkcomps (s : str) : list comp := rootc s ++ tok 0 [] s ++ trailc s.

Lemma tok_names0 : forall s, map c_str (tok 0 [] s) = names s.
Proof. intros. rewrite tok_names by reflexivity. reflexivity. Qed.

Lemma tok_nil_names : forall s, tok 0 [] s = [] <-> names s = [].
Proof.
  intros. rewrite <- tok_names0. destruct (tok 0 [] s); cbn; split; congruence.
Qed.

Lemma mkcomps_elements : forall s, map c_str (mkcomps s) = elements s.
Proof.
  intros. unfold mkcomps, elements, rootc, trailc. rewrite !map_app, tok_names0.
  destruct (starts_slash s), (ends_slash s && negb (is_nil (names s))); reflexivity.
Qed.

Lemma last_map_Some : forall A (l : list A) x, last (map Some (l ++ [x])) None = Some x.
Proof. intros. rewrite map_app. apply last_snoc. Qed.

Lemma last_map_Some_app : forall A (l m : list A), m <> [] ->
  last (map Some (l ++ m)) None = last (map Some m) None.
Proof. intros. rewrite map_app. apply last_app_ne. destruct m; cbn; congruence. Qed.

Lemma last_sep : forall s, match last (map Some s) None with Some c => is_sep Posix c | None => false end = ends_slash s.
Proof.
  intros. destruct (rev s) eqn:Hs; apply (f_equal (@rev ascii)) in Hs; rewrite rev_involutive in Hs; subst.
  - reflexivity.
  - cbn [rev]. rewrite last_map_Some, ends_slash_snoc. reflexivity.
Qed.

(** The general shape of [split_tail] on POSIX: [cs] are the root components found, the rest
    starts at offset [pos]. *)
Lemma split_tail_eq : forall s pre rest cs, s = pre ++ rest ->
  let final := cs ++ tok (length pre) [] rest in
  split_tail Posix s (length pre) cs =
  trim (Path s (if is_nil (after_last_slash rest) && ends_slash s &&
                   match last (map Some final) None with
                   | Some c => ptype_eqb (c_type c) FILENAME | None => false end
                then final ++ [Comp [] FILENAME (length s)] else final) MULTI).
Proof.
  intros s pre rest cs Hs final. unfold split_tail.
  rewrite Hs at 2. rewrite skipn_exact by auto.
  destruct (scan Posix s rest (length pre) (length pre) cs) as [[a b] p] eqn:Hscan.
  destruct (scan_tok rest s pre [] cs a b p) as (H1 & H2 & H3 & H4); auto.
  { reflexivity. }
  { cbn. rewrite Nat.add_0_r. exact Hscan. }
  cbn [app] in H3. fold final in H1.
  rewrite last_sep.
  destruct (b =? p) eqn:Hbp; cbn [negb].
  - apply Nat.eqb_eq in Hbp. rewrite app_nil_r in H1. subst a.
    assert (after_last_slash rest = []) as -> by (apply length_zero_iff_nil; lia).
    cbn [is_nil andb].
    destruct (ends_slash s); cbn [andb]; auto.
    destruct (last (map Some final) None); auto.
  - apply Nat.eqb_neq in Hbp.
    rewrite H1.
    destruct (after_last_slash rest) eqn:Ha.
    + cbn in H3. lia.
    + reflexivity.
Qed.

Lemma ends_after : forall s, ends_slash s = true -> after_last_slash s = [].
Proof. intros. apply after_last_nil. auto. Qed.

Lemma last_tok_FILENAME : forall cs s, tok 0 [] s <> [] ->
  match last (map Some (cs ++ tok 0 [] s)) None with
  | Some c => ptype_eqb (c_type c) FILENAME | None => false end = true.
Proof.
  intros. rewrite last_map_Some_app by auto.
  destruct (exists_last H) as (l & x & Hx). rewrite Hx, last_map_Some.
  rewrite (tok_types s 0 [] x); auto. rewrite Hx. apply in_or_app. right. left. reflexivity.
Qed.

Lemma tok_cons_slash : forall off r, tok off [] (slash :: r) = tok (off + 1) [] r.
Proof. intros. cbn. rewrite Nat.add_0_r. reflexivity. Qed.

(** Every constructed path is the trimmed list of its components. *)
Lemma mkpath_eq : forall s, s <> [] -> mkpath s = trim (Path s (mkcomps s) MULTI).
Proof.
  intros s Hs. destruct s as [|c r]; [congruence|]. clear Hs.
  unfold split_components. change (is_sep Posix c) with (is_slash c).
  destruct (is_slash c) eqn:Hc.
  - apply is_slash_true in Hc. subst c. unfold split_rooted.
    change (forallb (fun c => Ascii.eqb c slash) (slash :: r)) with (only_slashes (slash :: r)).
    destruct (only_slashes (slash :: r)) eqn:Ho.
    + apply only_slashes_names in Ho. unfold mkcomps, trailc. rewrite Ho. cbn [is_nil negb].
      rewrite andb_false_r. rewrite (proj2 (tok_nil_names _) Ho). reflexivity.
    + change (split_tail Posix (slash :: r) 1) with (split_tail Posix (slash :: r) (length [slash])).
      rewrite (split_tail_eq (slash :: r) [slash] r) by reflexivity.
      change (length [slash]) with (0 + 1). rewrite <- tok_cons_slash.
      assert (Hn : names (slash :: r) <> []).
      { intros Hn. apply only_slashes_names in Hn. congruence. }
      assert (Ht : tok 0 [] (slash :: r) <> []).
      { intros Ht. apply tok_nil_names in Ht. congruence. }
      rewrite last_tok_FILENAME by auto. rewrite andb_true_r.
      unfold mkcomps, rootc, trailc. cbn [starts_slash]. rewrite is_slash_slash.
      destruct (names (slash :: r)) eqn:Hnn; [congruence|]. cbn [is_nil negb]. rewrite andb_true_r.
      change (root_dir_comp Posix (slash :: r) 0) with (Comp [slash] ROOT_DIR 0).
      destruct (ends_slash (slash :: r)) eqn:He.
      * apply ends_after in He. pose proof (after_last_slash_cons_app [] r eq_refl) as Hr. cbn [app] in Hr. rewrite Hr in He.
        rewrite He. reflexivity.
      * rewrite andb_false_r. rewrite app_nil_r. reflexivity.
  - rewrite (split_tail_eq (c :: r) [] (c :: r)) by reflexivity.
    cbn [length app].
    assert (Hn : names (c :: r) <> []).
    { intros Hn. apply only_slashes_names in Hn. cbn in Hn. rewrite Hc in Hn. discriminate. }
    assert (Ht : tok 0 [] (c :: r) <> []).
    { intros Ht. apply tok_nil_names in Ht. congruence. }
    pose proof (last_tok_FILENAME [] _ Ht) as Hl. cbn [app] in Hl. rewrite Hl, andb_true_r.
    unfold mkcomps, rootc, trailc. cbn [starts_slash]. rewrite Hc.
    destruct (names (c :: r)) eqn:Hnn; [congruence|]. cbn [is_nil negb]. rewrite andb_true_r.
    destruct (ends_slash (c :: r)) eqn:He.
    * apply ends_after in He. rewrite He. reflexivity.
    * rewrite andb_false_r. rewrite app_nil_r. reflexivity.
Qed.

(** fs_path.cpp:99 never reads [components_.back()] of an empty list: when the scan ends
    on a separator the list is non-empty. *)
Lemma split_tail_back_ok : forall s,
  ends_slash s = true -> rootc s ++ tok 0 [] s <> [].
Proof.
  intros s He H. apply app_eq_nil in H as [H1 H2].
  apply tok_nil_names in H2. apply only_slashes_names in H2.
  unfold rootc in H1. destruct s as [|c r]; [discriminate|]. cbn in *.
  destruct (is_slash c); discriminate.
Qed.

Lemma rootc_cases : forall s, (starts_slash s = true /\ rootc s = [Comp [slash] ROOT_DIR 0]) \/
  (starts_slash s = false /\ rootc s = []).
Proof. intros. unfold rootc. destruct (starts_slash s); auto. Qed.

(** Case analysis on the representation. *)
Inductive shape (s : str) : path -> Prop :=
| ShNil : s = [] -> shape s (Path [] [] FILENAME)
| ShRoot : s <> [] -> only_slashes s = true -> shape s (Path [slash] [] ROOT_DIR)
| ShName : s <> [] -> noslash s -> shape s (Path s [] FILENAME)
| ShMulti : s <> [] -> names s <> [] -> 2 <= length (mkcomps s) ->
            shape s (Path s (mkcomps s) MULTI).

Lemma mkcomps_length : forall s, length (mkcomps s) = length (elements s).
Proof. intros. rewrite <- mkcomps_elements, map_length. reflexivity. Qed.

Lemma names_single_no_root : forall s n, names s = [n] -> starts_slash s = false ->
  ends_slash s = false -> s = n.
Proof.
  intros s n Hn Hs He.
  destruct (first_slash_split s) as [H|(a & b & -> & Ha)].
  - destruct s; [discriminate|]. rewrite names_noslash in Hn by (auto; congruence). congruence.
  - rewrite names_app_slash in Hn.
    destruct a as [|x a]; [discriminate|].
    rewrite names_noslash in Hn by (auto; congruence). cbn in Hn. injection Hn as Hn1 Hn2.
    rewrite ends_slash_app in He by congruence.
    destruct b; [discriminate|].
    change (slash :: a0 :: b) with ([slash] ++ a0 :: b) in He.
    rewrite ends_slash_app in He by congruence.
    apply only_slashes_names in Hn2.
    exfalso. clear - He Hn2. revert a0 He Hn2. induction b as [|y b IH]; intros.
    + cbn in *. rewrite andb_true_r in Hn2. unfold ends_slash in He. cbn in He. congruence.
    + change (a0 :: y :: b) with ([a0] ++ y :: b) in He. rewrite ends_slash_app in He by congruence.
      apply (IH y); auto. cbn in *. apply andb_true_iff in Hn2. tauto.
Qed.

Lemma mkpath_shape : forall s, shape s (mkpath s).
Proof.
  intros s. destruct s as [|c r] eqn:Hs.
  - apply ShNil. reflexivity.
  - rewrite <- Hs in *. assert (Hne : s <> []) by congruence. rewrite mkpath_eq by auto.
    destruct (names s) as [|n ns] eqn:Hn.
    + assert (Ho : only_slashes s = true) by (apply only_slashes_names; auto).
      assert (Ht : tok 0 [] s = []) by (apply tok_nil_names; auto).
      unfold mkcomps, trailc. rewrite Hn, Ht. cbn [is_nil negb]. rewrite andb_false_r.
      unfold rootc. assert (starts_slash s = true) as ->.
      { subst s. cbn in *. apply andb_true_iff in Ho. tauto. }
      apply ShRoot; auto.
    + destruct (le_lt_dec 2 (length (mkcomps s))) as [Hl|Hl].
      * replace (trim (Path s (mkcomps s) MULTI)) with (Path s (mkcomps s) MULTI).
        -- apply ShMulti; auto. congruence.
        -- unfold trim. cbn. destruct (mkcomps s) as [|x [|y l]]; cbn in Hl; try lia; auto.
      * assert (He : elements s = [n] /\ starts_slash s = false /\ ends_slash s = false /\ ns = []).
        { rewrite mkcomps_length in Hl. unfold elements in *. rewrite Hn in *. cbn [is_nil negb] in *.
          rewrite andb_true_r in *. rewrite !app_length in Hl.
          destruct (starts_slash s), (ends_slash s), ns; cbn in *; try lia; auto. }
        destruct He as (He & H1 & H2 & H3). subst ns.
        assert (s = n) by (apply names_single_no_root; auto). subst n.
        assert (Hno : noslash s).
        { pose proof (names_all s) as HF. rewrite Hn in HF. inversion HF. tauto. }
        assert (Hmk : mkcomps s = [Comp s FILENAME 0]).
        { unfold mkcomps, rootc, trailc. rewrite H1, H2. cbn [andb app]. rewrite app_nil_r.
          clear - Hno Hne. pose proof (tok_names0 s) as Ht. rewrite names_noslash in Ht by auto.
          assert (forall rest off cur, noslash (cur ++ rest) -> cur ++ rest <> [] ->
             tok off cur rest = [Comp (cur ++ rest) FILENAME off]) as Hg.
          { induction rest as [|x rest IH]; intros; cbn [tok].
            - rewrite app_nil_r in *. unfold flush. destruct cur; congruence.
            - assert (is_slash x = false) as ->.
              { apply noslash_app in H as [_ H]. apply noslash_cons in H. tauto. }
              rewrite IH; rewrite <- app_assoc; auto. }
          apply (Hg s 0 []); auto. }
        rewrite Hmk. unfold trim. cbn. apply ShName; auto.
Qed.

Lemma native_mkpath : forall s, native (mkpath s) = reported_text s.
Proof.
  intros. unfold reported_text. destruct (mkpath_shape s) as [->|H1 H2|H1 H2|H1 H2 H3]; cbn.
  - reflexivity.
  - destruct s; [congruence|]. cbn [is_nil negb]. rewrite H2. reflexivity.
  - destruct s; [congruence|]. cbn [is_nil negb].
    apply noslash_cons in H2 as [H2 _]. cbn. rewrite H2. reflexivity.
  - destruct s; [congruence|]. cbn [is_nil negb]. destruct (only_slashes (a :: s)) eqn:Ho; auto.
    apply only_slashes_names in Ho. congruence.
Qed.

Lemma elements_noslash : forall s, s <> [] -> noslash s -> elements s = [s].
Proof.
  intros. unfold elements. rewrite names_noslash, noslash_ends by auto.
  destruct s; [congruence|]. apply noslash_cons in H0 as [H0 _]. cbn. rewrite H0. reflexivity.
Qed.

Lemma elements_only : forall s, s <> [] -> only_slashes s = true -> elements s = [[slash]].
Proof.
  intros. unfold elements. rewrite (proj1 (only_slashes_names s)) by auto.
  cbn [is_nil negb]. rewrite andb_false_r. destruct s; [congruence|]. cbn in *.
  apply andb_true_iff in H0 as [H0 _]. rewrite H0. reflexivity.
Qed.

Lemma elems_mkpath : forall s, map native (elems (mkpath s)) = elements s.
Proof.
  intros. destruct (mkpath_shape s) as [->|H1 H2|H1 H2|H1 H2 H3].
  - reflexivity.
  - rewrite elements_only; auto.
  - rewrite elements_noslash by auto. destruct s; [congruence|]. reflexivity.
  - unfold elems. cbn [ptyp comps]. rewrite map_map. apply mkcomps_elements.
Qed.
