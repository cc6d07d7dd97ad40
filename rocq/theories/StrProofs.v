(** Lemmas on strings and on the specification vocabulary. *)
From Coq Require Import Ascii String Bool Arith NArith ZArith Lia List.
From Verif Require Import Str PathSpec.
Import ListNotations.

Lemma str_eqb_spec : forall a b, str_eqb a b = true <-> a = b.
Proof. intros. unfold str_eqb. destruct (str_eq_dec a b); split; congruence. Qed.

Lemma is_nil_true : forall A (l : list A), is_nil l = true <-> l = [].
Proof. destruct l; cbn; split; congruence. Qed.

Lemma is_slash_true : forall c, is_slash c = true <-> c = slash.
Proof. intros. unfold is_slash. apply Ascii.eqb_eq. Qed.

Lemma is_slash_slash : is_slash slash = true.
Proof. reflexivity. Qed.

Definition noslash (s : str) : Prop := forallb (fun c => negb (is_slash c)) s = true.

Lemma noslash_nil : noslash [].
Proof. reflexivity. Qed.

Lemma noslash_app : forall a b, noslash (a ++ b) <-> noslash a /\ noslash b.
Proof. intros. unfold noslash. rewrite forallb_app, andb_true_iff. tauto. Qed.

Lemma noslash_cons : forall c s, noslash (c :: s) <-> is_slash c = false /\ noslash s.
Proof. intros. unfold noslash. cbn. rewrite andb_true_iff, negb_true_iff. tauto. Qed.

Lemma noslash_In : forall s, noslash s <-> ~ In slash s.
Proof.
  induction s as [|c s IH]; cbn.
  - split; auto; reflexivity.
  - rewrite noslash_cons, IH. split.
    + intros [H1 H2] [H|H]; auto. subst. discriminate.
    + intros H. split; [|tauto]. destruct (is_slash c) eqn:Hc; auto.
      apply is_slash_true in Hc. subst. exfalso; apply H; auto.
Qed.

Lemma pieces_nonnil : forall s, pieces s <> [].
Proof. induction s; cbn; [congruence|]. destruct (is_slash a); [congruence|]. destruct (pieces s); congruence. Qed.

Lemma pieces_noslash : forall s, noslash s -> pieces s = [s].
Proof.
  induction s; cbn; intros H; auto.
  apply noslash_cons in H as [H1 H2]. rewrite H1, IHs; auto.
Qed.

Lemma pieces_app_slash : forall a b, pieces (a ++ slash :: b) = pieces a ++ pieces b.
Proof.
  induction a; intros; cbn [app pieces].
  - rewrite is_slash_slash. reflexivity.
  - destruct (is_slash a) eqn:Ha.
    + rewrite IHa. reflexivity.
    + rewrite IHa. destruct (pieces a0) eqn:Hp.
      * exfalso. eapply pieces_nonnil; eauto.
      * reflexivity.
Qed.

Lemma pieces_cons_slash : forall b, pieces (slash :: b) = [] :: pieces b.
Proof. intros. exact (pieces_app_slash [] b). Qed.

Lemma names_app_slash : forall a b, names (a ++ slash :: b) = names a ++ names b.
Proof. intros. unfold names. rewrite pieces_app_slash. apply filter_app. Qed.

Lemma names_nil : names [] = [].
Proof. reflexivity. Qed.

Lemma names_cons_slash : forall b, names (slash :: b) = names b.
Proof. intros. exact (names_app_slash [] b). Qed.

Lemma names_noslash : forall s, noslash s -> s <> [] -> names s = [s].
Proof. intros. unfold names. rewrite pieces_noslash; auto. destruct s; [congruence|reflexivity]. Qed.

Lemma pieces_all_noslash : forall s, Forall noslash (pieces s).
Proof.
  induction s; cbn.
  - repeat constructor.
  - destruct (is_slash a) eqn:Ha.
    + constructor; auto. reflexivity.
    + destruct (pieces s) eqn:Hp.
      * exfalso. eapply pieces_nonnil; eauto.
      * inversion IHs; subst; constructor; auto. apply noslash_cons; auto.
Qed.

Lemma names_all : forall s, Forall (fun n => noslash n /\ n <> []) (names s).
Proof.
  intros. unfold names. apply Forall_forall. intros x Hx.
  apply filter_In in Hx as [H1 H2]. split.
  - pose proof (pieces_all_noslash s) as HF. rewrite Forall_forall in HF. auto.
  - destruct x; cbn in H2; congruence.
Qed.

(** Every text is a slash-free text or has a last slash. *)
Lemma last_slash_split : forall s, noslash s \/ exists a b, s = a ++ slash :: b /\ noslash b.
Proof.
  induction s as [|c s IH].
  - left. reflexivity.
  - destruct IH as [H|(a & b & Hs & Hb)].
    + destruct (is_slash c) eqn:Hc.
      * right. exists [], s. apply is_slash_true in Hc. subst. auto.
      * left. apply noslash_cons; auto.
    + right. exists (c :: a), b. subst. auto.
Qed.

Lemma first_slash_split : forall s, noslash s \/ exists a b, s = a ++ slash :: b /\ noslash a.
Proof.
  induction s as [|c s IH].
  - left. reflexivity.
  - destruct (is_slash c) eqn:Hc.
    + right. exists [], s. apply is_slash_true in Hc. subst. split; auto. reflexivity.
    + destruct IH as [H|(a & b & Hs & Hb)].
      * left. apply noslash_cons; auto.
      * right. exists (c :: a), b. subst. split; auto. apply noslash_cons; auto.
Qed.

Lemma last_app_ne : forall A (l m : list A) d, m <> [] -> last (l ++ m) d = last m d.
Proof.
  induction l; intros; cbn; auto.
  destruct (l ++ m) eqn:Hlm.
  - destruct l; cbn in Hlm; [congruence|discriminate].
  - rewrite <- Hlm. auto.
Qed.

Lemma last_snoc : forall A (l : list A) x d, last (l ++ [x]) d = x.
Proof. intros. rewrite last_app_ne by congruence. reflexivity. Qed.

Lemma after_last_slash_noslash : forall s, noslash s -> after_last_slash s = s.
Proof. intros. unfold after_last_slash. rewrite pieces_noslash; auto. Qed.

Lemma after_last_slash_app : forall a b, noslash b -> after_last_slash (a ++ slash :: b) = b.
Proof.
  intros. unfold after_last_slash. rewrite pieces_app_slash, last_app_ne by apply pieces_nonnil.
  rewrite pieces_noslash; auto.
Qed.

Lemma upto_last_slash_noslash : forall s, noslash s -> upto_last_slash s = [].
Proof.
  intros. unfold upto_last_slash. rewrite after_last_slash_noslash by auto.
  rewrite Nat.sub_diag. reflexivity.
Qed.

Lemma firstn_exact : forall A (a b : list A) n, n = length a -> firstn n (a ++ b) = a.
Proof. intros. subst. rewrite firstn_app, Nat.sub_diag, firstn_all. cbn. apply app_nil_r. Qed.

Lemma skipn_exact : forall A (a b : list A) n, n = length a -> skipn n (a ++ b) = b.
Proof. intros. subst. rewrite skipn_app, Nat.sub_diag, skipn_all. reflexivity. Qed.

Lemma upto_last_slash_app : forall a b, noslash b -> upto_last_slash (a ++ slash :: b) = a ++ [slash].
Proof.
  intros. unfold upto_last_slash. rewrite after_last_slash_app by auto.
  change (slash :: b) with ([slash] ++ b). rewrite app_assoc.
  apply firstn_exact. rewrite !app_length. lia.
Qed.

Lemma upto_after : forall s, upto_last_slash s ++ after_last_slash s = s.
Proof.
  intros. destruct (last_slash_split s) as [H|(a & b & -> & H)].
  - rewrite upto_last_slash_noslash, after_last_slash_noslash; auto.
  - rewrite upto_last_slash_app, after_last_slash_app by auto. rewrite <- app_assoc. reflexivity.
Qed.

Lemma ends_slash_app : forall a b, b <> [] -> ends_slash (a ++ b) = ends_slash b.
Proof.
  intros. unfold ends_slash. rewrite rev_app_distr.
  destruct (rev b) eqn:Hb; auto.
  apply (f_equal (@rev ascii)) in Hb. rewrite rev_involutive in Hb. cbn in Hb. congruence.
Qed.

Lemma ends_slash_snoc : forall a c, ends_slash (a ++ [c]) = is_slash c.
Proof. intros. rewrite ends_slash_app by congruence. reflexivity. Qed.

Lemma noslash_ends : forall s, noslash s -> ends_slash s = false.
Proof.
  intros. destruct (rev s) eqn:Hs; unfold ends_slash; rewrite Hs; auto.
  cbn. apply noslash_In in H. destruct (is_slash a) eqn:Ha; auto.
  apply is_slash_true in Ha. subst. exfalso. apply H. apply in_rev. rewrite Hs. left. reflexivity.
Qed.

Lemma ends_slash_spec : forall s, ends_slash s = true <-> exists a, s = a ++ [slash].
Proof.
  intros. split.
  - intros H. destruct (rev s) eqn:Hs; unfold ends_slash in H; rewrite Hs in H; [discriminate|].
    cbn in H. apply is_slash_true in H. subst.
    exists (rev l). apply (f_equal (@rev ascii)) in Hs. rewrite rev_involutive in Hs. exact Hs.
  - intros (a & ->). rewrite ends_slash_snoc. reflexivity.
Qed.

Lemma after_last_nil : forall s, after_last_slash s = [] <-> s = [] \/ ends_slash s = true.
Proof.
  intros. destruct (last_slash_split s) as [H|(a & b & -> & H)].
  - rewrite after_last_slash_noslash by auto. rewrite noslash_ends by auto. intuition congruence.
  - rewrite after_last_slash_app by auto. rewrite ends_slash_app by congruence.
    split.
    + intros ->. right. reflexivity.
    + intros [Hn|He].
      * destruct a; discriminate.
      * destruct b; auto. change (slash :: a0 :: b) with ([slash] ++ a0 :: b) in He.
        rewrite ends_slash_app in He by congruence. rewrite noslash_ends in He; congruence.
Qed.

Lemma only_slashes_names : forall s, only_slashes s = true <-> names s = [].
Proof.
  induction s as [|c s IH].
  - cbn. tauto.
  - change (only_slashes (c :: s)) with (is_slash c && only_slashes s).
    destruct (is_slash c) eqn:Hc; cbn [andb].
    + apply is_slash_true in Hc. subst. rewrite names_cons_slash. exact IH.
    + split; [discriminate|]. unfold names. cbn. rewrite Hc.
      destruct (pieces s) eqn:Hp; cbn; discriminate.
Qed.

Lemma drop_slashes_names : forall s, names (drop_slashes s) = names s.
Proof.
  induction s as [|c s IH]; [reflexivity|]. cbn [drop_slashes].
  destruct (is_slash c) eqn:Hc; auto.
  apply is_slash_true in Hc. subst. rewrite names_cons_slash. exact IH.
Qed.

Lemma drop_slashes_starts : forall s, starts_slash (drop_slashes s) = false.
Proof. induction s as [|c s IH]; cbn; auto. destruct (is_slash c) eqn:Hc; cbn; auto. Qed.

Lemma drop_slashes_noop : forall s, starts_slash s = false -> drop_slashes s = s.
Proof. destruct s; cbn; auto. intros ->. reflexivity. Qed.

Lemma drop_slashes_split : forall s, exists n, s = repeat slash n ++ drop_slashes s.
Proof.
  induction s as [|c s IH]; cbn.
  - exists 0. reflexivity.
  - destruct (is_slash c) eqn:Hc.
    + destruct IH as [n Hn]. exists (S n). cbn. apply is_slash_true in Hc. subst c. f_equal. exact Hn.
    + exists 0. reflexivity.
Qed.

Lemma drop_slashes_nil : forall s, drop_slashes s = [] <-> names s = [].
Proof.
  intros. rewrite <- only_slashes_names. induction s as [|c s IH]; cbn.
  - tauto.
  - destruct (is_slash c); cbn; auto. split; discriminate.
Qed.

Lemma drop_slashes_ends : forall s, drop_slashes s <> [] -> ends_slash (drop_slashes s) = ends_slash s.
Proof.
  intros. destruct (drop_slashes_split s) as [n Hn]. rewrite Hn at 2.
  rewrite ends_slash_app; auto.
Qed.

(** str_compare is a total order whose equality is equality. *)
Lemma char_compare_eq : forall a b, char_compare a b = Eq <-> a = b.
Proof.
  intros. unfold char_compare. rewrite N.compare_eq_iff. split; intros; [|congruence].
  rewrite <- (ascii_N_embedding a), <- (ascii_N_embedding b). congruence.
Qed.

Lemma char_compare_antisym : forall a b, char_compare b a = CompOpp (char_compare a b).
Proof. intros. unfold char_compare. apply N.compare_antisym. Qed.

Lemma char_compare_refl : forall a, char_compare a a = Eq.
Proof. intros. apply char_compare_eq. reflexivity. Qed.

Lemma str_compare_eq : forall a b, str_compare a b = Eq <-> a = b.
Proof.
  induction a as [|x a IH]; destruct b as [|y b]; cbn; try (split; congruence).
  destruct (char_compare x y) eqn:Hc.
  - apply char_compare_eq in Hc. subst. rewrite IH. split; congruence.
  - split; [discriminate|]. intros H. injection H as -> ->. rewrite char_compare_refl in Hc. discriminate.
  - split; [discriminate|]. intros H. injection H as -> ->. rewrite char_compare_refl in Hc. discriminate.
Qed.

Lemma str_compare_refl : forall a, str_compare a a = Eq.
Proof. intros. apply str_compare_eq. reflexivity. Qed.

Lemma str_compare_antisym : forall a b, str_compare b a = CompOpp (str_compare a b).
Proof.
  induction a as [|x a IH]; destruct b as [|y b]; cbn; auto.
  rewrite (char_compare_antisym x y). destruct (char_compare x y) eqn:Hc; cbn; auto.
Qed.

Lemma char_compare_lt_trans : forall a b c, char_compare a b = Lt -> char_compare b c = Lt -> char_compare a c = Lt.
Proof. unfold char_compare. intros a b c. rewrite !N.compare_lt_iff. apply N.lt_trans. Qed.

Lemma str_compare_lt_trans : forall a b c, str_compare a b = Lt -> str_compare b c = Lt -> str_compare a c = Lt.
Proof.
  induction a as [|x a IH]; destruct b as [|y b]; destruct c as [|z c]; cbn; try congruence.
  destruct (char_compare x y) eqn:H1; try discriminate;
    destruct (char_compare y z) eqn:H2; try discriminate; intros.
  - apply char_compare_eq in H1, H2. subst. rewrite char_compare_refl. eauto.
  - apply char_compare_eq in H1. subst. rewrite H2. auto.
  - apply char_compare_eq in H2. subst. rewrite H1. auto.
  - erewrite char_compare_lt_trans; eauto.
Qed.

Lemma lex_compare_eq : forall a b, lex_compare a b = Eq <-> a = b.
Proof.
  induction a as [|x a IH]; destruct b as [|y b]; cbn; try (split; congruence).
  destruct (str_compare x y) eqn:Hc.
  - apply str_compare_eq in Hc. subst. rewrite IH. split; congruence.
  - split; [discriminate|]. intros H. injection H as -> ->. rewrite str_compare_refl in Hc. discriminate.
  - split; [discriminate|]. intros H. injection H as -> ->. rewrite str_compare_refl in Hc. discriminate.
Qed.

Lemma lex_compare_antisym : forall a b, lex_compare b a = CompOpp (lex_compare a b).
Proof.
  induction a as [|x a IH]; destruct b as [|y b]; cbn; auto.
  rewrite (str_compare_antisym x y). destruct (str_compare x y) eqn:Hc; cbn; auto.
Qed.

Lemma lex_compare_lt_trans : forall a b c, lex_compare a b = Lt -> lex_compare b c = Lt -> lex_compare a c = Lt.
Proof.
  induction a as [|x a IH]; destruct b as [|y b]; destruct c as [|z c]; cbn; try congruence.
  destruct (str_compare x y) eqn:H1; try discriminate;
    destruct (str_compare y z) eqn:H2; try discriminate; intros.
  - apply str_compare_eq in H1, H2. subst. rewrite str_compare_refl. eauto.
  - apply str_compare_eq in H1. subst. rewrite H2. auto.
  - apply str_compare_eq in H2. subst. rewrite H1. auto.
  - erewrite str_compare_lt_trans; eauto.
Qed.

(** rfind *)
Lemma rfind_None : forall c s, rfind c s = None <-> ~ In c s.
Proof.
  induction s; cbn.
  - tauto.
  - destruct (rfind c s) eqn:Hr.
    + split; [discriminate|]. intros H. exfalso.
      assert (~ ~ In c s) by (intros H1; apply IHs in H1; discriminate). tauto.
    + destruct (Ascii.eqb a c) eqn:He.
      * apply Ascii.eqb_eq in He. subst. split; [discriminate|]. tauto.
      * apply Ascii.eqb_neq in He. assert (~ In c s) by (apply IHs; auto). tauto.
Qed.

Lemma rfind_Some : forall c s n, rfind c s = Some n ->
  exists a b, s = a ++ c :: b /\ length a = n /\ ~ In c b.
Proof.
  induction s; cbn; intros; [discriminate|].
  destruct (rfind c s) eqn:Hr.
  - injection H as <-. destruct (IHs _ eq_refl) as (x & y & Hs & Hl & Hn).
    exists (a :: x), y. subst. auto.
  - destruct (Ascii.eqb a c) eqn:He; [|discriminate]. injection H as <-.
    apply Ascii.eqb_eq in He. subst. exists [], s. repeat split; auto. apply rfind_None. auto.
Qed.
