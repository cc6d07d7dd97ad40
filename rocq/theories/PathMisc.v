(** Iterators, generic format, streams, lexically_relative. *)
From Coq Require Import Ascii String Bool Arith NArith ZArith Lia List.
From Verif Require Import Str PathModel PathSpec StrProofs PathProofs PathOps PathOps2 PathNormal PathNormal2.
Import ListNotations.

(** * Iterators *)

(** A forward traversal [for (it = i; it != p.end(); ++it) visit it]. *)
Inductive forward (p : path) : iter -> list path -> Prop :=
| F_end : forall i, it_equals p i (it_end p) = true -> forward p i []
| F_step : forall i x j l, it_equals p i (it_end p) = false ->
    it_deref p i = Ok x -> it_inc p i = Ok j -> forward p j l -> forward p i (x :: l).

(** A backward traversal [it = i; while (it != p.begin()) visit --it]. *)
Inductive backward (p : path) : iter -> list path -> Prop :=
| B_begin : forall i, it_equals p i (it_begin p) = true -> backward p i []
| B_step : forall i x j l, it_equals p i (it_begin p) = false ->
    it_dec p i = Ok j -> it_deref p j = Ok x -> backward p j l -> backward p i (x :: l).

Lemma forward_elems : forall p, forward p (it_begin p) (elems p).
Proof.
  intros. destruct (ptyp p) eqn:Ht;
    try (unfold it_begin, elems; rewrite Ht; destruct (empty p) eqn:He;
      [apply F_end; unfold it_end; rewrite Ht; reflexivity
      |apply F_step with (j := ItSingle true);
        [unfold it_end; rewrite Ht; reflexivity
        |unfold it_deref; rewrite Ht; reflexivity
        |unfold it_inc; rewrite Ht; reflexivity
        |apply F_end; unfold it_end; rewrite Ht; reflexivity]]).
  unfold it_begin, elems. rewrite Ht.
  assert (H : forall l pre, comps p = pre ++ l -> forward p (ItMulti (length pre)) (map comp_path l)).
  { induction l as [|c l IH]; intros pre Hp; cbn [map].
    - apply F_end. unfold it_end. rewrite Ht, Hp, app_nil_r. cbn. apply Nat.eqb_refl.
    - assert (Hne : length pre =? length (comps p) = false).
      { apply Nat.eqb_neq. rewrite Hp, app_length. cbn. lia. }
      apply F_step with (j := ItMulti (S (length pre))).
      + unfold it_end. rewrite Ht. exact Hne.
      + unfold it_deref. rewrite Ht, Hp, nth_error_mid. reflexivity.
      + unfold it_inc. rewrite Ht, Hne. reflexivity.
      + specialize (IH (pre ++ [c])). rewrite app_length in IH. cbn in IH. rewrite Nat.add_1_r in IH.
        apply IH. rewrite Hp, <- app_assoc. reflexivity. }
  apply (H (comps p) []). reflexivity.
Qed.

Lemma backward_elems : forall p, ptyp p = MULTI \/ empty p = false ->
  backward p (it_end p) (rev (elems p)).
Proof.
  intros p Hp. destruct (ptyp p) eqn:Ht;
    try (destruct Hp as [Hp|He]; [discriminate|];
      unfold it_end, elems; rewrite Ht, He;
      apply B_step with (j := ItSingle false);
        [unfold it_begin; rewrite Ht, He; reflexivity
        |unfold it_dec; rewrite Ht; reflexivity
        |unfold it_deref; rewrite Ht; reflexivity
        |apply B_begin; unfold it_begin; rewrite Ht, He; reflexivity]).
  unfold it_end, elems. rewrite Ht, <- map_rev. clear Hp.
  assert (H : forall l suf, comps p = rev l ++ suf -> backward p (ItMulti (length l)) (map comp_path l)).
  { induction l as [|c l IH]; intros suf Hs; cbn [map length].
    - apply B_begin. unfold it_begin. rewrite Ht. reflexivity.
    - apply B_step with (j := ItMulti (length l)).
      + unfold it_begin. rewrite Ht. reflexivity.
      + unfold it_dec. rewrite Ht. reflexivity.
      + unfold it_deref. rewrite Ht. cbn [rev] in Hs. rewrite <- app_assoc in Hs. cbn [app] in Hs.
        rewrite Hs, <- rev_length, nth_error_mid. reflexivity.
      + apply (IH (c :: suf)). cbn [rev] in Hs. rewrite <- app_assoc in Hs. exact Hs. }
  specialize (H (rev (comps p)) []). rewrite rev_length, rev_involutive, app_nil_r in H. apply H. reflexivity.
Qed.

Lemma backward_empty : forall p, ptyp p <> MULTI -> empty p = true -> backward p (it_end p) [].
Proof.
  intros. apply B_begin. unfold it_begin, it_end. destruct (ptyp p); try congruence; rewrite H0; reflexivity.
Qed.

(** Traversals are deterministic. *)
Lemma forward_fun : forall p i l, forward p i l -> forall m, forward p i m -> l = m.
Proof.
  induction 1; intros m Hm; inversion Hm; subst; try congruence.
  assert (x0 = x) by congruence. assert (j0 = j) by congruence. subst. f_equal. auto.
Qed.

(** * Generic format *)

Lemma generic_loop_names : forall ns rest s b, Forall goodname ns -> ns <> [] ->
  generic_loop (map mkpath ns ++ rest) s b =
  generic_loop rest (s ++ (if b then [slash] else []) ++ join ns) true.
Proof.
  induction ns as [|n ns IH]; intros rest s b HF Hne; [congruence|].
  inversion HF as [|? ? [Hn1 Hn2] HF']; subst. cbn [map app generic_loop].
  rewrite (mkpath_name n) by auto. cbn [ptyp pathname ptype_eqb].
  destruct ns as [|m ns].
  - cbn [map app join]. f_equal. destruct b; rewrite <- ?app_assoc; reflexivity.
  - rewrite IH by (auto; congruence). rewrite (join_cons n) by congruence.
    f_equal. destruct b; rewrite <- ?app_assoc; cbn [app]; rewrite <- ?app_assoc; reflexivity.
Qed.

Lemma generic_mkpath : forall s, generic_string (mkpath s) = squeezed s.
Proof.
  intros. unfold generic_string. rewrite elems_paths. unfold elements, squeezed. rewrite !map_app.
  set (tl := map mkpath (if ends_slash s && negb (is_nil (names s)) then [[]] else [])).
  assert (H : forall p, generic_loop (map mkpath (names s) ++ tl) p false =
     p ++ join (names s) ++ (if ends_slash s && negb (is_nil (names s)) then [slash] else [])).
  { intros p. destruct (names s) as [|n ns] eqn:Hn.
    - unfold tl. cbn [is_nil negb]. rewrite andb_false_r. cbn. rewrite app_nil_r. reflexivity.
    - rewrite <- Hn. rewrite generic_loop_names by (try apply names_all; congruence).
      unfold tl. rewrite Hn. cbn [is_nil negb]. rewrite andb_true_r.
      destruct (ends_slash s); cbn [map generic_loop].
      + cbn. rewrite app_nil_r, app_assoc. reflexivity.
      + cbn. rewrite app_nil_r. reflexivity. }
  destruct (starts_slash s); cbn [map app generic_loop].
  - change (ptyp (mkpath [slash])) with ROOT_DIR. cbn iota. rewrite H. reflexivity.
  - rewrite H. reflexivity.
Qed.

Lemma elements_squeezed : forall s, elements (squeezed s) = elements s.
Proof.
  intros. unfold squeezed. unfold elements at 2.
  pose proof (names_all s) as HF.
  destruct (ends_slash s && negb (is_nil (names s))) eqn:He.
  - assert (Hn : names s <> []) by (destruct (names s); [rewrite andb_false_r in He|]; discriminate).
    assert (Hj := join_ne _ HF Hn).
    unfold elements.
    assert (Hns : names ((if starts_slash s then [slash] else []) ++ join (names s) ++ [slash]) = names s).
    { rewrite app_assoc, names_app_sl. destruct (starts_slash s); cbn [app]; rewrite ?names_cons_slash;
      apply names_join; auto. }
    rewrite Hns.
    assert (ends_slash ((if starts_slash s then [slash] else []) ++ join (names s) ++ [slash]) = true) as ->.
    { rewrite app_assoc, ends_slash_snoc. reflexivity. }
    apply andb_true_iff in He as [_ He]. rewrite He. cbn [andb].
    f_equal. destruct (starts_slash s); [reflexivity|]. cbn [app].
    pose proof (starts_join _ HF) as Hs. destruct (join (names s)); [congruence|]. cbn in *. rewrite Hs. reflexivity.
  - rewrite app_nil_r. rewrite elements_root_join by auto. rewrite app_nil_r. reflexivity.
Qed.

Lemma no_double_noslash : forall s, noslash s -> ~ has_double_slash s.
Proof.
  intros s H (a & b & ->). apply noslash_app in H as [_ H]. apply noslash_cons in H as [H _]. discriminate.
Qed.

Lemma double_app : forall n r, noslash n -> n <> [] ->
  has_double_slash (n ++ r) -> has_double_slash r.
Proof.
  induction n as [|c n IH]; intros r Hn Hne (a & b & H); [congruence|].
  apply noslash_cons in Hn as [Hc Hn].
  destruct a as [|d a]; cbn in H; injection H as H1 H2.
  - subst c. discriminate.
  - destruct n as [|e n].
    + cbn in H2. exists a, b. auto.
    + apply IH; auto; [congruence|]. exists a, b. auto.
Qed.

Lemma squeezed_no_double : forall s, ~ has_double_slash (squeezed s).
Proof.
  intros s. unfold squeezed. pose proof (names_all s) as HF. revert HF. generalize (names s) as ns.
  generalize (ends_slash s) as e.
  assert (J : forall ns e, Forall goodname ns ->
     ~ has_double_slash (join ns ++ (if e && negb (is_nil ns) then [slash] else []))).
  { induction ns as [|n ns IH]; intros e HF.
    - cbn. rewrite andb_false_r. apply no_double_noslash. reflexivity.
    - inversion HF as [|? ? [H1 H2] HF']; subst. cbn [is_nil negb]. rewrite andb_true_r.
      destruct ns as [|m ns].
      + cbn [join]. intros Hd. apply double_app in Hd; auto.
        destruct e; [|apply no_double_noslash in Hd; auto; reflexivity].
        destruct Hd as (a & b & Hd). destruct a as [|? [|? ?]]; discriminate.
      + rewrite join_cons by congruence. rewrite <- app_assoc. intros Hd. apply double_app in Hd; auto.
        destruct Hd as (a & b & Hd). destruct a as [|d a]; cbn [app] in Hd; [injection Hd as Hd2|injection Hd as Hd1 Hd2].
        * change (match ns with [] => m | _ :: _ => m ++ slash :: join ns end) with (join (m :: ns)) in Hd2.
          pose proof (starts_join _ HF') as Hs. assert (Hj : join (m :: ns) <> []) by (apply join_ne; auto; congruence).
          destruct (join (m :: ns)) as [|x j]; [congruence|]. cbn [app] in Hd2. injection Hd2 as -> _. discriminate.
        * apply (IH e HF'). exists a, b. cbn [is_nil negb]. rewrite andb_true_r. auto. }
  intros e ns HF Hd. destruct (starts_slash s); cbn [app] in Hd; [|eapply J; eauto].
  destruct Hd as (a & b & Hd). destruct a as [|d a]; cbn [app] in Hd; [injection Hd as Hd2|injection Hd as Hd1 Hd2].
  - pose proof (starts_join _ HF) as Hs. destruct ns as [|n ns].
    + cbn in Hd2. rewrite andb_false_r in Hd2. discriminate.
    + try change (match ns with [] => n | _ :: _ => n ++ slash :: join ns end) with (join (n :: ns)) in Hd2.
      assert (Hj : join (n :: ns) <> []) by (apply join_ne; auto; congruence).
      destruct (join (n :: ns)) as [|x j]; [congruence|]. cbn [app] in Hd2. injection Hd2 as -> _. discriminate.
  - apply (J ns e HF). exists a, b. auto.
Qed.

(** * Streams *)

Lemma unquote_body : forall s rest acc, unquote (quoted_body s ++ quote :: rest) acc = (acc ++ s, rest, true).
Proof.
  induction s as [|c s IH]; intros; cbn [quoted_body app].
  - cbn. rewrite app_nil_r. reflexivity.
  - destruct (Ascii.eqb c quote || Ascii.eqb c backslash) eqn:Hc; cbn [app unquote].
    + change (Ascii.eqb backslash backslash) with true. cbn iota. rewrite IH, <- app_assoc. reflexivity.
    + apply orb_false_iff in Hc as [-> ->]. rewrite IH, <- app_assoc. reflexivity.
Qed.

Lemma stream_round_trip : forall w p q rest,
  stream_in w q (stream_out p ++ rest) = (assign_str w q (native p), rest).
Proof.
  intros. unfold stream_in, stream_out. cbn [app].
  change (skip_ws (quote :: (quoted_body (pathname p) ++ [quote]) ++ rest)) with
    (quote :: (quoted_body (pathname p) ++ [quote]) ++ rest).
  change (Ascii.eqb quote quote) with true. cbn iota.
  rewrite <- app_assoc. cbn [app]. rewrite unquote_body. reflexivity.
Qed.

(** * lexically_relative *)

Lemma is_element : forall s x, In x (elements s) -> x = [slash] \/ x = [] \/ goodname x.
Proof.
  intros s x H. unfold elements in H. pose proof (names_all s) as HF. rewrite Forall_forall in HF.
  apply in_app_or in H as [H|H]; [|apply in_app_or in H as [H|H]].
  - destruct (starts_slash s); [destruct H as [<-|[]]|destruct H]; auto.
  - right. right. apply HF. auto.
  - destruct (_ && _); [destruct H as [<-|[]]|destruct H]; auto.
Qed.

Lemma element_elements : forall x, x = [slash] \/ x = [] \/ goodname x ->
  elements x = if is_nil x then [] else [x].
Proof.
  intros x [->|[->|[H1 H2]]]; try reflexivity.
  rewrite elements_noslash by auto. destruct x; [congruence|reflexivity].
Qed.

Lemma path_eq_element : forall x y, x = [slash] \/ x = [] \/ goodname x -> y = [slash] \/ y = [] \/ goodname y ->
  path_eq (mkpath x) (mkpath y) = str_eqb x y.
Proof.
  intros x y Hx Hy.
  pose proof (path_eq_shows _ _ _ _ (shows_mkpath x) (shows_mkpath y)) as H.
  rewrite (element_elements x Hx), (element_elements y Hy) in H.
  destruct (path_eq (mkpath x) (mkpath y)) eqn:He.
  - destruct H as [H _]. specialize (H eq_refl). symmetry. apply str_eqb_spec.
    destruct x, y; cbn in H; congruence.
  - destruct (str_eqb x y) eqn:Hs; auto. apply str_eqb_spec in Hs. subst y.
    destruct H as [_ H]. rewrite H; reflexivity.
Qed.

Lemma mismatch_elements : forall a b,
  Forall (fun x => x = [slash] \/ x = [] \/ goodname x) a ->
  Forall (fun x => x = [slash] \/ x = [] \/ goodname x) b ->
  mismatch (map mkpath a) (map mkpath b) =
  (map mkpath (fst (strip_common a b)), map mkpath (snd (strip_common a b))).
Proof.
  induction a as [|x a IH]; intros b Ha Hb; [reflexivity|].
  destruct b as [|y b]; [reflexivity|]. cbn [map mismatch strip_common].
  inversion Ha; inversion Hb; subst. rewrite path_eq_element by auto.
  destruct (str_eqb x y); [apply IH; auto|reflexivity].
Qed.

Lemma strip_common_spec : forall a b, exists c, a = c ++ fst (strip_common a b) /\ b = c ++ snd (strip_common a b).
Proof.
  induction a as [|x a IH]; intros; [exists []; auto|].
  destruct b as [|y b]; [exists []; auto|]. cbn [strip_common].
  destruct (str_eqb x y) eqn:H; [|exists []; auto].
  apply str_eqb_spec in H. subst y. destruct (IH b) as (c & H1 & H2).
  exists (x :: c). cbn. split; f_equal; auto.
Qed.

Lemma elements_Forall : forall s, Forall (fun x => x = [slash] \/ x = [] \/ goodname x) (elements s).
Proof. intros. apply Forall_forall. intros. eapply is_element; eauto. Qed.

(** The elements left after the root and the common part hold no root. *)
Lemma strip_no_root : forall s t, starts_slash s = starts_slash t ->
  exists (ns : list str) (e : bool), fst (strip_common (elements s) (elements t)) = ns ++ (if e then [[]] else []) /\
    Forall goodname ns.
Proof.
  assert (G : forall (ns tl b : list str), Forall goodname ns -> (tl = [] \/ tl = [[]]) ->
    exists (ns' : list str) (e : bool), fst (strip_common (ns ++ tl) b) = ns' ++ (if e then [[]] else []) /\ Forall goodname ns').
  { induction ns as [|n ns IH]; intros tl b HF Ht.
    - cbn [app]. destruct Ht as [->| ->].
      + exists [], false. auto.
      + destruct b as [|y b]; [exists [], true; auto|]. cbn [strip_common].
        destruct (str_eqb [] y); [|exists [], true; auto]. exists [], false. destruct b; auto.
    - inversion HF; subst. cbn [app].
      assert (Hk : exists (ns' : list str) (e : bool), (n :: ns) ++ tl = ns' ++ (if e then [[]] else []) /\ Forall goodname ns').
      { destruct Ht as [->| ->]; [exists (n :: ns), false|exists (n :: ns), true]; auto. }
      destruct b as [|y b]; [exact Hk|]. cbn [strip_common].
      destruct (str_eqb n y); [apply IH; auto|exact Hk]. }
  intros s t H. unfold elements. rewrite <- H.
  set (tl := if ends_slash s && negb (is_nil (names s)) then [[]] else [] : list str).
  assert (tl = [] \/ tl = [([] : str)]) by (unfold tl; destruct (_ && _); auto).
  destruct (starts_slash s); cbn [app strip_common].
  - change (str_eqb [slash] [slash]) with true. cbn iota. apply G; auto. apply names_all.
  - apply G; auto. apply names_all.
Qed.

Lemma append_canon_nf : forall E r stk tr n, canon r -> native r = nf_text false stk tr ->
  Forall goodname stk -> noslash n ->
  path_append Posix E true r (mkpath n) =
  Ok (mkpath (if is_nil n then nf_text false stk true else nf_text false (n :: stk) false)).
Proof.
  intros E r stk tr n Hr Hn HS Hns. rewrite path_append_canon by (auto using canon_mkpath).
  rewrite Hn, native_name by auto. destruct n.
  - rewrite append_nf_empty by auto. reflexivity.
  - rewrite append_nf_name; auto. split; [auto|congruence].
Qed.

Lemma native_nf : forall stk tr, Forall goodname stk -> native (mkpath (nf_text false stk tr)) = nf_text false stk tr.
Proof. intros. apply native_is_text, nf_is_text. auto. Qed.

Lemma append_dotdots_spec : forall E n r stk tr, canon r -> native r = nf_text false stk tr -> Forall goodname stk ->
  exists r' , append_dotdots Posix E n r = Ok r' /\ canon r' /\
    native r' = nf_text false (repeat (lit "..") n ++ stk) (if n =? 0 then tr else false) .
Proof.
  induction n; intros r stk tr Hr Hn HS.
  - exists r. auto.
  - cbn [append_dotdots]. change [dot; dot] with (lit "..").
    rewrite (append_canon_nf E r stk tr) by (auto; reflexivity). cbn [is_nil lit list_ascii_of_string bind].
    change (["."; "."]%char) with (lit "..").
    assert (HS' : Forall goodname (lit ".." :: stk)) by (constructor; auto using good_dotdot).
    destruct (IHn (mkpath (nf_text false (lit ".." :: stk) false)) (lit ".." :: stk) false) as (r' & H1 & H2 & H3); auto.
    { apply canon_mkpath. }
    { apply native_nf. auto. }
    exists r'. split; auto. split; auto. rewrite H3. f_equal.
    + change (repeat (lit "..") (S n) ++ stk) with ((lit ".." :: repeat (lit "..") n) ++ stk).
      rewrite <- repeat_snoc, <- app_assoc. reflexivity.
    + destruct n; reflexivity.
Qed.

Lemma append_all_spec : forall E ns (e : bool) r stk tr, canon r -> native r = nf_text false stk tr ->
  Forall goodname stk -> Forall goodname ns ->
  exists r', append_all Posix E (map mkpath (ns ++ (if e then [[]] else []))) r = Ok r' /\ canon r' /\
    native r' = nf_text false (rev ns ++ stk) (if e then true else if is_nil ns then tr else false).
Proof.
  induction ns as [|n ns IH]; intros e r stk tr Hr Hn HS HF.
  - destruct e; cbn [app map append_all].
    + rewrite (append_canon_nf E r stk tr) by (auto; reflexivity). cbn [is_nil bind].
      eexists. split; [reflexivity|]. split; [apply canon_mkpath|]. cbn [rev app]. apply native_nf. auto.
    + exists r. auto.
  - inversion HF as [|? ? [H1 H2] HF']; subst. cbn [app map append_all].
    rewrite (append_canon_nf E r stk tr) by auto. cbn [bind].
    replace (is_nil n) with false by (destruct n; [congruence|reflexivity]).
    assert (HS' : Forall goodname (n :: stk)) by (constructor; auto; split; auto).
    destruct (IH e (mkpath (nf_text false (n :: stk) false)) (n :: stk) false) as (r' & G1 & G2 & G3); auto.
    { apply canon_mkpath. }
    { apply native_nf. auto. }
    exists r'. split; auto. split; auto. rewrite G3. cbn [rev]. rewrite <- app_assoc. cbn [app is_nil].
    f_equal. destruct e; auto. destruct ns; reflexivity.
Qed.

Lemma count_updots_eq : forall b, Forall (fun x => x = [slash] \/ x = [] \/ goodname x) b ->
  count_updots (map mkpath b) = upcount b.
Proof.
  intros b H. unfold count_updots, upcount. generalize 0%Z. induction H as [|x b Hx H IH]; intros z; [reflexivity|].
  cbn [map fold_left]. rewrite is_dotdot_eq, is_dot_eq.
  assert (native (mkpath x) = x) as ->.
  { destruct Hx as [->|[->|[Hx _]]]; try reflexivity. apply native_name. auto. }
  rewrite IH. destruct (str_eqb x (lit "..")); auto. destruct (str_eqb x (lit ".")); reflexivity.
Qed.

Lemma elements_starts : forall s t, elements s = elements t -> starts_slash s = starts_slash t.
Proof.
  intros s t H. unfold elements in H. pose proof (names_all s) as Hs. pose proof (names_all t) as Ht.
  assert (G : forall x (l : list str) r, Forall goodname l -> [slash] :: x = l ++ r -> r = [] \/ r = [[]] -> False).
  { intros x l r HF Heq [-> | ->].
    - rewrite app_nil_r in Heq. rewrite <- Heq in HF. inversion HF as [|? ? [HF1 _] _]. discriminate.
    - destruct l; [discriminate|]. injection Heq as <- _. inversion HF as [|? ? [HF1 _] _]. discriminate. }
  destruct (starts_slash s), (starts_slash t); auto; exfalso; cbn [app] in H.
  - eapply G; [exact Ht|exact H|]. destruct (ends_slash t && _); auto.
  - symmetry in H. eapply G; [exact Hs|exact H|]. destruct (ends_slash s && _); auto.
Qed.

Lemma lexically_relative_cases : forall E s t, exists r,
  lexically_relative Posix E (mkpath s) (mkpath t) = Ok r /\ canon r /\
  let a := fst (strip_common (elements s) (elements t)) in
  let b := snd (strip_common (elements s) (elements t)) in
  if negb (Bool.eqb (starts_slash s) (starts_slash t)) then native r = []
  else if is_nil a && is_nil b then native r = lit "."
  else if (upcount b <? 0)%Z then native r = []
  else exists (ns : list str) (e : bool), a = ns ++ (if e then [[]] else []) /\ Forall goodname ns /\
       native r = nf_text false (rev ns ++ repeat (lit "..") (Z.to_nat (upcount b))) e.
Proof.
  intros E s t. unfold lexically_relative.
  rewrite !root_name_mkpath. unfold path_ne. rewrite path_eq_refl. cbn [negb].
  rewrite !is_absolute_mkpath, !has_root_directory_mkpath.
  destruct (fin_canon (el_other E) path_default canon_default) as [Fc Fn].
  destruct (Bool.eqb (starts_slash s) (starts_slash t)) eqn:Hst; cbn [negb].
  2:{ eexists. split; [reflexivity|]. split; auto. }
  apply eqb_prop in Hst.
  replace (negb (starts_slash s) && starts_slash t) with false by (rewrite Hst; destruct (starts_slash t); reflexivity).
  rewrite !elems_paths, mismatch_elements by apply elements_Forall.
  destruct (strip_no_root s t Hst) as (ns & e & Ha & HF).
  destruct (strip_common_spec (elements s) (elements t)) as (c & Hc1 & Hc2).
  assert (HFb : Forall (fun x => x = [slash] \/ x = [] \/ goodname x) (snd (strip_common (elements s) (elements t)))).
  { pose proof (elements_Forall t) as Ht. rewrite Hc2 in Ht. apply Forall_app in Ht. tauto. }
  cbv zeta. rewrite Ha.
  set (b := snd (strip_common (elements s) (elements t))) in *.
  assert (Hgen : exists r,
    (let n := count_updots (map mkpath b) in
        if (0 <=? n)%Z then
          do r <- append_dotdots Posix E (Z.to_nat n) path_default ;;
          do r' <- append_all Posix E (map mkpath (ns ++ (if e then [[]] else []))) r ;;
          Ok (fin Posix (el_other E) r')
        else Ok (fin Posix (el_other E) path_default)) = Ok r /\ canon r /\
    if (upcount b <? 0)%Z then native r = []
    else exists (ns' : list str) (e' : bool), ns ++ (if e then [[]] else []) = ns' ++ (if e' then [[]] else []) /\ Forall goodname ns' /\
       native r = nf_text false (rev ns' ++ repeat (lit "..") (Z.to_nat (upcount b))) e').
  { cbv zeta. rewrite count_updots_eq by auto.
    destruct (upcount b <? 0)%Z eqn:Hlt.
    - apply Z.ltb_lt in Hlt. destruct (0 <=? upcount b)%Z eqn:Hle; [apply Z.leb_le in Hle; lia|].
      eexists. split; [reflexivity|]. auto.
    - apply Z.ltb_ge in Hlt. rewrite (proj2 (Z.leb_le _ _)) by auto.
      destruct (append_dotdots_spec E (Z.to_nat (upcount b)) path_default [] false) as (r1 & -> & Hr1 & Hn1).
      { apply canon_default. } { reflexivity. } { constructor. }
      cbn [bind]. rewrite app_nil_r in Hn1.
      assert (Htr : (if Z.to_nat (upcount b) =? 0 then false else false) = false) by (destruct (_ =? _); reflexivity).
      rewrite Htr in Hn1.
      assert (HR : Forall goodname (repeat (lit "..") (Z.to_nat (upcount b)))).
      { apply Forall_forall. intros x Hx. apply repeat_spec in Hx. subst. apply good_dotdot. }
      destruct (append_all_spec E ns e r1 _ false Hr1 Hn1 HR HF) as (r2 & -> & Hr2 & Hn2).
      cbn [bind]. destruct (fin_canon (el_other E) r2 Hr2) as [F1 F2].
      eexists. split; [reflexivity|]. split; auto. exists ns, e. split; auto. split; auto.
      rewrite F2, Hn2. f_equal. destruct e; auto. destruct ns; reflexivity. }
  destruct (map mkpath (ns ++ (if e then [[]] else []))) as [|x l] eqn:Hm.
  - apply map_eq_nil in Hm. rewrite Hm in *. destruct b as [|y b'].
    + cbn [map is_nil andb]. eexists. split; [reflexivity|]. rewrite fin_mkpath. split; [apply canon_mkpath|reflexivity].
    + cbn [map is_nil andb]. exact Hgen.
  - assert (is_nil (ns ++ (if e then [[]] else [])) = false) as Hnil.
    { destruct (ns ++ (if e then [[]] else [])); [discriminate|reflexivity]. }
    rewrite Hnil. cbn [andb]. exact Hgen.
Qed.

Lemma nil_eqb : forall A B (l : list A) (m : list B), (l = [] <-> m = []) -> is_nil l = is_nil m.
Proof. intros. destruct l, m; auto; destruct H; [discriminate (H eq_refl)|discriminate (H0 eq_refl)]. Qed.

Lemma good_nonnil : forall n, goodname n -> is_nil n = false.
Proof. intros n [_ H]. destruct n; [congruence|reflexivity]. Qed.

Lemma lexically_relative_mkpath : forall E s t, exists r,
  lexically_relative Posix E (mkpath s) (mkpath t) = Ok r /\ canon r /\ native r = relative_text s t.
Proof.
  intros E s t. destruct (lexically_relative_cases E s t) as (r & H1 & H2 & H3).
  exists r. split; auto. split; auto. cbv zeta in H3. unfold relative_text.
  destruct (negb (Bool.eqb _ _)); auto.
  destruct (is_nil _ && is_nil _); auto.
  destruct (upcount _ <? 0)%Z; auto.
  destruct H3 as (ns & e & Ha & HF & Hr). rewrite Hr, Ha.
  unfold nf_text. rewrite rev_app_distr, rev_involutive, rev_repeat. cbn [app].
  assert (Hf : filter (fun x => negb (is_nil x)) (ns ++ (if e then [[]] else [])) = ns).
  { rewrite filter_app. replace (filter _ (if e then [[]] else [])) with (@nil str) by (destruct e; reflexivity).
    rewrite app_nil_r. clear - HF. induction HF as [|x l Hx HF IH]; auto.
    cbn [filter]. rewrite good_nonnil by auto. cbn [negb]. f_equal. auto. }
  rewrite Hf. f_equal.
  assert (He : existsb is_nil (ns ++ (if e then [[]] else [])) = e).
  { clear - HF. induction HF as [|x l Hx HF IH]; [destruct e; reflexivity|].
    cbn [app existsb]. rewrite good_nonnil by auto. exact IH. }
  rewrite He. erewrite (nil_eqb _ _ (rev ns ++ _) (_ ++ ns)); [reflexivity|].
  split; intros H; apply app_eq_nil in H as [Hx Hy].
  - apply (f_equal (@rev str)) in Hx. rewrite rev_involutive in Hx. cbn in Hx. rewrite Hx, Hy. reflexivity.
  - subst ns. rewrite Hx. reflexivity.
Qed.

(** Names of a list of elements. *)
Definition wn (e : list str) : list str := filter (fun x => negb (is_nil x) && negb (str_eqb x [slash])) e.

Lemma wn_good : forall l, Forall goodname l -> wn l = l.
Proof.
  induction 1 as [|x l [H1 H2] H IH]; auto. cbn [wn filter]. unfold wn in IH. rewrite IH.
  destruct x as [|c x]; [congruence|]. cbn [is_nil negb andb].
  destruct (str_eqb (c :: x) [slash]) eqn:He; auto. apply str_eqb_spec in He. rewrite He in H1. discriminate.
Qed.

Lemma wn_app : forall a b, wn (a ++ b) = wn a ++ wn b.
Proof. intros. apply filter_app. Qed.

Lemma wn_trail : forall e : bool, wn (if e then [[]] else []) = [].
Proof. destruct e; reflexivity. Qed.

Lemma wn_elements : forall s, wn (elements s) = names s.
Proof.
  intros. unfold elements. rewrite !wn_app, wn_trail, app_nil_r.
  rewrite (wn_good (names s)) by apply names_all.
  destruct (starts_slash s); reflexivity.
Qed.

Lemma upcount_plain : forall b, Forall (fun x => plain x = true \/ x = lit ".") b ->
  exists ps, upcount b = Z.of_nat (length ps) /\ (forall p, walk p b = p ++ ps).
Proof.
  intros b H. unfold upcount.
  assert (G : forall z, exists ps : list str, fold_left (fun n x => if str_eqb x (lit "..") then (n - 1)%Z
                        else if str_eqb x (lit ".") then n else (n + 1)%Z) b z = (z + Z.of_nat (length ps))%Z /\
     (forall p, walk p b = p ++ ps)).
  { induction H as [|x b Hx H IH]; intros z.
    - exists []. split; [cbn; lia|]. intros. rewrite app_nil_r. reflexivity.
    - cbn [fold_left]. destruct Hx as [Hx| ->].
      + pose proof Hx as Hx'. unfold plain in Hx'. apply andb_true_iff in Hx' as [Hp1 Hp2].
        apply andb_true_iff in Hp1 as [_ Hp1]. apply negb_true_iff in Hp1, Hp2. rewrite Hp1, Hp2.
        destruct (IH (z + 1)%Z) as (ps & H1 & H2). exists (x :: ps). split; [rewrite H1; cbn [length]; lia|].
        intros p. cbn [walk fold_left]. rewrite walk1_plain by auto. fold (walk (p ++ [x]) b).
        rewrite H2, <- app_assoc. reflexivity.
      + change (str_eqb (lit ".") (lit "..")) with false. change (str_eqb (lit ".") (lit ".")) with true. cbn iota.
        apply IH. }
  destruct (G 0%Z) as (ps & H1 & H2). exists ps. split; auto.
Qed.

Lemma walk_up_back : forall ps p, walk (p ++ ps) (repeat (lit "..") (length ps)) = p.
Proof.
  intros. rewrite walk_ups, app_length.
  replace (length p + length ps - length ps) with (length p + 0) by lia.
  rewrite firstn_app_2. apply app_nil_r.
Qed.


Lemma str_eqb_sym : forall x y, str_eqb x y = str_eqb y x.
Proof.
  intros. destruct (str_eqb x y) eqn:H.
  - apply str_eqb_spec in H. subst. symmetry. apply str_eqb_spec. reflexivity.
  - destruct (str_eqb y x) eqn:H'; auto. apply str_eqb_spec in H'. subst.
    rewrite <- H. apply str_eqb_spec. reflexivity.
Qed.

Lemma strip_common_sym : forall a b, strip_common b a = (snd (strip_common a b), fst (strip_common a b)).
Proof.
  induction a as [|x a IH]; intros b; [destruct b; reflexivity|].
  destruct b as [|y b]; [reflexivity|]. cbn [strip_common]. rewrite (str_eqb_sym y x).
  destruct (str_eqb x y); auto.
Qed.

(** From where [t] leads, [relative_text s t] leads to where [s] leads. *)
Lemma relative_text_meaning : forall s t place,
  starts_slash s = starts_slash t ->
  Forall (fun x => plain x = true \/ x = lit ".") (snd (strip_common (elements s) (elements t))) ->
  resolve (resolve place t) (relative_text s t) = resolve place s.
Proof.
  intros s t place Hst Hb.
  destruct (strip_common_spec (elements s) (elements t)) as (c & Hc1 & Hc2).
  destruct (strip_no_root s t Hst) as (ns & e & Ha & HF).
  destruct (strip_no_root t s (eq_sym Hst)) as (ms & e' & Hb' & HF').
  rewrite strip_common_sym in Hb'. cbn [fst] in Hb'.
  destruct (lexically_relative_cases (Elision false false false) s t) as (r & Hr1 & _ & Hr).
  destruct (lexically_relative_mkpath (Elision false false false) s t) as (r' & Hr1' & _ & Hrt).
  rewrite Hr1 in Hr1'. injection Hr1' as <-. rewrite Hrt in Hr. clear Hr1 Hrt r.
  assert (e' = false).
  { destruct e'; auto. rewrite Hb' in Hb. apply Forall_app in Hb as [_ Hb]. inversion Hb as [|? ? Hx _].
    destruct Hx; discriminate. }
  subst e'. rewrite app_nil_r in Hb'.
  assert (Hs : names s = wn c ++ ns).
  { rewrite <- wn_elements, Hc1, Ha, !wn_app, wn_trail, app_nil_r, (wn_good ns) by auto. reflexivity. }
  assert (Ht : names t = wn c ++ ms).
  { rewrite <- wn_elements, Hc2, Hb', wn_app, (wn_good ms) by auto. reflexivity. }
  cbv zeta in Hr. rewrite Ha, Hb' in *.
  rewrite Hst, eqb_reflx in Hr. cbn [negb] in Hr.
  destruct (upcount_plain ms) as (ps & Hup & Hw). { exact Hb. }
  set (p0 := if starts_slash t then [] else place).
  assert (Rt : resolve place t = walk p0 (wn c) ++ ps).
  { unfold resolve. fold p0. rewrite Ht, walk_app. apply Hw. }
  assert (Rs : resolve place s = walk (walk p0 (wn c)) ns).
  { unfold resolve. rewrite Hst. fold p0. rewrite Hs, walk_app. reflexivity. }
  rewrite Rt, Rs.
  destruct (is_nil _ && is_nil ms) eqn:Hnil.
  - apply andb_true_iff in Hnil as [N1 N2]. apply is_nil_true in N1, N2.
    apply app_eq_nil in N1 as [-> _]. rewrite Hr.
    assert (ps = []) as ->. { specialize (Hw []). rewrite N2 in Hw. symmetry. exact Hw. }
    rewrite app_nil_r. reflexivity.
  - replace (upcount ms <? 0)%Z with false in Hr by (symmetry; apply Z.ltb_ge; lia).
    destruct Hr as (ns' & e2 & Hns & HF2 & Hr). rewrite Hr.
    assert (ns' = ns).
    { apply (f_equal wn) in Hns. rewrite !wn_app, !wn_trail, !app_nil_r, !wn_good in Hns by auto. auto. }
    subst ns'. rewrite Hup, Nat2Z.id.
    assert (HFr : Forall goodname (rev ns ++ repeat (lit "..") (length ps))).
    { apply Forall_app. split; [apply goodname_rev; auto|]. apply Forall_forall. intros x Hx.
      apply repeat_spec in Hx. subst. apply good_dotdot. }
    unfold resolve. rewrite starts_nf, names_nf by auto.
    rewrite rev_app_distr, rev_involutive, rev_repeat, walk_app, walk_up_back. reflexivity.
Qed.
