(** Meaning, normal form and canonicity of lexically_normal. *)
From Coq Require Import Ascii String Bool Arith NArith ZArith Lia List.
From Verif Require Import Str PathModel PathSpec StrProofs PathProofs PathOps PathOps2 PathNormal.
Import ListNotations.

(** * Stacks produced by reduction *)

Definition stk_ok (a : bool) (stk : list str) : Prop :=
  exists k ms, stk = ms ++ repeat (lit "..") k /\ forallb plain ms = true /\ (a = true -> k = 0).

Lemma plain_not_up : forall n, plain n = true -> is_updir n = false.
Proof. unfold plain, is_updir. intros. destruct (str_eqb n (lit "..")); auto. rewrite andb_false_r in H. discriminate. Qed.

Lemma plain_cases : forall n, n <> [] -> n = lit "." \/ n = lit ".." \/ plain n = true.
Proof.
  intros. unfold plain. destruct n; [congruence|]. cbn [is_nil negb andb].
  destruct (str_eqb _ (lit ".")) eqn:H1; [left; apply str_eqb_spec; auto|].
  destruct (str_eqb _ (lit "..")) eqn:H2; [right; left; apply str_eqb_spec; auto|].
  auto.
Qed.

Lemma reduce1_ok : forall a stk n, n <> [] -> stk_ok a stk -> stk_ok a (reduce1 a stk n).
Proof.
  intros a stk n Hn (k & ms & -> & Hm & Ha).
  destruct (plain_cases n Hn) as [->|[->|Hp]].
  - exists k, ms. auto.
  - unfold reduce1. change (str_eqb (lit "..") (lit ".")) with false. change (str_eqb (lit "..") (lit "..")) with true.
    destruct ms as [|m ms]; cbn [app].
    + destruct k as [|k]; cbn [repeat].
      * destruct a; [exists 0, []; auto|]. exists 1, []. split; [reflexivity|]. split; auto. discriminate.
      * change (str_eqb (lit "..") (lit "..")) with true. cbn iota.
        exists (S (S k)), []. split; [reflexivity|]. split; auto. intros H. specialize (Ha H). discriminate.
    + cbn in Hm. apply andb_true_iff in Hm as [Hm1 Hm2]. apply plain_not_up in Hm1. unfold is_updir in Hm1. rewrite Hm1.
      exists k, ms. auto.
  - unfold reduce1. pose proof Hp as Hp'. unfold plain in Hp'. apply andb_true_iff in Hp' as [Hp1 Hp2].
    apply andb_true_iff in Hp1 as [_ Hp1]. apply negb_true_iff in Hp1, Hp2. rewrite Hp1, Hp2.
    exists k, (n :: ms). split; [reflexivity|]. split; auto. cbn. rewrite Hp. auto.
Qed.

Lemma fold_reduce_ok : forall a ns stk, Forall goodname ns -> stk_ok a stk -> stk_ok a (fold_left (reduce1 a) ns stk).
Proof.
  induction ns; intros; cbn; auto. inversion H as [|? ? [_ Hn] HF]; subst. apply IHns; auto. apply reduce1_ok; auto.
Qed.

Lemma stk_ok_nil : forall a, stk_ok a [].
Proof. intros. exists 0, []. auto. Qed.

Lemma norm_stk_ok : forall s, stk_ok (starts_slash s) (norm_stk s).
Proof. intros. apply fold_reduce_ok; [apply names_all|apply stk_ok_nil]. Qed.

Lemma repeat_snoc : forall A (x : A) k, repeat x k ++ [x] = x :: repeat x k.
Proof. intros. rewrite repeat_cons. reflexivity. Qed.

Lemma rev_repeat : forall A (x : A) k, rev (repeat x k) = repeat x k.
Proof. induction k; cbn; auto. rewrite IHk. apply repeat_snoc. Qed.

Lemma forallb_rev : forall A (f : A -> bool) l, forallb f (rev l) = forallb f l.
Proof. induction l; cbn; auto. rewrite forallb_app, IHl. cbn. rewrite andb_true_r. apply andb_comm. Qed.

Lemma stk_ok_normal : forall a stk, stk_ok a stk -> is_normal_names a (rev stk).
Proof.
  intros a stk (k & ms & -> & Hm & Ha). exists k, (rev ms). rewrite rev_app_distr, rev_repeat.
  split; auto. split; auto. rewrite forallb_rev. auto.
Qed.

Lemma stk_ok_tail : forall a x r, stk_ok a (x :: r) -> stk_ok a r.
Proof.
  intros a x r (k & ms & H & Hm & Ha). destruct ms as [|m ms]; cbn in H.
  - destruct k; cbn in H; [discriminate|]. injection H as _ ->. exists k, []. split; auto. split; auto.
    intros Hx. specialize (Ha Hx). discriminate.
  - injection H as _ ->. cbn in Hm. apply andb_true_iff in Hm as [_ Hm]. exists k, ms. auto.
Qed.

Lemma stk_ok_head : forall a x r, stk_ok a (x :: r) -> plain x = true \/
  (x = lit ".." /\ a = false /\ exists k, r = repeat (lit "..") k).
Proof.
  intros a x r (k & ms & H & Hm & Ha). destruct ms as [|m ms]; cbn in H.
  - destruct k; cbn in H; [discriminate|]. injection H as -> ->. right. split; auto.
    split; [destruct a; auto; specialize (Ha eq_refl); discriminate|]. eauto.
  - injection H as -> ->. cbn in Hm. apply andb_true_iff in Hm as [Hm _]. auto.
Qed.

Lemma reduce1_plain : forall a stk n, plain n = true -> reduce1 a stk n = n :: stk.
Proof.
  intros. unfold reduce1. unfold plain in H. apply andb_true_iff in H as [Hp1 Hp2].
  apply andb_true_iff in Hp1 as [_ Hp1]. apply negb_true_iff in Hp1, Hp2. rewrite Hp1, Hp2. reflexivity.
Qed.

Lemma fold_reduce_normal : forall a stk, stk_ok a stk -> fold_left (reduce1 a) (rev stk) [] = stk.
Proof.
  induction stk as [|x r IH]; intros H; [reflexivity|].
  cbn [rev]. rewrite fold_left_app, IH by (eapply stk_ok_tail; eauto). cbn [fold_left].
  destruct (stk_ok_head _ _ _ H) as [Hp|(-> & -> & k & ->)].
  - apply reduce1_plain. auto.
  - destruct k; reflexivity.
Qed.

(** * Meaning *)

Lemma walk_app : forall l m p, walk p (l ++ m) = walk (walk p l) m.
Proof. intros. apply fold_left_app. Qed.

Lemma removelast_snoc : forall A (l : list A) x, removelast (l ++ [x]) = l.
Proof. intros. apply removelast_last. Qed.

Lemma walk1_plain : forall p n, plain n = true -> walk1 p n = p ++ [n].
Proof.
  intros. unfold walk1. unfold plain in H. apply andb_true_iff in H as [Hp1 Hp2].
  apply andb_true_iff in Hp1 as [_ Hp1]. apply negb_true_iff in Hp1, Hp2. rewrite Hp1, Hp2. reflexivity.
Qed.

Lemma walk_reduce1 : forall a stk n p, n <> [] -> stk_ok a stk -> (a = true -> p = []) ->
  walk p (rev (reduce1 a stk n)) = walk1 (walk p (rev stk)) n.
Proof.
  intros a stk n p Hn Hok Hp.
  destruct (plain_cases n Hn) as [->|[->|Hpl]].
  - reflexivity.
  - unfold reduce1. change (str_eqb (lit "..") (lit ".")) with false. change (str_eqb (lit "..") (lit "..")) with true.
    cbn iota.
    destruct stk as [|x r].
    + destruct a; [rewrite Hp by auto; reflexivity|]. reflexivity.
    + fold (is_updir x). destruct (is_updir x) eqn:Hx.
      * cbn [rev]. rewrite !walk_app. reflexivity.
      * destruct (stk_ok_head _ _ _ Hok) as [Hpx|(-> & _)]; [|discriminate].
        cbn [rev]. rewrite walk_app. cbn [walk fold_left]. rewrite (walk1_plain _ x) by auto.
        unfold walk1. change (str_eqb (lit "..") (lit ".")) with false. change (str_eqb (lit "..") (lit "..")) with true.
        cbn iota. rewrite removelast_snoc. reflexivity.
  - rewrite reduce1_plain by auto. cbn [rev]. rewrite walk_app. reflexivity.
Qed.

Lemma walk_reduce : forall a ns stk p, Forall goodname ns -> stk_ok a stk -> (a = true -> p = []) ->
  walk p (rev (fold_left (reduce1 a) ns stk)) = walk (walk p (rev stk)) ns.
Proof.
  induction ns as [|n ns IH]; intros stk p HF Hok Hp; [reflexivity|].
  inversion HF as [|? ? [_ Hn] HF']; subst. cbn [fold_left].
  rewrite IH by (auto using reduce1_ok). rewrite walk_reduce1 by auto. reflexivity.
Qed.

Lemma names_final : forall a stk tr, Forall goodname stk ->
  names (final_text a stk tr) = match stk with [] => if a then [] else [lit "."] | _ => rev stk end.
Proof.
  intros. destruct stk.
  - destruct a; reflexivity.
  - unfold final_text. apply names_nf. auto.
Qed.

Lemma starts_final : forall a stk tr, Forall goodname stk -> starts_slash (final_text a stk tr) = a.
Proof.
  intros. destruct stk.
  - destruct a; reflexivity.
  - unfold final_text. apply starts_nf. auto.
Qed.

Lemma normal_text_resolve : forall s place, resolve place (normal_text s) = resolve place s.
Proof.
  intros. unfold resolve, normal_text. rewrite starts_final, names_final by apply norm_stk_good.
  pose proof (walk_reduce (starts_slash s) (names s) [] (if starts_slash s then [] else place)) as H.
  cbn [rev walk fold_left] in H.
  assert (Hw : walk (if starts_slash s then [] else place) (rev (norm_stk s)) =
               walk (if starts_slash s then [] else place) (names s)).
  { apply H; [apply names_all|apply stk_ok_nil|intros ->; reflexivity]. }
  rewrite <- Hw. destruct (norm_stk s) as [|x r]; auto. destruct (starts_slash s); reflexivity.
Qed.

(** * Normal form *)

Lemma goodname_In : forall l, Forall goodname l -> Forall (fun n => ~ In slash n /\ n <> []) l.
Proof. intros. eapply Forall_impl; [|eauto]. intros n [H1 H2]. split; auto. apply noslash_In. auto. Qed.

Lemma last_rev : forall A (x : A) r d, last (rev (x :: r)) d = x.
Proof. intros. cbn [rev]. apply last_snoc. Qed.

Lemma normal_text_normal : forall s, is_normal_text (normal_text s).
Proof.
  intros. unfold normal_text, final_text. pose proof (norm_stk_good s) as HG. pose proof (norm_stk_ok s) as Hok.
  destruct (norm_stk s) as [|x r] eqn:Hn.
  - destruct (starts_slash s).
    + right. exists true, [], false. split; [reflexivity|]. split; auto.
      split; [exists 0, []; auto|]. split; [auto|discriminate].
    + left. reflexivity.
  - right. exists (starts_slash s), (rev (x :: r)), (norm_tr s && negb (is_updir x)).
    split; [unfold nf_text; cbn [is_nil negb]; rewrite andb_true_r; reflexivity|].
    split; [apply goodname_In, goodname_rev; auto|].
    split; [apply stk_ok_normal; auto|].
    split; [cbn; destruct (rev r); discriminate|].
    intros Ht. apply andb_true_iff in Ht as [_ Ht]. rewrite last_rev.
    destruct (stk_ok_head _ _ _ Hok) as [Hp|(-> & _)]; [auto|discriminate].
Qed.

(** When the trailing slash appears. *)
Lemma final_tr_snoc : forall a ns stk n tr,
  final_tr a stk (ns ++ [n]) tr = push_tr (fold_left (reduce1 a) ns stk) n.
Proof. induction ns; intros; cbn; auto. Qed.

Lemma norm_tr_spec : forall s x r, norm_stk s = x :: r -> is_updir x = false ->
  norm_tr s = negb (plain (last (elements s) [])).
Proof.
  intros s x r Hs Hx. unfold norm_tr. unfold elements.
  assert (Hnn : names s <> []) by (intros Hn; unfold norm_stk in Hs; rewrite Hn in Hs; discriminate).
  destruct (ends_slash s) eqn:He.
  - rewrite orb_true_r. destruct (names s) eqn:Hn; [congruence|]. cbn [is_nil negb andb].
    rewrite !app_assoc, last_snoc. reflexivity.
  - rewrite orb_false_r. cbn [andb]. rewrite app_nil_r.
    rewrite last_app_ne by auto. destruct (exists_last Hnn) as (l & n & Hl).
    pose proof (names_all s) as HF. rewrite Hl in *. rewrite last_snoc.
    unfold norm_stk in Hs. rewrite Hl in Hs. rewrite fold_left_app in Hs. cbn [fold_left] in Hs.
    rewrite final_tr_snoc.
    set (stk := fold_left (reduce1 (starts_slash s)) l []) in *.
    apply Forall_app in HF as [_ HF]. inversion HF as [|? ? [_ Hne] _]; subst.
    destruct (plain_cases n Hne) as [->|[->|Hp]].
    + reflexivity.
    + unfold push_tr. change (str_eqb (lit "..") (lit "..")) with true. cbn iota.
      unfold reduce1 in Hs. change (str_eqb (lit "..") (lit ".")) with false in Hs.
      change (str_eqb (lit "..") (lit "..")) with true in Hs. cbn iota in Hs.
      destruct stk as [|y q].
      * destruct (starts_slash s); [discriminate|]. injection Hs as <- <-. discriminate.
      * fold (is_updir y) in Hs. destruct (is_updir y) eqn:Hy; [|reflexivity].
        injection Hs as <- _. discriminate.
    + unfold push_tr. apply plain_not_up in Hp as Hu. unfold is_updir in Hu. rewrite Hu, Hp. reflexivity.
Qed.

(** * Idempotence and canonicity *)

Lemma ends_nf : forall a x r tr, goodname x -> ends_slash (nf_text a (x :: r) tr) = tr.
Proof.
  intros a x r tr Hx. destruct tr.
  - rewrite nf_trail, ends_slash_snoc. reflexivity.
  - destruct (ends_slash (nf_text a (x :: r) false)) eqn:He; auto.
    apply ends_after in He. destruct (after_nf_name a x r Hx) as [Ha _]. destruct Hx. congruence.
Qed.

Lemma normal_text_idem : forall s, normal_text (normal_text s) = normal_text s.
Proof.
  intros. pose proof (norm_stk_good s) as HG. pose proof (norm_stk_ok s) as Hok.
  set (a := starts_slash s) in *. set (t := normal_text s).
  assert (Hst : starts_slash t = a) by (unfold t, normal_text; apply starts_final; auto).
  assert (Hnm : names t = match norm_stk s with [] => if a then [] else [lit "."] | _ => rev (norm_stk s) end).
  { unfold t, normal_text. rewrite names_final by auto. destruct (norm_stk s); reflexivity. }
  assert (Hstk : norm_stk t = norm_stk s).
  { unfold norm_stk at 1. rewrite Hst, Hnm. destruct (norm_stk s) as [|x r] eqn:Hn.
    - destruct a; reflexivity.
    - apply fold_reduce_normal. auto. }
  unfold normal_text at 1. rewrite Hst, Hstk. unfold final_text.
  destruct (norm_stk s) as [|x r] eqn:Hn.
  - unfold t, normal_text. rewrite Hn. reflexivity.
  - unfold t, normal_text, final_text. fold a. rewrite Hn. f_equal.
    destruct (is_updir x) eqn:Hx; [rewrite !andb_false_r; reflexivity|]. cbn [negb]. rewrite !andb_true_r.
    unfold norm_tr at 1.
    inversion HG as [|? ? Hgx HG']; subst.
    rewrite starts_nf by auto. rewrite ends_nf by auto. rewrite names_nf by auto.
    cbn [rev]. rewrite final_tr_snoc. unfold push_tr. fold (is_updir x). rewrite Hx.
    destruct (stk_ok_head _ _ _ Hok) as [Hp|(-> & _)]; [|discriminate]. rewrite Hp. reflexivity.
Qed.

Lemma walk_ups : forall k p, walk p (repeat (lit "..") k) = firstn (length p - k) p.
Proof.
  induction k; intros.
  - cbn. rewrite Nat.sub_0_r, firstn_all. reflexivity.
  - cbn [repeat walk fold_left]. change (walk1 p (lit "..")) with (removelast p).
    change (fold_left walk1 (repeat (lit "..") k) (removelast p)) with (walk (removelast p) (repeat (lit "..") k)).
    rewrite IHk. destruct p as [|x p] using rev_ind.
    + reflexivity.
    + rewrite removelast_snoc, app_length. cbn [length].
      replace (length p + 1 - S k) with (length p - k) by lia.
      rewrite firstn_app. replace (length p - k - length p) with 0 by lia. cbn. rewrite app_nil_r. reflexivity.
Qed.

Lemma walk_plain : forall ms p, forallb plain ms = true -> walk p ms = p ++ ms.
Proof.
  induction ms; intros; cbn [walk fold_left].
  - rewrite app_nil_r. reflexivity.
  - cbn in H. apply andb_true_iff in H as [H1 H2]. rewrite walk1_plain by auto.
    change (fold_left walk1 ms (p ++ [a])) with (walk (p ++ [a]) ms). rewrite IHms by auto.
    rewrite <- app_assoc. reflexivity.
Qed.

Lemma repeat_app_inj : forall (z : str) i j m1 m2, ~ In z m1 -> ~ In z m2 ->
  repeat z i ++ m1 = repeat z j ++ m2 -> i = j /\ m1 = m2.
Proof.
  induction i; intros j m1 m2 H1 H2 H; destruct j; cbn in H; auto.
  - exfalso. apply H1. rewrite H. left. reflexivity.
  - exfalso. apply H2. rewrite <- H. left. reflexivity.
  - injection H as H. apply IHi in H as [-> ->]; auto.
Qed.

(** A plain name that occurs in neither list. *)
Lemma fresh_name : forall l : list str, exists z, plain z = true /\ ~ In slash z /\ ~ In z l.
Proof.
  intros. exists (repeat "x"%char (S (list_sum (map (@length ascii) l)))).
  assert (Hp : forall n, plain (repeat "x"%char (S n)) = true).
  { intros. unfold plain. cbn [repeat is_nil negb andb].
    assert (forall s : str, str_eqb ("x"%char :: repeat "x"%char n) (dot :: s) = false) as Hd.
    { intros. unfold str_eqb. destruct (str_eq_dec _ _) as [E|E]; auto. discriminate. }
    change (lit ".") with (dot :: []). change (lit "..") with (dot :: [dot]). rewrite !Hd. reflexivity. }
  split; [apply Hp|]. split.
  - intros H. apply repeat_spec in H. discriminate.
  - intros H. assert (Hl : forall x, In x l -> length x <= list_sum (map (@length ascii) l)).
    { clear. unfold list_sum. induction l as [|y l IH]; intros x H; [destruct H|]. cbn [map fold_right]. destruct H as [->|H]; [lia|]. apply IH in H. lia. }
    apply Hl in H. rewrite repeat_length in H. lia.
Qed.

Lemma normal_unique : forall a ns1 ns2, is_normal_names a ns1 -> is_normal_names a ns2 ->
  (forall place, Forall (fun n => plain n = true /\ ~ In slash n) place -> (a = true -> place = []) ->
     walk place ns1 = walk place ns2) -> ns1 = ns2.
Proof.
  intros a ns1 ns2 (k1 & m1 & -> & Hm1 & Ha1) (k2 & m2 & -> & Hm2 & Ha2) H.
  destruct a.
  - rewrite Ha1, Ha2 in * by auto. specialize (H [] (Forall_nil _) (fun _ => eq_refl)).
    cbn [repeat app] in *. rewrite !walk_plain in H by auto. exact H.
  - destruct (fresh_name (m1 ++ m2)) as (z & Hz & Hzs & Hin).
    set (N := k1 + k2).
    specialize (H (repeat z N)). rewrite !walk_app, !walk_ups, !walk_plain, repeat_length in H by auto.
    assert (Hf : forall k, k <= N -> firstn (N - k) (repeat z N) = repeat z (N - k)).
    { intros k Hk. replace (repeat z N) with (repeat z (N - k) ++ repeat z k) by (rewrite <- repeat_app; f_equal; lia). apply firstn_exact. rewrite repeat_length. reflexivity. }
    rewrite !Hf in H by (unfold N; lia).
    destruct (repeat_app_inj z (N - k1) (N - k2) m1 m2) as [Hk ->].
    + intros Hc. apply Hin, in_or_app. auto.
    + intros Hc. apply Hin, in_or_app. auto.
    + apply H; [|discriminate]. apply Forall_forall. intros x Hx. apply repeat_spec in Hx. subst. auto.
    + f_equal. f_equal. unfold N in Hk. lia.
Qed.
