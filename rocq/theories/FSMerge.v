(** Recursive copy into a directory that exists, on the file system of FS.v. *)
From Coq Require Import Ascii String Bool Arith NArith ZArith Lia.
From Verif Require Import Str PathModel PathSpec StrProofs PathProofs PathOps PathOps2 PathReach PathLaws ArithProps
  FlagsModel TimeModel Prog DirModel OpsModel OpsProps FS FSProofs FSSpec FSOps FSPlace FSProps FSProps2 IterProps FSIter FSRemove FSCopy FSDispatch FSCopyTree.
From Coq Require Import List.
Import ListNotations.

(** * Vocabulary *)

(** With these options the file [j] is replaced by the file [i]. *)
Definition replaces (s : fs) (l : list copt_name) (i j : N) : Prop :=
  ~ In co_skip_existing l /\
  ((In co_update_existing l /\ later (m_mtime (f_meta s i)) (m_mtime (f_meta s j))) \/ (~ In co_update_existing l /\ In co_overwrite_existing l)).

(** The object [a] of the source can be merged with the object [b] of the destination: one of them is missing, both are directories, or
    both are regular files and the options say what to do with the second. *)
Definition fits (s : fs) (l : list copt_name) (a b : option node) : Prop :=
  match a, b with
  | Some (NDir i), Some (NDir j) => i <> j
  | Some (NLeaf i), Some (NLeaf j) =>
      (exists d, f_body s i = BReg d) /\ (exists d, f_body s j = BReg d) /\ (In co_skip_existing l \/ In co_update_existing l \/ In co_overwrite_existing l)
  | Some _, Some _ => False
  | _, _ => True
  end.

(** A file of the destination with the same place as a file of the source is none of the objects of the source, and has no second name
    of this sort. *)
Definition apart (s : fs) (q D : loc) : Prop := forall r i j, look (f_root s) (q ++ r) = Some (NLeaf i) -> look (f_root s) (D ++ r) = Some (NLeaf j) ->
  (forall r2 x, look (f_root s) (q ++ r2) = Some x -> number x <> j) /\
  (forall r2 i2, look (f_root s) (q ++ r2) = Some (NLeaf i2) -> look (f_root s) (D ++ r2) = Some (NLeaf j) -> r2 = r).

(** What becomes of the object [b] of the destination at the place of the object [a] of the source: [b']. What the source does not
    have stays; what the destination does not have is a new copy; a directory stays; a file stays, with the content and the permissions
    of the source if it is to be replaced. *)
Definition outcome_at (s s' : fs) (l : list copt_name) (a b b' : option node) : Prop :=
  match a with
  | None => b' = b
  | Some x =>
      match b with
      | None => same_object s s' a b' /\ (forall y, b' = Some y -> (f_next s <= number y)%N)
      | Some y => b' = b /\
          (forall i j, x = NLeaf i -> y = NLeaf j -> replaces s l i j ->
             exists d, f_body s i = BReg d /\ f_body s' j = BReg d /\ m_perm (f_meta s' j) = mode_bits (m_perm (f_meta s i)))
      end
  end.

(** The tree at [q] has been merged into the one at [D], at the places [P] below them: *)
Record merged (s s' : fs) (l : list copt_name) (q D : loc) (P : loc -> bool) : Prop := {
  mg_places : forall r, P r = true -> outcome_at s s' l (look (f_root s) (q ++ r)) (look (f_root s) (D ++ r)) (look (f_root s') (D ++ r));
  mg_rest : forall r, P r = false -> look (f_root s') (D ++ r) = look (f_root s) (D ++ r);
  mg_outside : same_outside s s' D;
  mg_trees : forall r, below D r = false -> below r D = false -> get (f_root s') r = get (f_root s) r;
  mg_objects : forall x, (x < f_next s)%N -> (f_body s' x = f_body s x /\ f_meta s' x = f_meta s x) \/
    (exists r i, P r = true /\ look (f_root s) (q ++ r) = Some (NLeaf i) /\ look (f_root s) (D ++ r) = Some (NLeaf x) /\ replaces s l i x);
  mg_next : (f_next s <= f_next s')%N;
  mg_cwd : f_cwd s' = f_cwd s }.

Definition everywhere (r : loc) : bool := true.
Definition starts_in (ns : list str) (r : loc) : bool := match r with [] => false | n :: _ => existsb (str_eqb n) ns end.

(** * Places *)

Lemma below_apart : forall q D r, below q D = false -> below D q = false -> below D (q ++ r) = false.
Proof.
  intros q D r H1 H2. destruct (below D (q ++ r)) eqn:E; auto. exfalso. apply below_spec in E as [v E].
  assert (E3 : below q D = true \/ below D q = true); [|destruct E3; congruence].
  clear - E. revert q E. induction D as [|a D IH]; intros [|b q] E; cbn; auto.
  cbn in E. injection E as -> E. rewrite str_eqb_refl. cbn. apply (IH q E).
Qed.

Lemma below_other : forall D n m r, n <> m -> below (D ++ [n]) (D ++ m :: r) = false.
Proof.
  intros D n m r H. destruct (below (D ++ [n]) (D ++ m :: r)) eqn:E; auto. exfalso. apply below_spec in E as [v E].
  rewrite <- app_assoc in E. apply app_inv_head in E. cbn in E. congruence.
Qed.
Lemma below_longer : forall D n, below (D ++ [n]) D = false.
Proof.
  intros D n. destruct (below (D ++ [n]) D) eqn:E; auto. exfalso. apply below_spec in E as [v E]. apply (f_equal (@length _)) in E.
  rewrite !app_length in E. cbn in E. lia.
Qed.

Lemma starts_in_snoc : forall ns n r, starts_in (ns ++ [n]) r = true -> starts_in ns r = true \/ exists r', r = n :: r'.
Proof.
  intros ns n [|a r]; cbn; [discriminate|]. rewrite existsb_app. cbn. rewrite orb_false_r. intros H. apply orb_true_iff in H as [H|H]; auto.
  apply str_eqb_spec in H. subst. eauto.
Qed.
Lemma starts_in_not : forall ns n r, starts_in (ns ++ [n]) r = false -> starts_in ns r = false /\ (r = [] \/ exists a r', r = a :: r' /\ a <> n).
Proof.
  intros ns n [|a r]; cbn; auto. rewrite existsb_app. cbn. rewrite orb_false_r. intros H. apply orb_false_iff in H as [H1 H2]. split; auto. right.
  exists a, r. split; auto. intros ->. rewrite str_eqb_refl in H2. discriminate.
Qed.
Lemma starts_in_old : forall ns n r, starts_in ns r = true -> starts_in (ns ++ [n]) r = true.
Proof. intros ns n [|a r]; cbn; auto. rewrite existsb_app. intros ->. reflexivity. Qed.

Lemma known : forall s q x, wf s -> look (f_root s) q = Some x -> (number x < f_next s)%N.
Proof. intros s q [i|i] Hw H; eapply look_fresh; eauto. Qed.

(** * Steps *)

Lemma merged_extends : forall s u l q D P, wf s -> merged s u l q D P -> (forall r, fits s l (look (f_root s) (q ++ r)) (look (f_root s) (D ++ r))) -> extends s u.
Proof.
  intros s u l q D P Hw M Hfit. split; [|split; [|apply (mg_cwd _ _ _ _ _ _ M)]].
  - intros r x Hx. destruct (below D r) eqn:E; [|rewrite (mg_outside _ _ _ _ _ _ M r E); auto].
    apply below_spec in E as [v ->]. destruct (P v) eqn:EP; [|rewrite (mg_rest _ _ _ _ _ _ M v EP); auto].
    pose proof (mg_places _ _ _ _ _ _ M v EP) as H. pose proof (Hfit v) as F. rewrite Hx in H, F. unfold outcome_at, fits in *.
    destruct (look (f_root s) (q ++ v)) as [y|]; [destruct H|]; congruence.
  - intros r i Hi. destruct (mg_objects _ _ _ _ _ _ M i) as [[H _]|(v & i0 & EP & H1 & H2 & H3)]; [apply (known s r (NLeaf i) Hw Hi)|unfold link_text; rewrite H; auto|].
    pose proof (mg_places _ _ _ _ _ _ M v EP) as H. pose proof (Hfit v) as F. rewrite H1, H2 in H, F. cbn in H, F.
    destruct F as (_ & [d2 F] & _). destruct H as (_ & H). destruct (H _ _ eq_refl eq_refl H3) as (d & _ & B & _). unfold link_text. rewrite B, F. reflexivity.
Qed.

Section Step.
Context (l : list copt_name) (q D : loc) (s u : fs) (ns : list str) (name : str).
Hypothesis (Hw : wf s) (Hwu : wf u) (M : merged s u l q D (starts_in ns)) (Hnew : existsb (str_eqb name) ns = false)
  (B1 : below q D = false) (B2 : below D q = false)
  (Hfit : forall r, fits s l (look (f_root s) (q ++ r)) (look (f_root s) (D ++ r))) (Hap : apart s q D).

Lemma same_source : forall r, look (f_root u) (q ++ r) = look (f_root s) (q ++ r).
Proof. intros r. apply (mg_outside _ _ _ _ _ _ M). apply below_apart; auto. Qed.
Lemma same_target : forall r, look (f_root u) (D ++ name :: r) = look (f_root s) (D ++ name :: r).
Proof. intros r. apply (mg_rest _ _ _ _ _ _ M). exact Hnew. Qed.
Lemma same_source_object : forall r x, look (f_root s) (q ++ r) = Some x -> f_body u (number x) = f_body s (number x) /\ f_meta u (number x) = f_meta s (number x).
Proof.
  intros r x Hx. destruct (mg_objects _ _ _ _ _ _ M (number x) (known _ _ _ Hw Hx)) as [H|(v & i & _ & H1 & H2 & _)]; auto.
  exfalso. apply (proj1 (Hap v i (number x) H1 H2) r x Hx). reflexivity.
Qed.
Lemma same_target_object : forall r i j, look (f_root s) (q ++ name :: r) = Some (NLeaf i) -> look (f_root s) (D ++ name :: r) = Some (NLeaf j) ->
  f_body u j = f_body s j /\ f_meta u j = f_meta s j.
Proof.
  intros r i j Hi Hj. destruct (mg_objects _ _ _ _ _ _ M j (known _ _ _ Hw Hj)) as [H|(v & i2 & EP & H1 & H2 & _)]; auto.
  exfalso. rewrite (proj2 (Hap _ _ _ Hi Hj) v i2 H1 H2) in EP. cbn in EP. congruence.
Qed.
Lemma same_replaces : forall r i j, look (f_root s) (q ++ name :: r) = Some (NLeaf i) -> look (f_root s) (D ++ name :: r) = Some (NLeaf j) ->
  replaces u l i j <-> replaces s l i j.
Proof.
  intros r i j Hi Hj. unfold replaces. destruct (same_target_object r i j Hi Hj) as [_ ->]. destruct (same_source_object _ _ Hi) as [_ H]. cbn [number] in H. rewrite H. tauto.
Qed.

(** The conditions for the entry [name], in the present state. *)
Lemma fits_now : forall r, fits u l (look (f_root u) ((q ++ [name]) ++ r)) (look (f_root u) ((D ++ [name]) ++ r)).
Proof.
  intros r. rewrite <- !app_assoc. cbn [app]. rewrite same_source, same_target. specialize (Hfit (name :: r)). unfold fits in *.
  destruct (look (f_root s) (q ++ name :: r)) as [[i|i]|] eqn:E1; auto; destruct (look (f_root s) (D ++ name :: r)) as [[j|j]|] eqn:E2; auto.
  destruct (same_source_object _ _ E1) as [H _]. cbn [number] in H. rewrite H. rewrite (proj1 (same_target_object _ _ _ E1 E2)). auto.
Qed.
Lemma apart_now : apart u (q ++ [name]) (D ++ [name]).
Proof.
  intros r i j Hi Hj. rewrite <- !app_assoc in Hi, Hj. cbn [app] in Hi, Hj. rewrite same_source in Hi. rewrite same_target in Hj. destruct (Hap _ _ _ Hi Hj) as [H1 H2]. split.
  - intros r2 x Hx. rewrite <- app_assoc in Hx. cbn [app] in Hx. rewrite same_source in Hx. eauto.
  - intros r2 i2 H3 H4. rewrite <- app_assoc in H3, H4. cbn [app] in H3, H4. rewrite same_source in H3. rewrite same_target in H4. pose proof (H2 _ _ H3 H4). congruence.
Qed.

(** One more entry. *)
Lemma merged_step : forall u1, merged u u1 l (q ++ [name]) (D ++ [name]) everywhere -> merged s u1 l q D (starts_in (ns ++ [name])).
Proof.
  intros u1 M1. constructor.
  - intros r Hr. destruct (starts_in ns r) eqn:Er.
    + pose proof (mg_places _ _ _ _ _ _ M r Er) as H. destruct r as [|a r]; [discriminate|].
      assert (Hne : name <> a) by (intros <-; cbn in Er; congruence).
      rewrite (mg_outside _ _ _ _ _ _ M1 (D ++ a :: r)) by (apply below_other; auto).
      unfold outcome_at in *. destruct (look (f_root s) (q ++ a :: r)) as [x|] eqn:E1; auto.
      destruct (look (f_root s) (D ++ a :: r)) as [y|] eqn:E2.
      * destruct H as [H1 H2]. split; auto. intros i j -> -> Hr'. destruct (H2 _ _ eq_refl eq_refl Hr') as (d & X1 & X2 & X3). exists d.
        destruct (mg_objects _ _ _ _ _ _ M1 j) as [[-> ->]|(v & i2 & _ & Y1 & Y2 & _)]; auto.
        { pose proof (known _ _ _ Hw E2) as K. cbn in K. pose proof (mg_next _ _ _ _ _ _ M). lia. }
        exfalso. rewrite <- app_assoc in Y1, Y2. cbn [app] in Y1, Y2. rewrite same_source in Y1. rewrite same_target in Y2.
        pose proof (proj2 (Hap _ _ _ E1 E2) _ _ Y1 Y2) as Y. injection Y as -> _. congruence.
      * destruct H as [H1 H2]. split; auto.
        assert (Hsame : forall y, look (f_root u) (D ++ a :: r) = Some y -> f_body u1 (number y) = f_body u (number y) /\ f_meta u1 (number y) = f_meta u (number y)).
        { intros y Hy. destruct (mg_objects _ _ _ _ _ _ M1 (number y) (known _ _ _ Hwu Hy)) as [X|(v & i2 & _ & Y1 & Y2 & _)]; auto.
          exfalso. rewrite <- app_assoc in Y2. cbn [app] in Y2. rewrite same_target in Y2. pose proof (known _ _ _ Hw Y2) as K. cbn in K. specialize (H2 _ Hy). lia. }
        unfold same_object in *. destruct x as [i|i]; destruct (look (f_root u) (D ++ a :: r)) as [[j|j]|] eqn:E3; auto.
        { destruct (Hsame _ eq_refl) as [X1 X2]. cbn [number] in X1, X2. rewrite X1, X2. auto. }
        { destruct (Hsame _ eq_refl) as [X1 X2]. cbn [number] in X1, X2. rewrite X2. auto. }
    + destruct (starts_in_snoc _ _ _ Hr) as [H|[r' ->]]; [congruence|].
      pose proof (mg_places _ _ _ _ _ _ M1 r' eq_refl) as H. rewrite <- !app_assoc in H. cbn [app] in H. rewrite same_source, same_target in H.
      unfold outcome_at in *. destruct (look (f_root s) (q ++ name :: r')) as [x|] eqn:E1; auto. destruct (same_source_object _ _ E1) as [X1 X2].
      destruct (look (f_root s) (D ++ name :: r')) as [y|] eqn:E2.
      * destruct H as [H1 H2]. split; auto. intros i j -> -> Hr'. destruct (H2 _ _ eq_refl eq_refl (proj2 (same_replaces _ _ _ E1 E2) Hr')) as (d & Y1 & Y2 & Y3).
        exists d. cbn [number] in X1, X2. rewrite <- X1, <- X2. auto.
      * destruct H as [H1 H2]. split.
        { unfold same_object in *. destruct x as [i|i]; destruct (look (f_root u1) (D ++ name :: r')) as [[j|j]|]; auto; cbn [number] in X1, X2; rewrite <- ?X1, <- ?X2; auto. }
        { intros z Hz. specialize (H2 z Hz). pose proof (mg_next _ _ _ _ _ _ M). lia. }
  - intros r Hr. destruct (starts_in_not _ _ _ Hr) as [H1 H2]. rewrite <- (mg_rest _ _ _ _ _ _ M r H1). apply (mg_outside _ _ _ _ _ _ M1).
    destruct H2 as [->|(a & r' & -> & Ha)]; [rewrite app_nil_r; apply below_longer|apply below_other; auto].
  - intros r Hr. rewrite <- (mg_outside _ _ _ _ _ _ M r Hr). apply (mg_outside _ _ _ _ _ _ M1). apply below_cut. auto.
  - intros r H1 H2. rewrite <- (mg_trees _ _ _ _ _ _ M r H1 H2). apply (mg_trees _ _ _ _ _ _ M1); [apply below_cut; auto|].
    destruct (below r (D ++ [name])) eqn:E; auto. exfalso. apply below_snoc_parent in E as [E|E]; [congruence|]. subst r. rewrite below_app in H1. discriminate.
  - intros x Hx. destruct (mg_objects _ _ _ _ _ _ M x Hx) as [[X1 X2]|(v & i & P1 & P2 & P3 & P4)].
    + destruct (mg_objects _ _ _ _ _ _ M1 x) as [[Y1 Y2]|(v & i & _ & P2 & P3 & P4)].
      { pose proof (mg_next _ _ _ _ _ _ M). lia. }
      { left. split; congruence. }
      right. rewrite <- app_assoc in P2, P3. cbn [app] in P2, P3. rewrite same_source in P2. rewrite same_target in P3.
      exists (name :: v), i. split; [|split; [auto|split; [auto|apply (same_replaces _ _ _ P2 P3); auto]]].
      cbn. rewrite existsb_app. cbn. rewrite str_eqb_refl, orb_true_r. reflexivity.
    + right. exists v, i. auto using starts_in_old.
  - pose proof (mg_next _ _ _ _ _ _ M). pose proof (mg_next _ _ _ _ _ _ M1). lia.
  - rewrite (mg_cwd _ _ _ _ _ _ M1). apply (mg_cwd _ _ _ _ _ _ M).
Qed.
End Step.

(** * One entry *)

Lemma planted_merged : forall u u1 l q D name c c' j dl, get (f_root u) D = Some (Dir j dl) -> assoc name dl = None -> get (f_root u) q = Some c ->
  planted u u1 D name c c' -> merged u u1 l q (D ++ [name]) everywhere.
Proof.
  intros u u1 l q D name c c' j dl Hg Ha Hc (P1 & P2 & P3 & P4 & P5 & P6 & P7).
  assert (Hnone : forall r, look (f_root u) ((D ++ [name]) ++ r) = None).
  { intros r. unfold look. rewrite <- app_assoc, get_app, Hg. cbn. rewrite Ha. reflexivity. }
  assert (Hnew : forall r, look (f_root u1) ((D ++ [name]) ++ r) = look c' r).
  { intros r. unfold look. rewrite P1, <- app_assoc. cbn [app]. rewrite (get_insert_new D name c' _ j dl r Hg Ha). reflexivity. }
  constructor.
  - intros r _. rewrite Hnone, Hnew. assert (E : look (f_root u) (q ++ r) = look c r) by (unfold look; rewrite get_app, Hc; auto). rewrite E.
    specialize (P2 r). unfold outcome_at. destruct (look c r) as [x|].
    { split; [exact P2|]. intros y Hy. apply (P7 r y Hy). }
    destruct (look c' r) as [[z|z]|]; [exact (False_ind _ P2)|exact (False_ind _ P2)|reflexivity].
  - discriminate.
  - intros r Hr. rewrite P1. eapply look_insert_out; eauto.
  - intros r H1 H2. rewrite P1. apply (get_insert_out D name c' (f_root u) j dl); auto. eapply below_snoc_false; eauto.
  - intros x Hx. left. auto.
  - lia.
  - apply P5.
Qed.

Lemma same_state_merged : forall s s' l q D i j, same_state s s' -> look (f_root s) q = Some (NLeaf i) -> look (f_root s) D = Some (NLeaf j) -> ~ replaces s l i j ->
  merged s s' l q D everywhere.
Proof.
  intros s s' l q D i j (R1 & R2 & R3 & R4 & R5 & _) Hi Hj Hn. constructor; try (unfold same_outside; intros; rewrite ?R1; auto; fail).
  - intros r _. rewrite R1. unfold outcome_at. destruct r as [|a r].
    + rewrite !app_nil_r, Hi, Hj. split; auto. intros i' j' Ei Ej Hr. congruence.
    + replace (look (f_root s) (q ++ a :: r)) with (@None node); auto. symmetry. apply look_None. apply look_leaf in Hi. rewrite get_app, Hi. reflexivity.
  - intros x _. left. rewrite R2, R3. auto.
  - rewrite R4. lia.
Qed.

Lemma replaces_dec : forall s l i j, {replaces s l i j} + {~ replaces s l i j}.
Proof.
  intros s l i j. assert (D : forall c, {In c l} + {~ In c l}) by (intros c; apply in_dec; decide equality).
  unfold replaces. destruct (D co_skip_existing); [right; tauto|]. destruct (D co_update_existing).
  - destruct (newer (m_mtime (f_meta s i)) (m_mtime (f_meta s j))) eqn:E; [left; apply newer_later in E; tauto|right].
    intros (_ & [[_ H]|[H _]]); [apply newer_later in H; congruence|auto].
  - destruct (D co_overwrite_existing); [left; tauto|right; tauto].
Qed.

Lemma merge_file : forall cf k l s n has from to q D i j d d2, wf s -> canon from -> canon to -> copying_tree l ->
  sees k s (native from) (from_follows l) (Val (NLeaf i)) -> is_file k s (native from) q i d -> is_file k s (native to) D j d2 -> i <> j ->
  (In co_skip_existing l \/ In co_update_existing l \/ In co_overwrite_existing l) -> safe_transfer cf k d -> length d < n ->
  exists s', run (fsk k) (copy_impl cf (S n) has from to (options l)) s = Done (tt, None) s' /\ merged s s' l q D everywhere /\ same_process s s'.
Proof.
  intros cf k l s n has from to q D i j d d2 Hw Cf Ct (Hrec & Hcs & Hsk & Hhl & Hdo) Hs Hfile Hto Hij Hopt Hsafe Hn.
  destruct (file_leads _ _ _ _ _ _ Hto) as (lk2 & T1 & T2). pose proof Hto as (_ & _ & LD & Bj). pose proof Hfile as (_ & _ & Lq & Bi).
  assert (Ht : sees k s (native to) (to_follows l) (Val (NLeaf j))) by (left; [split; auto|]; rewrite T1; cbn; rewrite LD; reflexivity).
  destruct (C33_file_copied cf k s n has from to l (NLeaf i) (Val (NLeaf j)) Cf Ct Hs) as (to2 & Hl2 & Hr); auto.
  { cbn. rewrite Bi. auto. }
  { cbn. rewrite Bj. split; [left; auto|]. split; [intros [H _]; rewrite Bi in H; discriminate|exact Hij]. }
  cbn [lands type_of] in Hl2. rewrite Bj in Hl2. change (to2 = to) in Hl2. subst to2.
  destruct (replaces_dec s l i j) as [Hrep|Hrep].
  - pose proof Hrep as (R1 & R2). apply options_unset in R1.
    destruct (node_file _ _ _ _ _ _ Hto) as [N1 N2].
    destruct (run_copy_old cf k s n has from to (options l) q i d j d2 Hw Hfile Hn N2 Bj (not_eq_sym Hij) R1) as [_ H].
    { destruct R2 as [[U L]|[U O]]; [apply options_set in U; rewrite U; auto|apply options_unset in U; apply options_set in O; rewrite U; auto]. }
    destruct (H N1) as (s' & d' & Q1 & Q2 & Q3 & Q4 & Q5 & Q6). rewrite Q1 in Hr. exists s'. split; [exact Hr|]. specialize (Q3 Hsafe). subst d'.
    destruct Q2 as (q2 & j2 & C1 & C2 & C3 & C4 & C5 & C6 & C7 & C8 & C9).
    assert (j2 = j). { destruct C1 as (lk3 & E1 & E2). rewrite Q6, T1 in E1. injection E1 as _ <-. rewrite Q4, LD in E2. congruence. } subst j2.
    split; [|exact C9]. constructor; try (unfold same_outside; intros; rewrite ?Q4; auto; fail).
    + intros r _. rewrite Q4. unfold outcome_at. destruct r as [|a r].
      * rewrite !app_nil_r, Lq, LD. split; auto. intros i' j' Ei Ej _. injection Ei as <-. injection Ej as <-. eauto.
      * replace (look (f_root s) (q ++ a :: r)) with (@None node); auto. symmetry. apply look_None. apply look_leaf in Lq. rewrite get_app, Lq. reflexivity.
    + intros x _. destruct (N.eq_dec x j) as [->|Hx]; [right; exists [], i; rewrite !app_nil_r; auto|left; auto].
    + rewrite Q5. lia.
    + apply C9.
  - destruct (C31_table_partial cf k s n has from to l Hw) as [_ T]. destruct (T q i d Hfile Hn) as (_ & _ & _ & T4 & _).
    destruct (T4 D j d2 ltac:(exists lk2; auto) Bj (not_eq_sym Hij)) as (X1 & X2 & _).
    assert (Hdec : declines k s (fun has => copy_file_impl cf n has from to (options l)) has).
    { assert (Dc : forall c, {In c l} + {~ In c l}) by (intros c; apply in_dec; decide equality).
      destruct (Dc co_skip_existing) as [H|H]; [auto|]. destruct (Dc co_update_existing) as [H1|H1].
      - apply X2; auto. intros HL. apply Hrep. split; auto.
      - exfalso. apply Hrep. split; auto. right. split; auto. tauto. }
    destruct Hdec as (s' & R & St). rewrite R in Hr. exists s'. split; [exact Hr|]. split; [eapply same_state_merged; eauto|apply St].
Qed.

(** * A directory *)

Definition merges_tree (cf : config) (k : choices) (l : list copt_name) (c : tree) : Prop :=
  forall s n has from to q D (b : bool) lk lk2 B y, wf s -> canon from -> canon to -> (if b then from_follows l else ~ from_follows l) ->
  find_at k s b (native from) = Found lk q -> get (f_root s) q = Some c -> (forall i, c = Leaf i -> find_at k s false (native from) = Found lk q) ->
  find_at k s true (native to) = Found lk2 D -> look (f_root s) D = Some y -> (forall j, y = NLeaf j -> find_at k s false (native to) = Found lk2 D) ->
  below q D = false -> below D q = false ->
  (forall r, fits s l (look (f_root s) (q ++ r)) (look (f_root s) (D ++ r))) -> apart s q D ->
  (forall r i, look c r = Some (NLeaf i) -> copyable cf k s l i /\ short s B i) ->
  size c + B <= n ->
  exists s', run (fsk k) (copy_impl cf n has from to (options l)) s = Done (tt, None) s' /\ merged s s' l q D everywhere /\ same_process s s'.

Lemma merged_start : forall s u l q D, f_root u = f_root s -> f_body u = f_body s -> f_meta u = f_meta s -> f_next u = f_next s -> f_cwd u = f_cwd s ->
  merged s u l q D (starts_in []).
Proof.
  intros s u l q D H1 H2 H3 H4 H5. constructor.
  - intros [|a r] H; discriminate.
  - intros; rewrite H1; auto.
  - intros r _. rewrite H1. auto.
  - intros; rewrite H1; auto.
  - intros x _. left. rewrite H2, H3. auto.
  - rewrite H4. lia.
  - auto.
Qed.
Lemma merged_dirs : forall s u l q D P ds, merged s u l q D P -> merged s (set_dirs u ds) l q D P.
Proof. intros s u l q D P ds [H1 H2 H3 H4 H5 H6 H7]. constructor; auto. Qed.

Lemma merged_all : forall s u l q D i j es, get (f_root s) q = Some (Dir i es) -> look (f_root s) D = Some (NDir j) ->
  merged s u l q D (starts_in (map fst es)) -> merged s u l q D everywhere.
Proof.
  intros s u l q D i j es Hg HD M. constructor; try apply M.
  - intros r _. destruct (starts_in (map fst es) r) eqn:E; [apply (mg_places _ _ _ _ _ _ M r E)|]. rewrite (mg_rest _ _ _ _ _ _ M r E).
    destruct r as [|a r].
    + rewrite !app_nil_r, HD. unfold outcome_at. destruct (look (f_root s) q); auto. split; auto. intros; discriminate.
    + replace (look (f_root s) (q ++ a :: r)) with (@None node); [reflexivity|]. symmetry. apply look_None. rewrite get_app, Hg. cbn [get].
      replace (assoc a es) with (@None tree); auto. symmetry. apply assoc_None. intros Hin. cbn in E.
      assert (existsb (str_eqb a) (map fst es) = true); [|congruence]. apply existsb_exists. exists a. split; auto. apply str_eqb_refl.
  - discriminate.
  - intros x Hx. destruct (mg_objects _ _ _ _ _ _ M x Hx) as [H|(r & i0 & _ & H)]; [left; auto|right; exists r, i0; split; [reflexivity|auto]].
Qed.

Section Directory.
Context (cf : config) (k : choices) (l : list copt_name) (has : bool) (from to : path) (q D : loc) (i j : N)
  (s : fs) (b : bool) (lk lk2 : nat) (B n : nat).
Hypothesis (Hw : wf s) (Cf : canon from) (Ct : canon to) (Hl : copying_tree l) (Hb : if b then from_follows l else ~ from_follows l)
  (Hf : find_at k s true (native from) = Found lk q) (Ht : find_at k s true (native to) = Found lk2 D) (HD : look (f_root s) D = Some (NDir j))
  (B1 : below q D = false) (B2 : below D q = false)
  (Hfit : forall r, fits s l (look (f_root s) (q ++ r)) (look (f_root s) (D ++ r))) (Hap : apart s q D)
  (Hok : forall r x, look (f_root s) (q ++ r) = Some (NLeaf x) -> copyable cf k s l x /\ short s B x).

Lemma run_merge_entry : forall l1 name c rest u p' d h, wf u ->
  get (f_root s) q = Some (Dir i (l1 ++ (name, c) :: rest)) -> merges_tree cf k l c -> size c + B <= n ->
  merged s u l q D (starts_in (map fst l1)) -> canon p' -> native p' = append_text (native from) name ->
  exists u1, run (fsk k) (let! e := dir_iter_deref cf (Some (Stream (Some h) from (Entry p' d))) in
             let! fn := lift (filename Posix (de_path e)) in
             let! to2 := lift (path_div Posix (cf_el cf) to fn) in
             copy_impl cf n has (de_path e) to2 (options l)) u = Done (tt, None) u1 /\ wf u1 /\
    merged s u1 l q D (starts_in (map fst (l1 ++ [(name, c)]))) /\ same_process u u1.
Proof.
  intros l1 name c rest u p' d h Hwu Hg Hc Hsz M Cp' Np'.
  pose proof (wf_get _ _ _ (wf_root s Hw) Hg) as Hwt. apply wf_tree_dir in Hwt as (Hnd & Hgn & _).
  assert (Hname : good_name name = true) by (rewrite Forall_app in Hgn; destruct Hgn as [_ Hgn]; inversion Hgn; auto).
  assert (Hnot : ~ In name (map fst l1)). { rewrite map_app in Hnd. cbn in Hnd. apply NoDup_remove_2 in Hnd. intros H. apply Hnd. apply in_or_app. auto. }
  assert (Hnew : existsb (str_eqb name) (map fst l1) = false).
  { destruct (existsb (str_eqb name) (map fst l1)) eqn:E; auto. exfalso. apply existsb_exists in E as (x & Hx & E). apply str_eqb_spec in E. subst x. auto. }
  assert (Hgc : get (f_root s) (q ++ [name]) = Some c).
  { rewrite get_snoc, Hg, assoc_app. replace (assoc name l1) with (@None tree) by (symmetry; apply assoc_None; auto). cbn. rewrite str_eqb_refl. reflexivity. }
  assert (He : extends s u) by (eapply merged_extends; eauto).
  assert (Bc1 : below (q ++ [name]) (D ++ [name]) = false).
  { destruct (below (q ++ [name]) (D ++ [name])) eqn:E; auto. exfalso. apply below_snoc_parent in E as [E|E].
    - apply below_spec in E as [v E]. rewrite E, <- app_assoc, below_app in B1. discriminate.
    - apply app_inj_tail in E as [E _]. rewrite E, below_refl in B1. discriminate. }
  assert (Bc2 : below (D ++ [name]) (q ++ [name]) = false).
  { destruct (below (D ++ [name]) (q ++ [name])) eqn:E; auto. exfalso. apply below_snoc_parent in E as [E|E].
    - apply below_spec in E as [v E]. rewrite E, <- app_assoc, below_app in B2. discriminate.
    - apply app_inj_tail in E as [E _]. rewrite E, below_refl in B2. discriminate. }
  assert (Hgu : get (f_root u) (q ++ [name]) = Some c).
  { rewrite (mg_trees _ _ _ _ _ _ M); auto; [apply below_apart; auto|]. apply below_cut. auto. }
  assert (Hqu : look (f_root u) q = Some (NDir i)). { apply He. apply look_dir. eauto. }
  assert (Hfu : find_at k u true (native from) = Found lk q) by (eapply find_extends; eauto).
  assert (HDu : look (f_root u) D = Some (NDir j)) by (apply He; auto).
  assert (Htu : find_at k u true (native to) = Found lk2 D) by (eapply find_extends; eauto).
  destruct (filename_child p' _ name Cp' Np' Hname) as (fn & Ef & Cfn & Nfn).
  destruct (gives_div (cf_el cf) to fn Ct Cfn) as (to2 & Eto & Cto & Nto).
  rewrite Nfn in Nto. rewrite append_collapse in Nto; [|apply canon_native; auto|rewrite <- Nfn; apply canon_native; auto].
  assert (Hlook : forall r x, look c r = Some x -> look (f_root s) (q ++ name :: r) = Some x).
  { intros r x Hx. unfold look in *. change (q ++ name :: r) with (q ++ [name] ++ r). rewrite app_assoc, get_app, Hgc. auto. }
  assert (Hbody : forall r x, look c r = Some (NLeaf x) -> f_body u x = f_body s x).
  { intros r x Hx. apply Hlook in Hx. destruct (same_source_object l q D s u (map fst l1) Hw M Hap _ _ Hx) as [H _]. exact H. }
  assert (Hokc : forall r x, look c r = Some (NLeaf x) -> copyable cf k u l x /\ short u B x).
  { intros r x Hx. destruct (Hok (name :: r) x (Hlook r _ Hx)) as [H1 H2]. unfold copyable, short in *. rewrite (Hbody r x Hx). auto. }
  assert (Hsrc : find_at k u b (native p') = Found lk (q ++ [name])).
  { rewrite Np'. eapply child_found; eauto. intros x ->. destruct (Hokc [] x eq_refl) as [[(e & Be & _)|(e & Be & Ce & _)] _].
    - left. unfold link_text. rewrite Be. auto.
    - right. destruct b; auto. destruct Hb as (_ & _ & Hb3). contradiction. }
  assert (Hsrcf : forall x, c = Leaf x -> find_at k u false (native p') = Found lk (q ++ [name])).
  { intros x ->. rewrite Np'. eapply child_found; eauto. }
  assert (Hstep : exists u1, run (fsk k) (copy_impl cf n has p' to2 (options l)) u = Done (tt, None) u1 /\
    merged u u1 l (q ++ [name]) (D ++ [name]) everywhere /\ same_process u u1).
  { destruct (look (f_root u) (D ++ [name])) as [y|] eqn:Ly.
    - assert (Hfity : fits u l (look (f_root u) (q ++ [name])) (Some y)).
      { pose proof (fits_now l q D s u (map fst l1) name Hw M Hnew B1 B2 Hfit Hap []) as H. rewrite !app_nil_r, Ly in H. exact H. }
      assert (Hlc : look (f_root u) (q ++ [name]) = Some (node_of c)) by (unfold look; rewrite Hgu; reflexivity). rewrite Hlc in Hfity.
      assert (Hnl : forall x, y = NLeaf x -> link_text u x = None).
      { intros x ->. destruct c as [x0|x0 es0]; cbn in Hfity; [|contradiction]. destruct Hfity as (_ & [d2 E] & _). unfold link_text. rewrite E. auto. }
      assert (Hfy : forall last, find_at k u last (native to2) = Found lk2 (D ++ [name])).
      { intros last. rewrite Nto, (find_child k u last (native to) name lk2 D j Hwu Htu HDu Hname), (steps_child _ _ _ _ _ _ j HDu Hname), Ly.
        destruct y as [y|y]; auto. rewrite (Hnl y eq_refl). reflexivity. }
      apply (Hc u n has p' to2 (q ++ [name]) (D ++ [name]) b lk lk2 B y); auto.
      + apply (fits_now l q D s u (map fst l1) name Hw M Hnew B1 B2 Hfit Hap).
      + apply (apart_now l q D s u (map fst l1) name M Hnew B1 B2 Hap).
    - pose proof (proj1 (look_dir _ _ _) HDu) as (dl & HgD).
      assert (Ha : assoc name dl = None). { apply look_None in Ly. rewrite get_snoc, HgD in Ly. exact Ly. }
      assert (Hvac : forall last, find_at k u last (native to2) = Missing D name).
      { intros last. rewrite Nto, (find_child k u last (native to) name lk2 D j Hwu Htu HDu Hname), (steps_child _ _ _ _ _ _ j HDu Hname), Ly. reflexivity. }
      assert (Hvace : find_entry k u (native to2) = Missing D name).
      { rewrite Nto, (entry_child k u (native to) name lk2 D j Hwu Htu HDu Hname), (steps_child _ _ _ _ _ _ j HDu Hname), Ly. reflexivity. }
      destruct (copies_any cf k l c Hl u n has p' to2 (q ++ [name]) D name b lk B) as (u1 & c' & Hr & Hpl); auto.
      { intros x Hx. split; [apply (Hsrcf x Hx)|exact Hvac]. }
      exists u1. split; [exact Hr|]. split; [eapply planted_merged; eauto|]. destruct Hpl as (_ & _ & _ & _ & H & _). exact H. }
  destruct Hstep as (u1 & Hr & M1 & Hp). exists u1. split.
  { cbn [dir_iter_deref ds_entry]. rewrite run_bind. cbn [run de_path]. rewrite run_bind, Ef. cbn [lift run]. rewrite run_bind, Eto. cbn [lift run]. exact Hr. }
  split.
  { pose proof (wf_run _ k (copy_impl cf n has p' to2 (options l)) u Hwu) as H. rewrite Hr in H. exact H. }
  split; [|exact Hp]. rewrite map_app. cbn [map fst]. eapply merged_step; eauto.
Qed.

Lemma run_merge_rest : forall s0 h ds rest l1 name c u p' d kf, wf u ->
  get (f_root s) q = Some (Dir i (l1 ++ (name, c) :: rest)) -> Forall (fun e => merges_tree cf k l (snd e) /\ size (snd e) + B <= n) ((name, c) :: rest) ->
  f_dirs u = (h, listing k s0 rest) :: ds ->
  merged s u l q D (starts_in (map fst l1)) -> canon p' -> native p' = append_text (native from) name ->
  S (length rest) < kf -> 1 <= n ->
  exists s', run (fsk k) (copy_loop cf (fun a b => copy_impl cf n has a b (options l)) n has from to kf (Some (Stream (Some h) from (Entry p' d))) None) u = Done (tt, None) s' /\
    merged s s' l q D (starts_in (map fst (l1 ++ (name, c) :: rest))) /\ same_process (set_dirs u ds) s'.
Proof.
  intros s0 h ds. induction rest as [|[name2 c2] rest IH]; intros l1 name c u p' d kf Hwu Hg HF Hd M Cp' Np' Hk Hn;
    (destruct kf as [|kf]; [cbn in Hk; lia|]); (assert (En : exists n', n = S n') by (destruct n; [lia|eauto])); destruct En as [n' En];
    inversion HF as [|? ? [Hc Hsz] HF']; subst x l0; cbn [snd] in Hc, Hsz;
    destruct (run_merge_entry l1 name c _ u p' d h Hwu Hg Hc Hsz M Cp' Np') as (u1 & Hr & Hwu1 & M1 & (X1 & X2 & X3 & X4)).
  - exists (set_dirs u1 ds). split; [|split].
    + cbn [copy_loop is_end failed]. rewrite run_bind, run_unwinding, Hr. cbn [failed snd]. rewrite run_bind. unfold dir_iter_increment. replace (advance cf n) with (advance cf (S n')) by (rewrite En; reflexivity). rewrite run_bind.
      rewrite (fs_advance_end cf k n' u1 h ds) by (rewrite X3; exact Hd). cbn iota. cbn [failed run fst snd]. destruct kf; [cbn in Hk; lia|]. reflexivity.
    + apply merged_dirs. exact M1.
    + repeat split; auto.
  - pose proof (wf_get _ _ _ (wf_root s Hw) Hg) as Hwt. apply wf_tree_dir in Hwt as (_ & Hgn & _).
    assert (Hname2 : good_name name2 = true).
    { rewrite Forall_forall in Hgn. apply (Hgn (name2, c2)). apply in_or_app. right. right. left. auto. }
    assert (Hd1' : f_dirs u1 = (h, (name2, dtype_of k s0 c2) :: listing k s0 rest) :: ds) by (rewrite X3; exact Hd).
    destruct (fs_advance cf k n' u1 h name2 (dtype_of k s0 c2) (listing k s0 rest) ds from (Entry p' d) Hd1' Hname2 (dtype_of_ok _ _ _) Cf) as (p2 & Hadv & Cp2 & Np2).
    set (u2 := set_dirs u1 ((h, listing k s0 rest) :: ds)) in *.
    assert (Hwu2 : wf u2) by (eapply wf_unchanged; [exact Hwu1|reflexivity|reflexivity]).
    destruct (IH (l1 ++ [(name, c)]) name2 c2 u2 p2 (iter_data d (told (dtype_of k s0 c2))) kf) as (s' & Hrun & Hfin & Hp); auto.
    + rewrite <- app_assoc. exact Hg.
    + apply merged_dirs. exact M1.
    + cbn in Hk |- *. lia.
    + exists s'. split; [|split].
      * cbn [copy_loop is_end failed]. rewrite run_bind, run_unwinding, Hr. cbn [failed snd]. rewrite run_bind. unfold dir_iter_increment. replace (advance cf n) with (advance cf (S n')) by (rewrite En; reflexivity). rewrite run_bind, Hadv.
        cbn iota. cbn [run fst snd de_data]. exact Hrun.
      * rewrite <- app_assoc in Hfin. exact Hfin.
      * destruct Hp as (Y1 & Y2 & Y3 & Y4). cbn in Y1, Y2, Y3, Y4. repeat split; cbn; congruence.
Qed.
End Directory.

Lemma merges_any : forall cf k l c, copying_tree l -> merges_tree cf k l c.
Proof.
  intros cf k l c Hl. induction c as [i|i es IH] using tree_ind'.
  - intros s n has from to q D b lk lk2 B y Hw Cf Ct Hb Hf Hg Hf2 Ht Hy Ht2 B1 B2 Hfit Hap Hok Hn.
    destruct n as [|n]; [cbn in Hn; lia|]. specialize (Hf2 i eq_refl). pose proof Hg as Hq. apply look_leaf in Hq.
    pose proof (Hfit []) as F. rewrite !app_nil_r, Hq, Hy in F. destruct y as [j|j]; [|destruct F].
    destruct F as ([d Bd] & [d2 Bj] & Hopt). destruct (Hok [] i eq_refl) as [Hc Hsh].
    destruct Hc as [(d' & Bd' & Sd)|(x & Bx & _)]; [|congruence]. rewrite Bd in Bd'. injection Bd' as <-.
    assert (Hij : i <> j).
    { pose proof (Hap [] i j) as A. rewrite !app_nil_r in A. destruct (A Hq Hy) as [A1 _]. specialize (A1 [] (NLeaf i)). rewrite app_nil_r in A1. apply A1. auto. }
    apply (merge_file cf k l s n has from to q D i j d d2); auto.
    + destruct b; [left|right]; auto; rewrite Hf; cbn; rewrite Hq; reflexivity.
    + exists lk. auto.
    + exists lk2. split; [apply (Ht2 j eq_refl)|auto].
    + specialize (Hsh d Bd). cbn in Hn. lia.
  - intros s n has from to q D b lk lk2 B y Hw Cf Ct Hb Hf Hg _ Ht Hy _ B1 B2 Hfit Hap Hok Hn.
    destruct n as [|n]; [cbn in Hn; lia|].
    assert (Hq : look (f_root s) q = Some (NDir i)) by (apply look_dir; eauto).
    pose proof (Hfit []) as F. rewrite !app_nil_r, Hq, Hy in F. destruct y as [j|j]; [destruct F|]. cbn in F.
    assert (Hft : find_at k s true (native from) = Found lk q) by (destruct b; auto; eapply find_dir_true; eauto).
    assert (Hs : sees k s (native from) (from_follows l) (Val (NDir i))).
    { destruct b; [left|right]; auto; rewrite Hf; cbn; rewrite Hq; reflexivity. }
    pose proof Hl as (Hrec & Hcs & Hsk & Hhl & Hdo).
    assert (Hto : sees k s (native to) (to_follows l) (Val (NDir j))) by (left; [split; auto|]; rewrite Ht; cbn; rewrite Hy; reflexivity).
    assert (Hrun : run (fsk k) (copy_impl cf (S n) has from to (options l)) s =
      run (fsk k) (let! i := dir_iter_ctor cf n has from 0 in if failed (snd i) then Ret (tt, snd i)
        else copy_loop cf (fun a b => copy_impl cf n has a b (options l)) n has from to n (fst i) None) s).
    { rewrite (run_copy_suits cf k s n has from to l (NDir i) (Val (NDir j)) Hs Hto); [|right; left; auto|].
      2:{ split; [right; left; auto|]. split; [intros [_ H]; discriminate|exact F]. }
      unfold copy_tail. destruct (type_tests s (NDir i)) as (-> & -> & ->). cbn [type_of]. change (file_type_eqb ft_directory ft_symlink) with false.
      change (file_type_eqb ft_directory ft_regular) with false. change (file_type_eqb ft_directory ft_directory) with true. cbv iota. cbn [andb].
      apply options_unset in Hcs. rewrite Hcs.
      assert (Hr : co_set co_recursive (options l) || (options l =? 0)%N = true).
      { destruct Hrec as [H| ->]; [|reflexivity]. apply options_set in H. rewrite H. reflexivity. }
      rewrite Hr. cbn [to_status]. destruct (status_of_exists s (NDir j)) as [-> _]. reflexivity. }
    rewrite Hrun, run_bind. assert (Hlen : length es + 3 < n) by (cbn in Hn; lia).
    destruct es as [|[name c] rest].
    + rewrite (fs_ctor_empty cf k n s has from lk q i Hft Hg) by lia. cbn [failed snd fst]. destruct n as [|n]; [lia|].
      cbn [copy_loop is_end run]. exists (new_handle s). split; [reflexivity|]. split; [|repeat split].
      apply (merged_all s _ l q D i j [] Hg Hy). apply merged_start; reflexivity.
    + destruct (fs_ctor_cons cf k n s has from lk q i name c rest Hw Cf Hft Hg) as (p' & Cp' & Np' & Hctor); [lia|]. rewrite Hctor. cbn [failed snd fst].
      set (u := opened s (listing k s rest)) in *.
      assert (Hwu : wf u) by (eapply wf_unchanged; [exact Hw|reflexivity|reflexivity]).
      destruct (run_merge_rest cf k l has from to q D i j s b lk lk2 B n Hw Cf Ct Hl Hb Hft Ht Hy B1 B2 Hfit Hap) with
        (s0 := s) (h := f_handle s) (ds := f_dirs s) (rest := rest) (l1 := @nil (str * tree)) (name := name) (c := c) (u := u) (p' := p')
        (d := iter_data cache_reset (told (dtype_of k s c))) (kf := n) as (s' & Hfin & M & Hp); auto.
      * intros r x Hx. apply (Hok r). unfold look in *. rewrite get_app, Hg in Hx. exact Hx.
      * rewrite Forall_forall in IH |- *. intros e He. split; [apply IH; auto|]. pose proof (size_in _ _ He). cbn [size length] in Hn. unfold list_sum in *. lia.
      * apply merged_start; reflexivity.
      * cbn [length] in Hlen. lia.
      * lia.
      * exists s'. split; [exact Hfin|]. split; [apply (merged_all s s' l q D i j _ Hg Hy M)|exact Hp].
Qed.

(** * C99 *)

(** The copy of a directory of files and directories (and of symlinks, with copy_symlinks) into an existing directory, neither of them inside the other. If the two
    trees fit together and share no file, no error is reported. At every place: what only the destination has stays, what only the source has is
    copied, directories stay, and files that both have are replaced or stay, as the options say. Nothing else changes, nor does the source. *)
Theorem C99_merge : forall cf k s l has from to q i D j, wf s -> canon from -> canon to -> copying_tree l ->
  sees k s (native from) (from_follows l) (Val (NDir i)) -> leads_to k s (native from) q (NDir i) -> leads_to k s (native to) D (NDir j) ->
  below q D = false -> below D q = false ->
  (forall r, fits s l (look (f_root s) (q ++ r)) (look (f_root s) (D ++ r))) -> apart s q D ->
  (forall r x, look (f_root s) (q ++ r) = Some (NLeaf x) -> copyable cf k s l x) ->
  exists N, forall n, N <= n -> exists s', run (fsk k) (copy_impl cf n has from to (options l)) s = Done (tt, None) s' /\
    (forall r, outcome_at s s' l (look (f_root s) (q ++ r)) (look (f_root s) (D ++ r)) (look (f_root s') (D ++ r))) /\
    same_outside s s' D /\
    (forall x, (x < f_next s)%N -> (f_body s' x = f_body s x /\ f_meta s' x = f_meta s x) \/
       (exists r i, look (f_root s) (q ++ r) = Some (NLeaf i) /\ look (f_root s) (D ++ r) = Some (NLeaf x) /\ replaces s l i x)) /\
    (forall r, look (f_root s') (q ++ r) = look (f_root s) (q ++ r)) /\
    (forall r x, look (f_root s) (q ++ r) = Some x -> f_body s' (number x) = f_body s (number x) /\ f_meta s' (number x) = f_meta s (number x)) /\
    same_process s s'.
Proof.
  intros cf k s l has from to q i D j Hw Cf Ct Hl Hs (lk & Hf & Hq) (lk2 & Ht & HD) B1 B2 Hfit Hap Hok.
  pose proof Hq as Hq'. apply look_dir in Hq' as (es & Hg).
  destruct (bound_exists s (Dir i es)) as [B HB]. exists (size (Dir i es) + B). intros n Hn.
  assert (Hsrc : exists (b : bool) lk, (if b then from_follows l else ~ from_follows l) /\ find_at k s b (native from) = Found lk q).
  { inversion Hs as [H1 H2|H1 H2]; [exists true, lk; auto|]. exists false. destruct (find_at k s false (native from)) as [l2 q2| |] eqn:F; try discriminate.
    cbn [node_at] in H2. destruct (look (f_root s) q2) eqn:L; [|discriminate]. injection H2 as ->. pose proof (find_dir_true _ _ _ _ _ _ F L) as F2. rewrite Hf in F2. injection F2 as <- <-. eauto. }
  destruct Hsrc as (b & lk' & Hb & Hf').
  destruct (merges_any cf k l (Dir i es) Hl s n has from to q D b lk' lk2 B (NDir j)) as (s' & Hr & M & Hp); auto; try discriminate.
  - intros r x Hx. split; [|apply (HB r x Hx)]. apply (Hok r). unfold look in *. rewrite get_app, Hg. exact Hx.
  - exists s'. split; [exact Hr|]. split; [intros r; apply (mg_places _ _ _ _ _ _ M r eq_refl)|]. split; [apply M|].
    split; [|split; [|split; [|exact Hp]]].
    + intros x Hx. destruct (mg_objects _ _ _ _ _ _ M x Hx) as [H|(r & i0 & _ & H)]; eauto.
    + intros r. apply (mg_outside _ _ _ _ _ _ M). apply below_apart; auto.
    + intros r x Hx. destruct (mg_objects _ _ _ _ _ _ M (number x) (known _ _ _ Hw Hx)) as [H|(v & i0 & _ & H1 & H2 & _)]; auto.
      exfalso. apply (proj1 (Hap v i0 (number x) H1 H2) r x Hx). reflexivity.
Qed.

(** The directory /s has the files f and d/g and the directory e, the directory /t the files f, k and d/g; /s/f is newer than /t/f, /t/d/g is newer than /s/d/g. *)
Definition demo_merge : fs :=
  Fs (Dir 1 [(lit "s", Dir 2 [(lit "f", Leaf 3); (lit "d", Dir 4 [(lit "g", Leaf 5)]); (lit "e", Dir 6 [])]);
             (lit "t", Dir 7 [(lit "f", Leaf 8); (lit "k", Leaf 9); (lit "d", Dir 10 [(lit "g", Leaf 11)])])])
     (fun i => BReg (match i with 3%N => lit "new" | 5%N => lit "old g" | 8%N => lit "old" | 9%N => lit "k" | 11%N => lit "new g" | _ => [] end))
     (fun i => Meta (match i with 3%N => 384 | _ => 420 end) 1 (TimeSpec (match i with 3%N | 11%N => 2000 | _ => 1000 end) 0) (TimeSpec 0 0)) 12 [] [] [] 0 (fun _ => None) 0.

Lemma demo_merge_source : forall r x, look (f_root demo_merge) ([lit "s"] ++ r) = Some x ->
  (r = [] /\ x = NDir 2) \/ (r = [lit "f"] /\ x = NLeaf 3) \/ (r = [lit "d"] /\ x = NDir 4) \/ (r = [lit "d"; lit "g"] /\ x = NLeaf 5) \/ (r = [lit "e"] /\ x = NDir 6).
Proof.
  intros r x H. change (option_map node_of (get (Dir 2 [(lit "f", Leaf 3); (lit "d", Dir 4 [(lit "g", Leaf 5)]); (lit "e", Dir 6 [])]) r) = Some x) in H.
  destruct r as [|a r]; [injection H as <-; auto|]. cbn [get assoc] in H.
  destruct (str_eqb (lit "f") a) eqn:E1; [|destruct (str_eqb (lit "d") a) eqn:E2; [|destruct (str_eqb (lit "e") a) eqn:E3; [|discriminate]]].
  - apply str_eqb_spec in E1. subst a. destruct r; [|discriminate]. injection H as <-. auto.
  - apply str_eqb_spec in E2. subst a. destruct r as [|a2 r]; [injection H as <-; auto|]. cbn [get assoc] in H. destruct (str_eqb (lit "g") a2) eqn:E4; [|discriminate].
    apply str_eqb_spec in E4. subst a2. destruct r; [|discriminate]. injection H as <-. auto 8.
  - apply str_eqb_spec in E3. subst a. destruct r; [injection H as <-; auto 8|discriminate].
Qed.

Example C99_example : let k := demo_choices in let s := demo_merge in let l := [co_recursive; co_update_existing] in
  wf s /\ copying_tree l /\ sees k s (lit "/s") (from_follows l) (Val (NDir 2)) /\ leads_to k s (lit "/s") [lit "s"] (NDir 2) /\ leads_to k s (lit "/t") [lit "t"] (NDir 7) /\
  (forall r, fits s l (look (f_root s) ([lit "s"] ++ r)) (look (f_root s) ([lit "t"] ++ r))) /\ apart s [lit "s"] [lit "t"] /\
  (forall r x, look (f_root s) ([lit "s"] ++ r) = Some (NLeaf x) -> copyable plain_config k s l x) /\
  replaces s l 3 8 /\ ~ replaces s l 5 11 /\
  match run (fsk k) (copy_impl plain_config 40 true (topath (lit "/s")) (topath (lit "/t")) (options l)) s with
  | Done (_, None) s' => map (f_body s') [8; 9; 11]%N = [BReg (lit "new"); BReg (lit "k"); BReg (lit "new g")] /\ m_perm (f_meta s' 8) = 384%N /\
      exists j, look (f_root s') [lit "t"; lit "e"] = Some (NDir j)
  | _ => False
  end.
Proof.
  intros k s l. split; [|split; [repeat split; cbn; intuition discriminate|]].
  { constructor.
    + cbn. repeat match goal with
        | |- _ /\ _ => split
        | |- NoDup _ => constructor
        | |- Forall _ _ => constructor
        | |- ~ In _ _ => cbn; intuition discriminate
        | |- True => exact Logic.I
        | |- _ => reflexivity
        end.
    + cbn. eauto.
    + cbn. intros x Hx. repeat destruct Hx as [<-|Hx]; try reflexivity. destruct Hx. }
  split; [left; [unfold from_follows; cbn; intuition discriminate|vm_compute; reflexivity]|].
  split; [exists 40; split; vm_compute; reflexivity|]. split; [exists 40; split; vm_compute; reflexivity|]. split; [|split; [|split; [|split; [|split]]]].
  - intros r. destruct (look (f_root s) ([lit "s"] ++ r)) as [x|] eqn:E; [|exact Logic.I].
    destruct (demo_merge_source r x E) as [[-> ->]|[[-> ->]|[[-> ->]|[[-> ->]|[-> ->]]]]]; vm_compute; try discriminate; auto; (split; [eauto|]; split; [eauto|]; auto).
  - intros r i j Hi Hj. split.
    + intros r2 x Hx. assert (j = 8 \/ j = 11)%N as Hj'.
      { destruct (demo_merge_source _ _ Hi) as [[_ H]|[[-> _]|[[_ H]|[[-> _]|[_ H]]]]]; try discriminate; vm_compute in Hj; injection Hj as <-; auto. }
      destruct (demo_merge_source _ _ Hx) as [[_ ->]|[[_ ->]|[[_ ->]|[[_ ->]|[_ ->]]]]]; destruct Hj' as [-> | ->]; discriminate.
    + intros r2 i2 H3 H4. destruct (demo_merge_source _ _ Hi) as [[_ H]|[[-> _]|[[_ H]|[[-> _]|[_ H]]]]]; try discriminate;
      destruct (demo_merge_source _ _ H3) as [[_ H]|[[-> _]|[[_ H]|[[-> _]|[_ H]]]]]; try discriminate; auto; vm_compute in Hj, H4; congruence.
  - intros r x Hx. left. destruct (demo_merge_source _ _ Hx) as [[_ H]|[[_ H]|[[_ H]|[[_ H]|[_ H]]]]]; try discriminate; injection H as ->; (eexists; split; [reflexivity|]; left; split; [reflexivity|vm_compute; discriminate]).
  - split; [cbn; intuition discriminate|]. left. split; [cbn; auto|]. left. vm_compute. reflexivity.
  - intros (_ & [[_ [H|[H _]]]|[H _]]); [vm_compute in H; discriminate|vm_compute in H; discriminate|apply H; cbn; auto].
  - vm_compute. split; [reflexivity|]. split; [reflexivity|]. eexists. reflexivity.
Qed.
Print Assumptions C99_merge.
