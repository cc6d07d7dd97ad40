(** C88: directory iterators that are copied, moved and assigned. Library model: [ShareModel.v]. *)
From Coq Require Import Ascii String Bool Arith NArith ZArith Lia Permutation.
From Verif Require Import Str PathModel FlagsModel TimeModel Prog DirModel OpsModel OpsProofs OpsProps OpsHandles ShareModel.
From Coq Require Import List.
Import ListNotations.

(** * Lists *)

Lemma upd_length : forall A (l : list A) i x, length (upd l i x) = length l.
Proof. induction l; intros [|i] x; cbn; auto. Qed.
Lemma upd_same : forall A (l : list A) i x, i < length l -> nth_error (upd l i x) i = Some x.
Proof. induction l; intros [|i] x H; cbn in *; try lia; auto. apply IHl. lia. Qed.
Lemma upd_other : forall A (l : list A) i j x, i <> j -> nth_error (upd l i x) j = nth_error l j.
Proof. induction l; intros [|i] [|j] x H; cbn; auto; try congruence. Qed.
Lemma nth_upd_same : forall A (l : list A) i x d, i < length l -> nth i (upd l i x) d = x.
Proof. induction l; intros [|i] x d H; cbn in *; try lia; auto. apply IHl. lia. Qed.
Lemma nth_upd_other : forall A (l : list A) i j x d, i <> j -> nth j (upd l i x) d = nth j l d.
Proof. induction l; intros [|i] [|j] x d H; cbn; auto; try congruence. Qed.

Lemma flat_map_upd : forall A B (f : A -> list B) l a o, nth_error l a = Some o ->
  exists rest, Permutation (flat_map f l) (f o ++ rest) /\ forall o', Permutation (flat_map f (upd l a o')) (f o' ++ rest).
Proof.
  intros A B f. induction l as [|x l IH]; intros [|a] o H; cbn in H; try discriminate.
  - injection H as ->. exists (flat_map f l). split; [reflexivity|intros; reflexivity].
  - destruct (IH a o H) as (rest & H1 & H2). exists (f x ++ rest). split; [|intros o'].
    + cbn. rewrite H1, !app_assoc. apply Permutation_app_tail, Permutation_app_comm.
    + cbn. rewrite H2, !app_assoc. apply Permutation_app_tail, Permutation_app_comm.
Qed.

Lemma refers_spec : forall a vs, refers a vs = true <-> exists i, i < length vs /\ fst (nth i vs (None, false)) = Some a.
Proof.
  intros a vs. unfold refers. rewrite existsb_exists. split.
  - intros (v & Hin & Hv). destruct (In_nth vs v (None, false) Hin) as (i & Hi & Hn). exists i. split; auto. rewrite Hn.
    destruct (fst v); [|discriminate]. apply Nat.eqb_eq in Hv. congruence.
  - intros (i & Hi & Hv). exists (nth i vs (None, false)). split; [apply nth_In; auto|]. rewrite Hv. apply Nat.eqb_refl.
Qed.

Lemma refers_upd : forall a vs i v, i < length vs ->
  (refers a (upd vs i v) = true <-> fst v = Some a \/ exists j, j <> i /\ j < length vs /\ fst (nth j vs (None, false)) = Some a).
Proof.
  intros a vs i v Hi. rewrite refers_spec, upd_length. split.
  - intros (j & Hj & Hv). destruct (Nat.eq_dec i j) as [<-|Hn].
    + rewrite nth_upd_same in Hv by auto. auto.
    + rewrite nth_upd_other in Hv by auto. right. exists j. auto.
  - intros [Hv|(j & Hn & Hj & Hv)].
    + exists i. rewrite nth_upd_same by auto. auto.
    + exists j. rewrite nth_upd_other by auto. auto.
Qed.

(** * Specification: which streams a memory holds *)

Section Objects.
Context {X : Type} (fin : X -> prog unit) (hs : X -> list handle).

Definition obj_handles (o : option X) : list handle := match o with Some x => hs x | None => [] end.
Definition mem_handles (m : memory X) : list handle := flat_map obj_handles (m_objs m).

(** Every object there is has an iterator referring to it, and no iterator refers to a destroyed object. *)
Definition linked (m : memory X) : Prop := forall a, refers a (m_vars m) = true <-> exists x, obj_at m a = Some x.

Lemma obj_at_put : forall (m : memory X) a x y b, obj_at m a = Some y -> obj_at (put_obj m a x) b = if Nat.eqb a b then Some x else obj_at m b.
Proof.
  intros m a x y b H. unfold obj_at, put_obj in *. cbn [m_objs]. destruct (nth_error (m_objs m) a) eqn:Ha; [|discriminate].
  destruct (Nat.eqb_spec a b) as [<-|Hn].
  - rewrite upd_same; auto. apply nth_error_Some. congruence.
  - rewrite upd_other by auto. reflexivity.
Qed.

Lemma obj_at_nth : forall (m : memory X) a x, obj_at m a = Some x -> nth_error (m_objs m) a = Some (Some x).
Proof. intros m a x H. unfold obj_at in H. destruct (nth_error (m_objs m) a); congruence. Qed.

Lemma linked_put : forall m a x y, obj_at m a = Some y -> linked m -> linked (put_obj m a x).
Proof.
  intros m a x y Hy Hl b. unfold put_obj at 1. cbn [m_vars]. rewrite (Hl b), (obj_at_put m a x y b Hy).
  destruct (Nat.eqb_spec a b) as [<-|Hn]; [|reflexivity]. split; eauto.
Qed.

Lemma put_handles : forall m a x, obj_at m a = Some x ->
  exists rest, Permutation (mem_handles m) (hs x ++ rest) /\ forall y, Permutation (mem_handles (put_obj m a y)) (hs y ++ rest).
Proof.
  intros m a x H. destruct (flat_map_upd _ _ obj_handles _ _ _ (obj_at_nth m a x H)) as (rest & H1 & H2).
  exists rest. split; [exact H1|]. intros y. exact (H2 (Some y)).
Qed.

Definition fin_closes : Prop := forall x l base (post : unit -> list handle -> Prop) (ex : list handle -> Prop),
  Permutation l (hs x ++ base) -> (forall l', Permutation l' base -> post tt l') -> wp (fin x) l post ex.

(** What assigning an iterator does. *)
Definition assigned (m : memory X) (i : nat) (v : var) (m' : memory X) : Prop :=
  linked m' /\ m_vars m' = upd (m_vars m) i v /\
  (forall a, refers a (m_vars m') = true -> obj_at m' a = obj_at m a).

Lemma wp_set_var : fin_closes -> forall m i v l base (post : memory X -> list handle -> Prop) (ex : list handle -> Prop),
  i < length (m_vars m) ->
  (forall a, refers a (upd (m_vars m) i v) = true -> exists x, obj_at m a = Some x) ->
  (forall a x, obj_at m a = Some x -> refers a (m_vars m) = true \/ fst v = Some a) ->
  Permutation l (mem_handles m ++ base) ->
  (forall m' l', assigned m i v m' -> Permutation l' (mem_handles m' ++ base) -> post m' l') ->
  wp (set_var fin i v m) l post ex.
Proof.
  intros Hfin m i v l base post ex Hi H1 H2 Hl Hp. unfold set_var.
  set (m0 := Mem (m_objs m) (upd (m_vars m) i v)).
  assert (Hob : forall a, obj_at m0 a = obj_at m a) by reflexivity.
  assert (Hold : forall a x, obj_at m a = Some x -> refers a (m_vars m0) = true \/ fst (var_at m i) = Some a).
  { intros a x Ha. destruct (H2 a x Ha) as [Hr|Hv].
    - apply refers_spec in Hr. destruct Hr as (j & Hj & Hv). destruct (Nat.eq_dec i j) as [<-|Hn]; [right; exact Hv|].
      left. cbn [m0 m_vars]. apply refers_upd; auto. right. exists j. auto.
    - left. cbn [m0 m_vars]. apply refers_upd; auto. }
  assert (Hkeep : (forall a x, obj_at m a = Some x -> refers a (m_vars m0) = true) -> wp (Ret m0) l post ex).
  { intros Hk. cbn [wp]. apply Hp; [|exact Hl]. split; [|split; [reflexivity|auto]].
    intros a. split; [apply H1|intros (x & Hx); exact (Hk a x Hx)]. }
  unfold release. destruct (fst (var_at m i)) as [a|] eqn:Ho.
  - destruct (refers a (m_vars m0)) eqn:Hr.
    + apply Hkeep. intros b x Hb. destruct (Hold b x Hb) as [H|H]; [auto|]. congruence.
    + rewrite Hob. destruct (obj_at m a) as [x|] eqn:Ha; [|exact Logic.I].
      destruct (flat_map_upd _ _ obj_handles _ _ _ (obj_at_nth m a x Ha)) as (rest & P1 & P2).
      apply wp_bind. apply (Hfin x l (rest ++ base)).
      { rewrite Hl. unfold mem_handles. rewrite P1. cbn [obj_handles]. rewrite app_assoc. reflexivity. }
      intros l' Hl'. cbn [wp].
      assert (Hoa : forall b, obj_at (Mem (upd (m_objs m0) a None) (m_vars m0)) b = if Nat.eqb a b then None else obj_at m b).
      { intros b. unfold obj_at at 1. cbn [m_objs m0]. destruct (Nat.eqb_spec a b) as [<-|Hn].
        - rewrite upd_same; auto. apply nth_error_Some. rewrite (obj_at_nth m a x Ha). discriminate.
        - rewrite upd_other by auto. reflexivity. }
      apply Hp.
      * split; [|split; [reflexivity|]].
        -- intros b. rewrite Hoa. change (m_vars (Mem (upd (m_objs m0) a None) (m_vars m0))) with (m_vars m0). split.
           ++ intros Hb. destruct (Nat.eqb_spec a b) as [<-|Hn]; [congruence|]. apply H1. exact Hb.
           ++ intros (y & Hy). destruct (Nat.eqb_spec a b) as [<-|Hn]; [discriminate|].
              destruct (Hold b y Hy) as [H|H]; [exact H|congruence].
        -- intros b Hb. rewrite Hoa. cbn [m_vars] in Hb. destruct (Nat.eqb_spec a b) as [<-|Hn]; [congruence|reflexivity].
      * rewrite Hl'. apply Permutation_app_tail. symmetry. exact (P2 None).
  - apply Hkeep. intros b x Hb. destruct (Hold b x Hb) as [H|H]; [auto|discriminate].
Qed.

(** The common case: the new pointer is that of an iterator, or none. *)
Lemma wp_assign : fin_closes -> forall m i v l base (post : memory X -> list handle -> Prop) (ex : list handle -> Prop),
  linked m -> i < length (m_vars m) -> (forall a, fst v = Some a -> refers a (m_vars m) = true) ->
  Permutation l (mem_handles m ++ base) ->
  (forall m' l', assigned m i v m' -> Permutation l' (mem_handles m' ++ base) -> post m' l') ->
  wp (set_var fin i v m) l post ex.
Proof.
  intros Hfin m i v l base post ex Hk Hi Hv Hl Hp. apply (wp_set_var Hfin m i v l base); auto.
  - intros a Ha. apply Hk. apply refers_upd in Ha; auto. destruct Ha as [Ha|(j & _ & Hj & Ha)]; [auto|].
    apply refers_spec. eauto.
  - intros a x Ha. left. apply Hk. eauto.
Qed.

Lemma wp_set_new : fin_closes -> forall m i x flag l base (post : memory X -> list handle -> Prop) (ex : list handle -> Prop),
  linked m -> i < length (m_vars m) -> Permutation l (hs x ++ mem_handles m ++ base) ->
  (forall m' l', linked m' -> m_vars m' = upd (m_vars m) i (Some (length (m_objs m)), flag) ->
     obj_at m' (length (m_objs m)) = Some x ->
     (forall a, refers a (m_vars m') = true -> a <> length (m_objs m) -> obj_at m' a = obj_at m a) ->
     Permutation l' (mem_handles m' ++ base) -> post m' l') ->
  wp (set_new fin i x flag m) l post ex.
Proof.
  intros Hfin m i x flag l base post ex Hk Hi Hl Hp. unfold set_new.
  set (k := length (m_objs m)). set (m0 := Mem (m_objs m ++ [Some x]) (m_vars m)).
  assert (Ho : forall a, obj_at m0 a = if Nat.eqb k a then Some x else obj_at m a).
  { intros a. unfold obj_at. cbn [m0 m_objs]. destruct (Nat.eqb_spec k a) as [<-|Hn].
    - rewrite nth_error_app2 by (unfold k; lia). replace (k - length (m_objs m)) with 0 by (unfold k; lia). reflexivity.
    - destruct (Nat.ltb_spec a k) as [Hlt|Hge].
      + rewrite nth_error_app1 by exact Hlt. reflexivity.
      + rewrite (proj2 (nth_error_None (m_objs m ++ [Some x]) a)) by (rewrite app_length; cbn; unfold k in *; lia).
        rewrite (proj2 (nth_error_None (m_objs m) a)) by (unfold k in *; lia). reflexivity. }
  apply (wp_set_var Hfin m0 i (Some k, flag) l base).
  - exact Hi.
  - intros a Ha. rewrite Ho. destruct (Nat.eqb_spec k a) as [<-|Hn]; [eauto|]. apply Hk. apply refers_upd in Ha; [|exact Hi].
    destruct Ha as [Ha|(j & _ & Hj & Ha)]; [cbn in Ha; congruence|]. apply refers_spec. eauto.
  - intros a y Ha. rewrite Ho in Ha. destruct (Nat.eqb_spec k a) as [<-|Hn]; [right; reflexivity|]. left. apply Hk. eauto.
  - rewrite Hl. unfold mem_handles. cbn [m0 m_objs]. rewrite flat_map_app. cbn [flat_map obj_handles]. rewrite app_nil_r.
    rewrite app_assoc. apply Permutation_app_tail, Permutation_app_comm.
  - intros m' l' (A1 & A2 & A3) Hl'. apply Hp; auto.
    + rewrite A3; [rewrite Ho, Nat.eqb_refl; reflexivity|]. rewrite A2. apply refers_upd; auto.
    + intros a Ha Hn. rewrite (A3 a Ha), Ho. destruct (Nat.eqb_spec k a) as [He|]; [exfalso; apply Hn; symmetry; exact He|reflexivity].
Qed.

Lemma wp_move : fin_closes -> forall m i j l base (post : memory X -> list handle -> Prop) (ex : list handle -> Prop),
  linked m -> i < length (m_vars m) -> j < length (m_vars m) -> Permutation l (mem_handles m ++ base) ->
  (forall m' l', linked m' -> length (m_vars m') = length (m_vars m) ->
     (forall k, k <> i -> k <> j -> var_at m' k = var_at m k) ->
     var_at m' i = var_at m j -> (i <> j -> fst (var_at m' j) = None) ->
     (forall a, refers a (m_vars m') = true -> obj_at m' a = obj_at m a) ->
     Permutation l' (mem_handles m' ++ base) -> post m' l') ->
  wp (share_move fin i j m) l post ex.
Proof.
  intros Hfin m i j l base post ex Hk Hi Hj Hl Hp. unfold share_move. destruct (Nat.eqb_spec i j) as [<-|Hn].
  { cbn [wp]. apply Hp; auto; congruence. }
  set (m0 := Mem (m_objs m) (upd (m_vars m) j (None, snd (var_at m j)))).
  assert (Hlen : length (m_vars m0) = length (m_vars m)) by (cbn [m0 m_vars]; apply upd_length).
  apply (wp_set_var Hfin m0 i (var_at m j) l base).
  - lia.
  - intros a Ha. change (obj_at m0 a) with (obj_at m a). apply Hk. apply refers_upd in Ha; [|lia].
    apply refers_spec. destruct Ha as [Ha|(k & Hki & Hkl & Ha)]; [exists j; auto|].
    exists k. split; [lia|]. cbn [m0 m_vars] in Ha. destruct (Nat.eq_dec j k) as [<-|Hjk].
    + rewrite nth_upd_same in Ha by auto. discriminate.
    + rewrite nth_upd_other in Ha by auto. exact Ha.
  - intros a x Ha. change (obj_at m0 a) with (obj_at m a) in Ha. assert (Hr : refers a (m_vars m) = true) by (apply Hk; eauto).
    apply refers_spec in Hr. destruct Hr as (k & Hkl & Hv). destruct (Nat.eq_dec j k) as [<-|Hjk]; [right; exact Hv|].
    left. cbn [m0 m_vars]. apply refers_upd; auto. right. exists k. auto.
  - exact Hl.
  - intros m' l' (A1 & A2 & A3) Hl'.
    assert (Hv : forall k, var_at m' k = nth k (upd (m_vars m0) i (var_at m j)) (None, false)) by (intros k; unfold var_at at 1; rewrite A2; reflexivity).
    apply Hp; auto.
    + rewrite A2, upd_length. exact Hlen.
    + intros k Hki Hkj. rewrite Hv, nth_upd_other by auto. cbn [m0 m_vars]. rewrite nth_upd_other by auto. reflexivity.
    + rewrite Hv, nth_upd_same by lia. reflexivity.
    + intros _. rewrite Hv, nth_upd_other by auto. cbn [m0 m_vars]. rewrite nth_upd_same by auto. reflexivity.
Qed.

End Objects.

Lemma stream_fin : fin_closes stream_destroy stream_handles.
Proof.
  intros s l base post ex Hl Hp. unfold stream_destroy, stream_handles in *. destruct (ds_handle s) as [d|]; [|cbn; apply Hp; exact Hl].
  cbn -[step]. intros r. destruct (step_closedir_in d r l) as (l' & Hs & Hp').
  { eapply Permutation_in; [symmetry; exact Hl|left; auto]. }
  exists l'. split; auto. apply Hp. eapply Permutation_cons_inv. etransitivity; [symmetry; exact Hp'|exact Hl].
Qed.

Definition impl_handles (x : shared_impl) : list handle := stack_handles (fst x).
Lemma impl_fin : fin_closes impl_destroy impl_handles.
Proof. intros x l base post ex Hl Hp. apply (wp_impl_reset (fst x) l base); auto. Qed.

Section Programs.
Variable cf : config.

(** [advance] on a stream that may already be closed. *)
Lemma wp_advance_any : forall n s l base (post : bool * ecode * dstream -> list handle -> Prop) (ex : list handle -> Prop),
  Permutation l (stream_handles s ++ base) ->
  (forall ok ec s1 l', (ok = true -> good s1 = true /\ ec = None) -> (ok = false -> good s1 = false) ->
     Permutation l' (stream_handles s1 ++ base) -> post (ok, ec, s1) l') ->
  wp (advance cf n s) l post ex.
Proof.
  intros n s l base post ex Hl Hp. unfold stream_handles in Hl. destruct (ds_handle s) as [d|] eqn:Hd.
  - apply (wp_advance_in cf n s d); [exact Hd| | |].
    + eapply Permutation_in; [symmetry; exact Hl|left; auto].
    + intros e. apply Hp; [auto|discriminate|exact Hl].
    + intros ec l' Hl'. apply Hp; [discriminate|auto|]. cbn. eapply Permutation_cons_inv. etransitivity; [symmetry; exact Hl'|exact Hl].
  - destruct n; cbn [advance]; [exact Logic.I|]. rewrite Hd. exact Logic.I.
Qed.

Lemma wp_advance_stack_any : forall st n l base (post : option (list dstream) * ecode * list dstream -> list handle -> Prop) (ex : list handle -> Prop),
  Permutation l (stack_handles st ++ base) ->
  (forall found ec st' l', Permutation l' (stack_handles (match found with Some f => f | None => st' end) ++ base) -> post (found, ec, st') l') ->
  wp (advance_stack cf n st) l post ex.
Proof.
  induction st as [|s st IH]; intros n l base post ex Hl Hp; cbn [advance_stack].
  - cbn. apply (Hp None None []). exact Hl.
  - apply wp_bind. apply (wp_advance_any n s l (stack_handles st ++ base)).
    { rewrite Hl. unfold stack_handles. cbn [flat_map]. rewrite app_assoc. reflexivity. }
    intros ok ec s1 l' H1 H2 Hl'. destruct ok.
    + cbn. apply (Hp (Some (s1 :: st)) None []). rewrite Hl'. unfold stack_handles. cbn [flat_map]. rewrite app_assoc. reflexivity.
    + destruct (failed ec).
      * cbn. apply (Hp None ec (s1 :: st)). rewrite Hl'. unfold stack_handles. cbn [flat_map]. rewrite app_assoc. reflexivity.
      * apply (IH n l' base); auto. rewrite Hl'. unfold stream_handles, good in *.
        destruct (ds_handle s1); [specialize (H2 eq_refl); discriminate|reflexivity].
Qed.

(** The operations that have to do with the iterator [j]. *)
Definition dmentions (c : dcmd) (j : nat) : bool :=
  match c with
  | DNew _ i _ _ | DDrop i | DInc _ i | DDeref i => Nat.eqb i j
  | DCopy i k | DMove i k | DEqual i k => Nat.eqb i j || Nat.eqb k j
  end.
Definition rmentions (c : rcmd) (j : nat) : bool :=
  match c with
  | RNew _ i _ _ | RDrop i | RInc _ i | RPop _ i | RDisable i | RDeref i | RDepth i | RPending i => Nat.eqb i j
  | RCopy i k | RMove i k | REqual i k => Nat.eqb i j || Nat.eqb k j
  end.

(** The iterator [j] is not a copy of another one. *)
Definition alone {X} (m : memory X) (j : nat) : Prop :=
  forall k a, k <> j -> fst (var_at m j) = Some a -> fst (var_at m k) <> Some a.
(** What the iterator [j] refers to. *)
Definition seen {X} (m : memory X) (j : nat) : option X :=
  match fst (var_at m j) with Some a => obj_at m a | None => None end.
Definition framed {X} (m m' : memory X) (j : nat) : Prop :=
  alone m j -> alone m' j /\ var_at m' j = var_at m j /\ seen m' j = seen m j.

Lemma framed_refl : forall X (m : memory X) j, framed m m j.
Proof. intros X m j H. auto. Qed.
Lemma framed_trans : forall X (m m1 m2 : memory X) j, framed m m1 j -> framed m1 m2 j -> framed m m2 j.
Proof. intros X m m1 m2 j H1 H2 Ha. destruct (H1 Ha) as (A1 & A2 & A3). destruct (H2 A1) as (B1 & B2 & B3). split; [auto|]. split; congruence. Qed.
Lemma framed_put : forall X (m : memory X) a x y i j, fst (var_at m i) = Some a -> obj_at m a = Some y -> i <> j -> framed m (put_obj m a x) j.
Proof.
  intros X m a x y i j Hi Hy Hn Ha. split; [exact Ha|]. split; [reflexivity|]. unfold seen. change (var_at (put_obj m a x) j) with (var_at m j).
  destruct (fst (var_at m j)) as [b|] eqn:Hb; auto. rewrite (obj_at_put m a x y b Hy). destruct (Nat.eqb_spec a b) as [<-|]; auto.
  exfalso. exact (Ha i a Hn Hb Hi).
Qed.
Lemma framed_assigned : forall X (m m' : memory X) i v j, i < length (m_vars m) -> assigned m i v m' -> i <> j ->
  (forall a, fst v = Some a -> exists k, k <> j /\ fst (var_at m k) = Some a) -> framed m m' j.
Proof.
  intros X m m' i v j Hi (A1 & A2 & A3) Hn Hv Ha.
  assert (Hk : forall k, k <> i -> var_at m' k = var_at m k) by (intros k Hk; unfold var_at; rewrite A2; apply nth_upd_other; auto).
  assert (Hvi : var_at m' i = v) by (unfold var_at; rewrite A2; apply nth_upd_same; auto).
  assert (Hj : var_at m' j = var_at m j) by (apply Hk; auto).
  split; [|split; [exact Hj|]].
  - intros k a Hkj Hja. rewrite Hj in Hja. destruct (Nat.eq_dec k i) as [->|Hki].
    + rewrite Hvi. intros Hva. destruct (Hv a Hva) as (k' & Hk' & He). exact (Ha k' a Hk' Hja He).
    + rewrite Hk by auto. apply Ha; auto.
  - unfold seen. rewrite Hj. destruct (fst (var_at m j)) as [a|] eqn:Hja; auto. apply A3. apply refers_spec.
    exists j. split; [|unfold var_at in Hj; rewrite Hj; exact Hja].
    rewrite A2, upd_length. destruct (Nat.ltb_spec j (length (m_vars m))) as [|Hge]; auto.
    exfalso. unfold var_at in Hja. rewrite nth_overflow in Hja by auto. discriminate.
Qed.

(** The memory after an operation is in order, the streams held are those of its objects, and an iterator the operation has
    nothing to do with is as before. *)
Definition ok_after {X} (hs : X -> list handle) (m : memory X) (ms : nat -> bool) (base : list handle) (r : memory X * obs) (l : list handle) : Prop :=
  linked (fst r) /\ length (m_vars (fst r)) = length (m_vars m) /\ Permutation l (mem_handles hs (fst r) ++ base) /\
  (forall j, ms j = false -> framed m (fst r) j).

Lemma var_refers : forall X (m : memory X) i a, i < length (m_vars m) -> fst (var_at m i) = Some a -> refers a (m_vars m) = true.
Proof. intros X m i a Hi Ha. apply refers_spec. exists i. auto. Qed.

Lemma eqb_apart : forall i j, Nat.eqb i j = false -> i <> j.
Proof. intros i j H. apply Nat.eqb_neq. exact H. Qed.

Lemma wp_set_ok : forall X (fin : X -> prog unit) hs, fin_closes fin hs -> forall m m0 i v o ms base l0 (ex : list handle -> Prop),
  i < length (m_vars m0) -> length (m_vars m0) = length (m_vars m) -> linked m0 ->
  (forall a, fst v = Some a -> refers a (m_vars m0) = true) ->
  Permutation l0 (mem_handles hs m0 ++ base) ->
  (forall j, ms j = false -> i <> j /\ framed m m0 j) ->
  (forall j a, ms j = false -> fst v = Some a -> exists k, k <> j /\ fst (var_at m0 k) = Some a) ->
  wp (let! m1 := set_var fin i v m0 in Ret (m1, o)) l0 (ok_after hs m ms base) ex.
Proof.
  intros X fin hs Hfin m m0 i v o ms base l0 ex Hi He Hk Hv Hl Hf Hj. apply wp_bind. apply (wp_assign fin hs Hfin m0 i v l0 base); auto.
  intros m' l' A Hl'. pose proof A as (A1 & A2 & A3). cbn [wp]. split; [exact A1|]. split; [cbn [fst]; rewrite A2, upd_length; exact He|].
  split; [exact Hl'|]. intros j Hm. destruct (Hf j Hm) as [H1 H2]. eapply framed_trans; [exact H2|]. cbn [fst].
  apply (framed_assigned _ m0 m' i v j); auto.
Qed.

Lemma wp_new_ok : forall X (fin : X -> prog unit) hs, fin_closes fin hs -> forall m i x flag o base l (ex : list handle -> Prop),
  linked m -> i < length (m_vars m) -> Permutation l (hs x ++ mem_handles hs m ++ base) ->
  wp (let! m1 := set_new fin i x flag m in Ret (m1, o)) l (ok_after hs m (Nat.eqb i) base) ex.
Proof.
  intros X fin hs Hfin m i x flag o base l ex Hk Hi Hl. apply wp_bind. apply (wp_set_new fin hs Hfin m i x flag _ base); auto.
  intros m' l' B1 B2 B3 B4 Hl'. cbn [wp]. split; [exact B1|]. split; [cbn [fst]; rewrite B2, upd_length; reflexivity|].
  split; [exact Hl'|]. intros j Hj. apply eqb_apart in Hj. cbn [fst]. intros Ha.
  assert (Hvk : forall k, k <> i -> var_at m' k = var_at m k) by (intros k Hki; unfold var_at; rewrite B2; apply nth_upd_other; auto).
  assert (Hvi : fst (var_at m' i) = Some (length (m_objs m))) by (unfold var_at; rewrite B2, nth_upd_same by auto; reflexivity).
  assert (Hvj : var_at m' j = var_at m j) by (apply Hvk; auto).
  assert (Hlt : forall a, fst (var_at m j) = Some a -> refers a (m_vars m) = true /\ refers a (m_vars m') = true /\ a < length (m_objs m)).
  { intros a Hja. assert (Hjl : j < length (m_vars m)).
    { destruct (Nat.ltb_spec j (length (m_vars m))) as [|Hge]; auto. exfalso. unfold var_at in Hja. rewrite nth_overflow in Hja by auto. discriminate. }
    assert (Hr : refers a (m_vars m) = true) by (apply refers_spec; exists j; auto).
    split; [exact Hr|]. split.
    - apply refers_spec. exists j. split; [rewrite B2, upd_length; auto|]. unfold var_at in Hvj. rewrite Hvj. exact Hja.
    - apply Hk in Hr. destruct Hr as (y & Hy). apply nth_error_Some. rewrite (obj_at_nth m a y Hy). discriminate. }
  split; [|split; [exact Hvj|]].
  - intros k a Hkj Hja. rewrite Hvj in Hja. destruct (Hlt a Hja) as (_ & _ & Hla). destruct (Nat.eq_dec k i) as [->|Hki].
    + rewrite Hvi. intros E. injection E as E. lia.
    + rewrite Hvk by auto. apply Ha; auto.
  - unfold seen. rewrite Hvj. destruct (fst (var_at m j)) as [a|] eqn:Hja; auto. destruct (Hlt a eq_refl) as (_ & H2 & H3). apply B4; auto. lia.
Qed.

Lemma wp_move_ok : forall X (fin : X -> prog unit) hs, fin_closes fin hs -> forall m i j o base l (ex : list handle -> Prop),
  linked m -> i < length (m_vars m) -> j < length (m_vars m) -> Permutation l (mem_handles hs m ++ base) ->
  wp (let! m1 := share_move fin i j m in Ret (m1, o)) l (ok_after hs m (fun k => Nat.eqb i k || Nat.eqb j k) base) ex.
Proof.
  intros X fin hs Hfin m i j o base l ex Hk Hi Hj Hl. apply wp_bind. apply (wp_move fin hs Hfin m i j l base); auto.
  intros m' l' B1 B2 B3 B4 B5 B6 Hl'. cbn [wp]. split; [exact B1|]. split; [exact B2|]. split; [exact Hl'|].
  intros z Hz. apply orb_false_iff in Hz. destruct Hz as [Hz1 Hz2]. apply eqb_apart in Hz1, Hz2. cbn [fst]. intros Ha.
  assert (Hvz : var_at m' z = var_at m z) by (apply B3; auto). split; [|split; [exact Hvz|]].
  - intros k a Hkz Hza. rewrite Hvz in Hza. destruct (Nat.eq_dec k i) as [->|Hki]; [rewrite B4; apply Ha; auto|].
    destruct (Nat.eq_dec k j) as [->|Hkj]; [rewrite B5 by auto; discriminate|]. rewrite B3 by auto. apply Ha; auto.
  - unfold seen. rewrite Hvz. destruct (fst (var_at m z)) as [a|] eqn:Hza; auto. apply B6. apply refers_spec. exists z.
    split; [|unfold var_at in Hvz; rewrite Hvz; exact Hza]. rewrite B2.
    destruct (Nat.ltb_spec z (length (m_vars m))) as [|Hge]; auto. exfalso. unfold var_at in Hza. rewrite nth_overflow in Hza by auto. discriminate.
Qed.

Lemma ok_none : forall X (hs : X -> list handle) m ms base o l, linked m -> Permutation l (mem_handles hs m ++ base) -> ok_after hs m ms base (m, o) l.
Proof. intros X hs m ms base o l Hk Hl. split; [exact Hk|]. split; [reflexivity|]. split; [exact Hl|]. intros j _. apply framed_refl. Qed.

Lemma wp_dexec : forall n c m l base (ex : list handle -> Prop), linked m -> Permutation l (mem_handles stream_handles m ++ base) ->
  wp (dexec cf n c m) l (ok_after stream_handles m (dmentions c) base) ex.
Proof.
  intros n c m l base ex Hk Hl.
  assert (Hnone : forall ms o, ok_after stream_handles m ms base (m, o) l) by (intros; apply ok_none; auto).
  pose proof (wp_set_ok _ stream_destroy stream_handles stream_fin m) as Hset.
  destruct c as [has i p opts|i j|i j|i|has i|i|i j]; cbn [dexec].
  - destruct (Nat.ltb_spec i (length (m_vars m))) as [Hi|]; [|apply Hnone]. unfold share_new. apply wp_bind.
    apply wp_stream_ctor. intros ec s Hg. destruct (good s) eqn:Hgs.
    + apply (wp_new_ok _ stream_destroy stream_handles stream_fin); auto. apply Permutation_app_head. exact Hl.
    + assert (He : stream_handles s = []) by (unfold good, stream_handles in *; destruct (ds_handle s); [discriminate|reflexivity]).
      rewrite He. cbn [app]. destruct (failed ec && negb has); [cbn [wp]; apply Hnone|].
      apply Hset; auto; try discriminate. intros j Hj. split; [apply eqb_apart; exact Hj|apply framed_refl].
  - destruct ((i <? length (m_vars m)) && (j <? length (m_vars m))) eqn:Hij; [|apply Hnone].
    apply andb_true_iff in Hij. destruct Hij as [Hi Hj]. apply Nat.ltb_lt in Hi, Hj.
    unfold share_copy. apply Hset; auto.
    + intros a Ha. exact (var_refers _ m j a Hj Ha).
    + intros k Hm. apply orb_false_iff in Hm. split; [apply eqb_apart; apply Hm|apply framed_refl].
    + intros k a Hm Ha. exists j. apply orb_false_iff in Hm. split; [apply eqb_apart; apply Hm|exact Ha].
  - destruct ((i <? length (m_vars m)) && (j <? length (m_vars m))) eqn:Hij; [|apply Hnone].
    apply andb_true_iff in Hij. destruct Hij as [Hi Hj]. apply Nat.ltb_lt in Hi, Hj.
    apply (wp_move_ok _ stream_destroy stream_handles stream_fin); auto.
  - destruct (Nat.ltb_spec i (length (m_vars m))) as [Hi|]; [|apply Hnone]. unfold share_drop. apply Hset; auto; try discriminate.
    intros j Hj. split; [apply eqb_apart; exact Hj|apply framed_refl].
  - destruct (Nat.ltb_spec i (length (m_vars m))) as [Hi|]; [|apply Hnone]. unfold share_increment.
    destruct (fst (var_at m i)) as [a|] eqn:Ha; [|cbn [wp]; apply Hnone].
    destruct (obj_at m a) as [s|] eqn:Hs; [|exact Logic.I].
    destruct (put_handles stream_handles m a s Hs) as (rest & P1 & P2).
    apply wp_bind. apply (wp_advance_any n s l (rest ++ base)).
    { rewrite Hl, P1, app_assoc. reflexivity. }
    intros ok ec s1 l' H1 H2 Hl'. destruct ok.
    + cbn [wp]. split; [exact (linked_put m a s1 s Hs Hk)|]. split; [reflexivity|]. split; [cbn [fst]; rewrite Hl', P2, app_assoc; reflexivity|].
      intros j Hj. apply (framed_put _ m a s1 s i j Ha Hs). apply eqb_apart. exact Hj.
    + apply Hset; try discriminate; auto; [exact (linked_put m a _ s Hs Hk)|rewrite P2, Hl', app_assoc; reflexivity|].
      intros j Hj. apply eqb_apart in Hj. split; [exact Hj|]. exact (framed_put _ m a _ s i j Ha Hs Hj).
  - destruct (Nat.ltb_spec i (length (m_vars m))) as [Hi|]; [|apply Hnone]. unfold share_deref.
    destruct (fst (var_at m i)) as [a|]; [|destruct (cf_dbg cf); exact Logic.I].
    destruct (obj_at m a); [cbn [wp pbind]; apply Hnone|exact Logic.I].
  - destruct ((i <? length (m_vars m)) && (j <? length (m_vars m))); cbn [wp]; apply Hnone.
Qed.

Lemma wp_dexec_all : forall n cs m l base (ex : list handle -> Prop), linked m -> Permutation l (mem_handles stream_handles m ++ base) ->
  wp (dexec_all cf n cs m) l (fun r l' => linked (fst r) /\ Permutation l' (mem_handles stream_handles (fst r) ++ base) /\
    (forall j, (forall c, In c cs -> dmentions c j = false) -> framed m (fst r) j)) ex.
Proof.
  intros n. induction cs as [|c cs IH]; intros m l base ex Hk Hl; cbn [dexec_all].
  { cbn [wp fst]. split; [auto|]. split; [auto|]. intros; apply framed_refl. }
  apply wp_bind. eapply wp_mono; [apply (wp_dexec n c m l base ex Hk Hl)| |auto].
  intros x l1 (A1 & A2 & A3 & A4). apply wp_bind. eapply wp_mono; [apply (IH (fst x) l1 base ex A1 A3)| |auto].
  intros y l2 (B1 & B2 & B3). cbn [wp fst]. split; [auto|]. split; [auto|]. intros j Hj.
  eapply framed_trans; [apply A4, Hj; left; auto|]. apply B3. intros c' Hc'. apply Hj. right. exact Hc'.
Qed.

Lemma wp_radvance : forall n has i m l base (ex : list handle -> Prop), linked m -> i < length (m_vars m) ->
  Permutation l (mem_handles impl_handles m ++ base) ->
  wp (rshare_advance cf n has i m) l (ok_after impl_handles m (Nat.eqb i) base) ex.
Proof.
  intros n has i m l base ex Hk Hi Hl. unfold rshare_advance.
  destruct (fst (var_at m i)) as [a|] eqn:Ha; [|cbn [wp]; apply ok_none; auto].
  destruct (obj_at m a) as [[st o]|] eqn:Hs; [|exact Logic.I].
  destruct (put_handles impl_handles m a (st, o) Hs) as (rest & P1 & P2).
  apply wp_bind. apply (wp_advance_stack_any st n l (rest ++ base)).
  { rewrite Hl, P1, app_assoc. reflexivity. }
  intros found ec st' l' Hl'. destruct found as [f|].
  - cbn [wp]. split; [exact (linked_put m a _ _ Hs Hk)|]. split; [reflexivity|]. split; [cbn [fst]; rewrite Hl', P2, app_assoc; reflexivity|].
    intros j Hj. exact (framed_put _ m a _ _ i j Ha Hs (eqb_apart _ _ Hj)).
  - set (x := (match st' with [] => [] | s :: r => _ end, o)).
    assert (Hx : impl_handles x = stack_handles st') by (destruct st'; reflexivity).
    apply (wp_set_ok _ impl_destroy impl_handles impl_fin); try discriminate.
    + exact Hi.
    + reflexivity.
    + exact (linked_put m a _ _ Hs Hk).
    + rewrite P2, Hx, Hl', app_assoc. reflexivity.
    + intros j Hj. apply eqb_apart in Hj. split; [exact Hj|]. exact (framed_put _ m a _ _ i j Ha Hs Hj).
Qed.

Lemma refers_flag : forall a vs i b, i < length vs -> refers a (upd vs i (fst (nth i vs (None, false)), b)) = refers a vs.
Proof.
  intros a vs i b Hi. apply eq_true_iff_eq. rewrite refers_upd, refers_spec by auto. cbn [fst]. split.
  - intros [H|(j & _ & Hj & H)]; [exists i; auto|exists j; auto].
  - intros (j & Hj & H). destruct (Nat.eq_dec i j) as [<-|Hn]; [auto|]. right. exists j. auto.
Qed.

Lemma linked_flag : forall X (m : memory X) i b, i < length (m_vars m) -> linked m ->
  linked (Mem (m_objs m) (upd (m_vars m) i (fst (var_at m i), b))).
Proof. intros X m i b Hi Hk a. cbn [m_vars]. unfold var_at. rewrite refers_flag by auto. apply Hk. Qed.

Lemma framed_flag : forall X (m : memory X) i b j, i < length (m_vars m) -> i <> j ->
  framed m (Mem (m_objs m) (upd (m_vars m) i (fst (var_at m i), b))) j.
Proof.
  intros X m i b j Hi Hn Ha. set (m' := Mem _ _).
  assert (Hvk : forall k, k <> i -> var_at m' k = var_at m k) by (intros k Hki; unfold var_at; cbn [m' m_vars]; apply nth_upd_other; auto).
  assert (Hvi : var_at m' i = (fst (var_at m i), b)) by (unfold var_at at 1; cbn [m' m_vars]; apply nth_upd_same; auto).
  split; [|split; [apply Hvk; auto|]].
  - intros k a Hkj Hja. rewrite Hvk in Hja by auto. destruct (Nat.eq_dec k i) as [->|Hki].
    + rewrite Hvi. cbn [fst]. apply Ha; auto.
    + rewrite Hvk by auto. apply Ha; auto.
  - unfold seen. rewrite Hvk by auto. reflexivity.
Qed.

Lemma wp_rtry : forall n i m l base (ex : list handle -> Prop), linked m -> i < length (m_vars m) ->
  Permutation l (mem_handles impl_handles m ++ base) ->
  wp (rshare_try cf n i m) l (fun r l' => ok_after impl_handles m (Nat.eqb i) base (fst (fst r), Completed None) l') ex.
Proof.
  intros n i m l base ex Hk Hi Hl. unfold rshare_try.
  destruct (fst (var_at m i)) as [a|] eqn:Ha; [|cbn [wp]; apply ok_none; auto].
  destruct (obj_at m a) as [[[|s st] o]|] eqn:Hs; try exact Logic.I.
  destruct (put_handles impl_handles m a (s :: st, o) Hs) as (rest & P1 & P2).
  apply wp_bind. set (q := if has_dopt do_follow_directory_symlink o then _ else _).
  assert (Hq : calm q) by (subst q; destruct (has_dopt _ o); [apply calm_file_type|apply calm_symlink_type]).
  apply wp_calm; auto. intros [[t ec0] e1]. clear Hq. clearbody q.
  set (s1 := Stream (ds_handle s) (ds_root s) e1).
  set (me := if failed ec0 && status_known (status_of_type t) then None else ec0). clearbody me.
  set (sk := if has_dopt do_follow_directory_symlink o then _ else _). clearbody sk.
  assert (Hput : forall x l', Permutation l' (impl_handles x ++ rest ++ base) ->
    ok_after impl_handles m (Nat.eqb i) base (put_obj m a x, Completed None) l').
  { intros x l' Hl'. split; [exact (linked_put m a x _ Hs Hk)|]. split; [reflexivity|]. split; [cbn [fst]; rewrite Hl', P2, app_assoc; reflexivity|].
    intros j Hj. exact (framed_put _ m a _ _ i j Ha Hs (eqb_apart _ _ Hj)). }
  assert (Hl0 : Permutation l (stack_handles (s :: st) ++ rest ++ base)) by (rewrite Hl, P1, app_assoc; reflexivity).
  assert (Hend : forall m2,
    wp (match (m2, @None dstream) with
        | (_, Some new_it) => Ret (put_obj m a (new_it :: s1 :: st, o), true, None)
        | (Some x, None) =>
            if errno_eqb x EACCES && has_dopt do_skip_permission_denied o
            then Ret (put_obj m a (s1 :: st, o), false, None)
            else
              let s2 := Stream (ds_handle s) (ds_root s) (Entry (snd (move_ctor Posix (de_path e1))) (de_data e1)) in
              let! m1 := set_var impl_destroy i (None, snd (var_at m i)) (put_obj m a (s2 :: st, o)) in
              Ret (m1, false, Some x)
        | (None, None) => Ret (put_obj m a (s1 :: st, o), false, None)
        end) l (fun r l' => ok_after impl_handles m (Nat.eqb i) base (fst (fst r), Completed None) l') ex).
  { intros [x|]; [|cbn [wp fst]; apply Hput; exact Hl0].
    destruct (_ && _); [cbn [wp fst]; apply Hput; exact Hl0|].
    cbv zeta. set (s2 := Stream _ _ (Entry _ _)). apply wp_bind.
    apply (wp_assign impl_destroy impl_handles impl_fin (put_obj m a (s2 :: st, o)) i (None, snd (var_at m i)) l base).
    + exact (linked_put m a _ _ Hs Hk).
    + exact Hi.
    + discriminate.
    + rewrite P2, Hl0, app_assoc. reflexivity.
    + intros m' l2 A Hl2. pose proof A as (A1 & A2 & A3). cbn [wp fst]. split; [exact A1|]. split; [cbn [fst]; rewrite A2, upd_length; reflexivity|].
      split; [exact Hl2|]. intros j Hj. apply eqb_apart in Hj.
      apply (framed_trans _ m (put_obj m a (s2 :: st, o)) m' j); [exact (framed_put _ m a _ _ i j Ha Hs Hj)|]. refine (framed_assigned _ (put_obj m a (s2 :: st, o)) m' i _ j _ A Hj _); [exact Hi|discriminate]. }
  apply wp_bind. destruct sk; [cbn [wp]; apply Hend|].
  apply wp_bind. apply wp_stream_ctor. intros ec sn Hgn. cbn [fst snd wp]. destruct (good sn) eqn:Hg.
  - rewrite (Hgn eq_refl). cbn [wp fst]. apply Hput. unfold impl_handles. cbn [fst]. unfold stack_handles at 1. cbn [flat_map]. rewrite <- app_assoc.
    apply Permutation_app_head. rewrite Hl0. reflexivity.
  - assert (He : stream_handles sn = []) by (unfold good, stream_handles in *; destruct (ds_handle sn); [discriminate|reflexivity]).
    rewrite He. apply Hend.
Qed.

Lemma ok_after_trans : forall X (hs : X -> list handle) m m1 ms base r l, length (m_vars m1) = length (m_vars m) ->
  (forall j, ms j = false -> framed m m1 j) -> ok_after hs m1 ms base r l -> ok_after hs m ms base r l.
Proof.
  intros X hs m m1 ms base r l He Hf (A1 & A2 & A3 & A4). split; [auto|]. split; [congruence|]. split; [auto|].
  intros j Hj. eapply framed_trans; [apply Hf, Hj|apply A4, Hj].
Qed.

Lemma wp_rexec : forall n c m l base (ex : list handle -> Prop), linked m -> Permutation l (mem_handles impl_handles m ++ base) ->
  wp (rexec cf n c m) l (ok_after impl_handles m (rmentions c) base) ex.
Proof.
  intros n c m l base ex Hk Hl.
  assert (Hnone : forall ms o, ok_after impl_handles m ms base (m, o) l) by (intros; apply ok_none; auto).
  pose proof (wp_set_ok _ impl_destroy impl_handles impl_fin m) as Hset.
  destruct c as [has i p opts|i j|i j|i|has i|has i|i|i|i|i|i j]; cbn [rexec].
  - destruct (Nat.ltb_spec i (length (m_vars m))) as [Hi|]; [|apply Hnone]. unfold rshare_new. apply wp_bind.
    apply wp_stream_ctor. intros ec s Hg. destruct (good s) eqn:Hgs.
    + rewrite Hg by reflexivity. cbn [failed negb].
      apply (wp_new_ok _ impl_destroy impl_handles impl_fin); auto.
      unfold impl_handles at 1, stack_handles. cbn [fst flat_map]. rewrite app_nil_r. apply Permutation_app_head. exact Hl.
    + assert (He : stream_handles s = []) by (unfold good, stream_handles in *; destruct (ds_handle s); [discriminate|reflexivity]).
      assert (Hfr : forall j, rmentions (RNew has i p opts) j = false -> i <> j /\ framed m m j) by (intros j Hj; split; [apply eqb_apart; exact Hj|apply framed_refl]).
      rewrite He. cbn [app negb]. destruct (failed ec); [|apply Hset; auto; discriminate].
      apply wp_bind. apply (stream_fin s l l); [rewrite He; reflexivity|]. intros l' Hl'.
      destruct has; [apply Hset; auto; try discriminate; rewrite Hl'; exact Hl|].
      cbn [wp]. apply ok_none; auto. rewrite Hl'. exact Hl.
  - destruct ((i <? length (m_vars m)) && (j <? length (m_vars m))) eqn:Hij; [|apply Hnone].
    apply andb_true_iff in Hij. destruct Hij as [Hi Hj]. apply Nat.ltb_lt in Hi, Hj.
    unfold share_copy. apply Hset; auto.
    + intros a Ha. exact (var_refers _ m j a Hj Ha).
    + intros k Hm. apply orb_false_iff in Hm. split; [apply eqb_apart; apply Hm|apply framed_refl].
    + intros k a Hm Ha. exists j. apply orb_false_iff in Hm. split; [apply eqb_apart; apply Hm|exact Ha].
  - destruct ((i <? length (m_vars m)) && (j <? length (m_vars m))) eqn:Hij; [|apply Hnone].
    apply andb_true_iff in Hij. destruct Hij as [Hi Hj]. apply Nat.ltb_lt in Hi, Hj.
    apply (wp_move_ok _ impl_destroy impl_handles impl_fin); auto.
  - destruct (Nat.ltb_spec i (length (m_vars m))) as [Hi|]; [|apply Hnone]. unfold share_drop. apply Hset; auto; try discriminate.
    intros j Hj. split; [apply eqb_apart; exact Hj|apply framed_refl].
  - destruct (Nat.ltb_spec i (length (m_vars m))) as [Hi|]; [|apply Hnone]. unfold rshare_increment. apply wp_bind.
    assert (Hgo : forall m1 l1, ok_after impl_handles m (Nat.eqb i) base (m1, Completed None) l1 ->
      wp (rshare_advance cf n has i (Mem (m_objs m1) (upd (m_vars m1) i (fst (var_at m1 i), true)))) l1
        (ok_after impl_handles m (Nat.eqb i) base) ex).
    { intros m1 l1 (Hk1 & He1 & Hl1 & Hf1). cbn [fst] in *. set (m2 := Mem _ _).
      assert (He2 : length (m_vars m2) = length (m_vars m)) by (cbn [m2 m_vars]; rewrite upd_length; exact He1).
      eapply wp_mono; [apply (wp_radvance n has i m2 l1 base ex); [apply linked_flag; auto; lia|lia|exact Hl1]| |auto].
      intros r l2. apply ok_after_trans; auto. intros j Hj. eapply framed_trans; [apply Hf1, Hj|].
      apply framed_flag; [lia|apply eqb_apart; exact Hj]. }
    destruct (snd (var_at m i)).
    + eapply wp_mono; [apply (wp_rtry n i m l base ex Hk Hi Hl)| |auto].
      intros [[m1 b] ec] l1 A. cbn [fst] in *. destruct b; [exact A|].
      destruct (failed ec); [exact A|]. apply Hgo; auto.
    + cbn [wp failed]. apply Hgo. apply Hnone.
  - destruct (Nat.ltb_spec i (length (m_vars m))) as [Hi|]; [|apply Hnone]. unfold rshare_pop.
    destruct (fst (var_at m i)) as [a|] eqn:Ha; [|cbn [wp]; apply Hnone].
    destruct (obj_at m a) as [[[|s st] o]|] eqn:Hs; try exact Logic.I.
    destruct (put_handles impl_handles m a (s :: st, o) Hs) as (rest & P1 & P2).
    apply wp_bind. apply (stream_fin s l (stack_handles st ++ rest ++ base)).
    { rewrite Hl, P1. unfold impl_handles, stack_handles. cbn [fst flat_map]. rewrite <- !app_assoc. reflexivity. }
    intros l' Hl'. cbv zeta. set (m1 := put_obj m a (st, o)).
    assert (Hk1 : linked m1) by exact (linked_put m a _ _ Hs Hk).
    assert (Hl1 : Permutation l' (mem_handles impl_handles m1 ++ base)) by (unfold m1; rewrite P2, Hl', app_assoc; reflexivity).
    assert (Hf1 : forall j, Nat.eqb i j = false -> framed m m1 j) by (intros j Hj; exact (framed_put _ m a _ _ i j Ha Hs (eqb_apart _ _ Hj))).
    destruct (is_nil st).
    + apply Hset; auto; try discriminate. intros j Hj. split; [apply eqb_apart; exact Hj|apply Hf1; exact Hj].
    + eapply wp_mono; [apply (wp_radvance n has i m1 l' base ex); auto| |auto]. intros r l2. apply ok_after_trans; auto.
  - destruct (Nat.ltb_spec i (length (m_vars m))) as [Hi|]; [|apply Hnone]. cbn [wp]. unfold rshare_disable.
    split; [apply linked_flag; auto|]. split; [cbn [fst m_vars]; apply upd_length|]. split; [exact Hl|].
    intros j Hj. apply framed_flag; [exact Hi|apply eqb_apart; exact Hj].
  - destruct (Nat.ltb_spec i (length (m_vars m))) as [Hi|]; [|apply Hnone]. unfold rshare_deref.
    destruct (fst (var_at m i)) as [a|]; [|destruct (cf_dbg cf); exact Logic.I].
    destruct (obj_at m a) as [[[|s st] o]|]; [exact Logic.I|cbn [wp pbind]; apply Hnone|exact Logic.I].
  - destruct (Nat.ltb_spec i (length (m_vars m))) as [Hi|]; [|apply Hnone]. unfold rshare_depth.
    destruct (fst (var_at m i)) as [a|]; [|cbn [wp pbind]; apply Hnone].
    destruct (obj_at m a) as [[st o]|]; [cbn [wp pbind]; apply Hnone|exact Logic.I].
  - destruct (i <? length (m_vars m)); cbn [wp]; apply Hnone.
  - destruct ((i <? length (m_vars m)) && (j <? length (m_vars m))); cbn [wp]; apply Hnone.
Qed.

Lemma wp_rexec_all : forall n cs m l base (ex : list handle -> Prop), linked m -> Permutation l (mem_handles impl_handles m ++ base) ->
  wp (rexec_all cf n cs m) l (fun r l' => linked (fst r) /\ Permutation l' (mem_handles impl_handles (fst r) ++ base) /\
    (forall j, (forall c, In c cs -> rmentions c j = false) -> framed m (fst r) j)) ex.
Proof.
  intros n. induction cs as [|c cs IH]; intros m l base ex Hk Hl; cbn [rexec_all].
  { cbn [wp fst]. split; [auto|]. split; [auto|]. intros; apply framed_refl. }
  apply wp_bind. eapply wp_mono; [apply (wp_rexec n c m l base ex Hk Hl)| |auto].
  intros x l1 (A1 & A2 & A3 & A4). apply wp_bind. eapply wp_mono; [apply (IH (fst x) l1 base ex A1 A3)| |auto].
  intros y l2 (B1 & B2 & B3). cbn [wp fst]. split; [auto|]. split; [auto|]. intros j Hj.
  eapply framed_trans; [apply A4, Hj; left; auto|]. apply B3. intros c' Hc'. apply Hj. right. exact Hc'.
Qed.

End Programs.

(** * C88: no stream is lost or closed twice *)

(** The objects the iterators of a memory refer to, each once, and their open streams. *)
Definition pointers {X} (m : memory X) : list nat :=
  nodup Nat.eq_dec (flat_map (fun v : var => match fst v with Some a => [a] | None => [] end) (m_vars m)).
Definition open_streams {X} (streams : X -> list dstream) (m : memory X) : list handle :=
  flat_map (fun a => match obj_at m a with Some x => flat_map stream_handles (streams x) | None => [] end) (pointers m).

Lemma pointers_refers : forall X (m : memory X) a, In a (pointers m) <-> refers a (m_vars m) = true.
Proof.
  intros X m a. unfold pointers. rewrite nodup_In, in_flat_map. unfold refers. rewrite existsb_exists. split.
  - intros (v & Hv & Ha). exists v. split; auto. destruct (fst v); [|destruct Ha]. destruct Ha as [->|[]]. apply Nat.eqb_refl.
  - intros (v & Hv & Ha). exists v. split; auto. destruct (fst v); [|discriminate]. apply Nat.eqb_eq in Ha. subst. left. auto.
Qed.

Lemma flat_map_seq : forall A B (f : A -> list B) l k (d : nat -> A), (forall i x, nth_error l i = Some x -> d (k + i) = x) ->
  flat_map f l = flat_map (fun a => f (d a)) (seq k (length l)).
Proof.
  intros A B f. induction l as [|x l IH]; intros k d H; cbn; auto. f_equal.
  - pose proof (H 0 x eq_refl) as H0. rewrite Nat.add_0_r in H0. rewrite H0. reflexivity.
  - apply IH. intros i y Hy. replace (S k + i) with (k + S i) by lia. apply H. exact Hy.
Qed.

Lemma flat_map_nothing : forall A B (f : A -> list B) (q : A -> bool) l, (forall x, q x = false -> f x = []) ->
  flat_map f l = flat_map f (filter q l).
Proof.
  intros A B f q l H. induction l as [|x l IH]; cbn; auto. destruct (q x) eqn:Hq; cbn; [rewrite IH; reflexivity|].
  rewrite (H x Hq). exact IH.
Qed.

Lemma mem_open : forall X (streams : X -> list dstream) (hs : X -> list handle) m, linked m ->
  (forall x, hs x = flat_map stream_handles (streams x)) -> Permutation (mem_handles hs m) (open_streams streams m).
Proof.
  intros X streams hs m Hk Hh. unfold mem_handles, open_streams.
  set (f := fun a => match obj_at m a with Some x => flat_map stream_handles (streams x) | None => [] end).
  rewrite (flat_map_seq _ _ (obj_handles hs) (m_objs m) 0 (fun a => obj_at m a)).
  2: { intros i x Hx. unfold obj_at. cbn [Nat.add]. rewrite Hx. reflexivity. }
  rewrite (flat_map_ext _ f).
  2: { intros a. unfold f, obj_handles. destruct (obj_at m a); auto. }
  rewrite (flat_map_nothing _ _ f (fun a => refers a (m_vars m))).
  2: { intros a Ha. unfold f. destruct (obj_at m a) as [x|] eqn:Hx; auto. assert (refers a (m_vars m) = true) by (apply Hk; eauto). congruence. }
  apply Permutation_flat_map. apply NoDup_Permutation.
  - apply NoDup_filter, seq_NoDup.
  - apply NoDup_nodup.
  - intros a. rewrite filter_In, pointers_refers, in_seq. split; [tauto|]. intros Ha. split; auto.
    destruct (proj1 (Hk a) Ha) as (x & Hx). assert (a < length (m_objs m)); [|lia].
    apply nth_error_Some. rewrite (obj_at_nth m a x Hx). discriminate.
Qed.

Lemma fresh_linked : forall X k, linked (fresh k : memory X).
Proof.
  intros X k a. unfold obj_at. cbn [fresh m_objs m_vars]. rewrite (proj2 (nth_error_None (@nil (option X)) a)) by (cbn; lia). split.
  - intros H. apply refers_spec in H. destruct H as (i & _ & Hi). rewrite nth_repeat in Hi. discriminate.
  - intros (x & Hx). discriminate.
Qed.

(** Whatever a program does with its iterators - construct, copy, move, assign, destroy, advance, pop, fail, catch what is
    thrown and go on - it never uses a stream that is closed, never closes one twice, and at any time the streams open are
    those of the iterators it has: a stream is closed when it ends or when the last iterator
    referring to it goes. The program is cut where its behaviour is undefined (see C88_after_the_end). *)
Theorem C88_streams : forall cf n k (cs : list dcmd) (rs : list rcmd),
  handles_safe (dexec_all cf n cs (fresh k)) [] (fun r => open_streams (fun s => [s]) (fst r)) [] /\
  handles_safe (rexec_all cf n rs (fresh k)) [] (fun r => open_streams fst (fst r)) [].
Proof.
  intros cf n k cs rs. split; apply wp_safe.
  - eapply wp_mono; [apply (wp_dexec_all cf n cs (fresh k) [] [] (fun l => Permutation l [])); [apply fresh_linked|reflexivity]| |auto].
    intros r l (A1 & A3 & _). rewrite A3, app_nil_r. apply mem_open; auto. intros x. cbn. rewrite app_nil_r. reflexivity.
  - eapply wp_mono; [apply (wp_rexec_all cf n rs (fresh k) [] [] (fun l => Permutation l [])); [apply fresh_linked|reflexivity]| |auto].
    intros r l (A1 & A3 & _). rewrite A3, app_nil_r. apply mem_open; auto.
Qed.

(** In particular nothing is open once every iterator is at the end or gone. *)
Corollary C88_all_closed : forall X (streams : X -> list dstream) (m : memory X),
  (forall i, fst (var_at m i) = None) -> open_streams streams m = [].
Proof.
  intros X streams m H. unfold open_streams. assert (Hp : pointers m = []); [|rewrite Hp; reflexivity].
  destruct (pointers m) as [|a l] eqn:Hl; auto. assert (Ha : In a (pointers m)) by (rewrite Hl; left; auto).
  apply pointers_refers, refers_spec in Ha. destruct Ha as (i & _ & Hi). specialize (H i). unfold var_at in H. congruence.
Qed.

(** * C88: copies stand at the same entry *)

(** [k] increments of one iterator and the entry seen after each. *)
Fixpoint dsteps (cf : config) (n : nat) (has : bool) (k : nat) (it : dir_iter) : prog (list dir_entry) :=
  match k with
  | O => Ret []
  | S k' =>
      let! j := dir_iter_increment cf n has it in
      let! e := dir_iter_deref cf (fst j) in
      let! r := dsteps cf n has k' (fst j) in Ret (e :: r)
  end.
Fixpoint rsteps (cf : config) (n : nat) (has : bool) (k : nat) (it : rdir_iter) : prog (list dir_entry) :=
  match k with
  | O => Ret []
  | S k' =>
      let! j := rdir_increment cf n has it in
      let! e := rdir_deref cf (fst j) in
      let! r := rsteps cf n has k' (fst j) in Ret (e :: r)
  end.

(** The iterator [i] refers to the object [a]. *)
Definition at_obj {X} (m : memory X) (a i : nat) : Prop := i < length (m_vars m) /\ fst (var_at m i) = Some a.

Lemma at_ltb : forall X (m : memory X) a i, at_obj m a i -> (i <? length (m_vars m)) = true.
Proof. intros X m a i [H _]. apply Nat.ltb_lt. exact H. Qed.

Lemma put_same : forall X (m : memory X) a x y, obj_at m a = Some y -> obj_at (put_obj m a x) a = Some x.
Proof. intros X m a x y H. rewrite (obj_at_put m a x y a H), Nat.eqb_refl. reflexivity. Qed.

Lemma upd_nth : forall A (l : list A) i d, upd l i (nth i l d) = l.
Proof. induction l; intros [|i] d; cbn; auto. f_equal. apply IHl. Qed.

Lemma deref_none_not_done : forall cf S (h : kernel S) s e s', run h (dir_iter_deref cf None) s <> Done e s'.
Proof. intros cf S h s e s'. cbn. destruct (cf_dbg cf); discriminate. Qed.

Theorem C88_copies : forall cf n has S (h : kernel S) a (ij : list (nat * nat)) m st s es s',
  Forall (fun x => at_obj m a (fst x) /\ at_obj m a (snd x)) ij -> obj_at m a = Some st ->
  run h (dsteps cf n has (length ij) (Some st)) s = Done es s' ->
  exists m', run h (dexec_all cf n (flat_map (fun x => [DInc has (fst x); DDeref (snd x)]) ij) m) s =
    Done (m', flat_map (fun e => [Completed None; Shown e]) es) s' /\ m_vars m' = m_vars m.
Proof.
  intros cf n has S h a. induction ij as [|[i j] ij IH]; intros m st s es s' HF Ho Hr.
  - cbn in Hr. injection Hr as <- <-. exists m. split; reflexivity.
  - inversion HF as [|? ? [Hi Hj] HF']; subst. cbn [fst snd] in Hi, Hj. cbn [length dsteps] in Hr. rewrite run_bind in Hr.
    cbn [dir_iter_increment] in Hr. rewrite run_bind in Hr.
    destruct (run h (advance cf n st) s) as [[[ok ec] s1] t|f t] eqn:Hadv; [|discriminate]. cbn iota in Hr.
    destruct ok.
    2: { assert (Hbad : forall x ec', run h (let! e := dir_iter_deref cf (fst (@None dstream, ec' : ecode)) in
                          let! r := dsteps cf n has (length ij) (fst (@None dstream, ec')) in Ret (e :: r)) x <> Done es s').
         { intros x ec'. rewrite run_bind. cbn [fst]. pose proof (deref_none_not_done cf S h x) as Hn.
           destruct (run h (dir_iter_deref cf None) x) eqn:He; [exfalso; eapply Hn; eauto|discriminate]. }
         exfalso. destruct (failed ec); [unfold report in Hr; destruct has; cbn [run] in Hr; [|discriminate]|cbn [run] in Hr]; exact (Hbad _ _ Hr). }
    cbn [run fst dir_iter_deref pbind] in Hr. rewrite run_bind in Hr. destruct (run h (dsteps cf n has (length ij) (Some s1)) t) as [es1 t1|] eqn:Hst; [|discriminate].
    cbn [run] in Hr. injection Hr as <- <-.
    assert (HF1 : Forall (fun x => at_obj (put_obj m a s1) a (fst x) /\ at_obj (put_obj m a s1) a (snd x)) ij) by exact HF'.
    destruct (IH (put_obj m a s1) s1 t es1 t1 HF1 (put_same _ m a s1 st Ho) Hst) as (m' & Hm' & Hv).
    exists m'. split; [|exact Hv].
    cbn [flat_map app fst snd dexec_all]. rewrite run_bind. cbn [dexec]. rewrite (at_ltb _ m a i Hi).
    unfold share_increment. rewrite (proj2 Hi), Ho, run_bind, Hadv. cbn iota. cbn [run fst snd]. rewrite run_bind.
    cbn [dexec_all]. rewrite run_bind. cbn [dexec]. change (m_vars (put_obj m a s1)) with (m_vars m). rewrite (at_ltb _ m a j Hj).
    unfold share_deref. change (var_at (put_obj m a s1) j) with (var_at m j). rewrite (proj2 Hj), (put_same _ m a s1 st Ho).
    cbn [pbind run fst snd]. rewrite run_bind, Hm'. cbn [run fst snd]. reflexivity.
Qed.

Lemma put_put : forall X (m : memory X) a x y, put_obj (put_obj m a x) a y = put_obj m a y.
Proof.
  intros X m a x y. unfold put_obj. cbn [m_objs m_vars]. f_equal. generalize (m_objs m). clear m. intros l. revert a.
  induction l; intros [|a']; cbn; auto. f_equal. auto.
Qed.

Lemma run_rtry : forall cf n has S (h : kernel S) (m : memory shared_impl) a i st o s b ec im rc s',
  fst (var_at m i) = Some a -> obj_at m a = Some (st, o) ->
  run h (rdir_try cf n has (RIter (Some (st, o)) true)) s = Done (b, ec, RIter (Some im) rc) s' ->
  run h (rshare_try cf n i m) s = Done (put_obj m a im, b, None) s' /\ ec = None /\ rc = true.
Proof.
  intros cf n has S h m a i st o s b ec im rc s' Hv Ho Hr. unfold rdir_try in Hr. cbn [r_impl r_recursion] in Hr.
  unfold rshare_try. rewrite Hv, Ho. destruct st as [|t st]; [discriminate|]. rewrite run_bind in *.
  destruct (run h (if has_dopt do_follow_directory_symlink o then GetFileType cf true (ds_entry t) else GetSymLinkFileType cf true (ds_entry t)) s)
    as [[[ty ec0] e1] s1|]; [|discriminate]. cbn iota in Hr |- *.
  set (me := if failed ec0 && status_known (status_of_type ty) then None else ec0) in *. clearbody me.
  set (sk := if has_dopt do_follow_directory_symlink o then _ else _) in *. clearbody sk.
  rewrite run_bind in *.
  destruct (run h (if sk then Ret (me, None) else let! c := stream_ctor cf n (de_path e1) o in Ret (fst c, if good (snd c) then Some (snd c) else None)) s1)
    as [[m2 [new|]] s2|]; [| |discriminate]; cbn iota in Hr |- *.
  - destruct m2; cbn [run] in Hr |- *; injection Hr as <- <- <- <- <-; auto.
  - destruct m2 as [x|].
    + destruct (errno_eqb x EACCES && has_dopt do_skip_permission_denied o).
      * cbn [run] in Hr |- *. injection Hr as <- <- <- <- <-. auto.
      * exfalso. rewrite run_bind in Hr. destruct (run h (impl_reset _) s2) as [u s3|]; [|discriminate].
        rewrite run_bind in Hr. unfold report in Hr. destruct has; cbn [run] in Hr; discriminate.
    + cbn [run] in Hr |- *. injection Hr as <- <- <- <- <-. auto.
Qed.

Lemma run_rincrement : forall cf n has S (h : kernel S) (m : memory shared_impl) a i (x : shared_impl) s im rc ec s',
  at_obj m a i -> snd (var_at m i) = true -> obj_at m a = Some x ->
  run h (rdir_increment cf n has (RIter (Some x) true)) s = Done (RIter (Some im) rc, ec) s' ->
  run h (rshare_increment cf n has i m) s = Done (put_obj m a im, Completed None) s' /\ rc = true.
Proof.
  intros cf n has S h m a i [st o] s im rc ec s' [Hi Hv] Hrec Ho Hr. unfold rdir_increment in Hr. cbn [r_recursion] in Hr.
  rewrite run_bind in Hr. unfold rshare_increment. rewrite Hrec, run_bind.
  match type of Hr with context [run h ?q s] => destruct (run h q s) as [[[b e1] it1] s1|] eqn:Ht; [|discriminate] end. cbn iota in Hr.
  destruct it1 as [[im1|] rc1].
  - destruct (run_rtry cf n has S h m a i st o s b e1 im1 rc1 s1 Hv Ho Ht) as (H1 & -> & ->). rewrite H1. cbn iota.
    destruct b; cbn [orb failed] in *.
    + cbn [run] in *. injection Hr as <- <- _ <-. auto.
    + unfold rdir_advance in Hr. cbn [r_impl r_recursion] in Hr. destruct im1 as [st1 o1]. rewrite run_bind in Hr.
      set (m1 := put_obj m a (st1, o1)) in *.
      assert (Hvars : upd (m_vars m1) i (fst (var_at m1 i), true) = m_vars m1).
      { change (var_at m1 i) with (var_at m i). change (m_vars m1) with (m_vars m). rewrite <- Hrec, <- surjective_pairing. apply upd_nth. }
      rewrite Hvars. replace (Mem (m_objs m1) (m_vars m1)) with m1 by (destruct m1; reflexivity).
      unfold rshare_advance. change (var_at m1 i) with (var_at m i). rewrite Hv.
      unfold m1. rewrite (put_same _ m a (st1, o1) (st, o) Ho). rewrite run_bind.
      destruct (run h (advance_stack cf n st1) s1) as [[[[st2|] e2] rem] s2|]; [| |discriminate]; cbn iota in *.
      * cbn [run] in *. injection Hr as <- <- _ <-. rewrite put_put. auto.
      * exfalso. rewrite run_bind in Hr. destruct (run h (impl_reset rem) s2); [|discriminate].
        destruct (failed e2); [rewrite run_bind in Hr; unfold report in Hr; destruct has|]; cbn [run] in Hr; discriminate.
  - exfalso. destruct (b || failed e1); cbn [run r_impl] in Hr; [discriminate|].
    unfold rdir_advance in Hr. cbn [r_impl] in Hr. rewrite run_bind in Hr. unfold report in Hr. destruct has; cbn [run] in Hr; discriminate.
Qed.

(** The same for recursive iterators whose recursion is pending, as it is unless disable_recursion_pending was called. *)
Theorem C88_recursive_copies : forall cf n has S (h : kernel S) a (ij : list (nat * nat)) (m : memory shared_impl) x s es s',
  Forall (fun y => (at_obj m a (fst y) /\ snd (var_at m (fst y)) = true) /\ at_obj m a (snd y)) ij -> obj_at m a = Some x ->
  run h (rsteps cf n has (length ij) (RIter (Some x) true)) s = Done es s' ->
  exists m', run h (rexec_all cf n (flat_map (fun y => [RInc has (fst y); RDeref (snd y)]) ij) m) s =
    Done (m', flat_map (fun e => [Completed None; Shown e]) es) s' /\ m_vars m' = m_vars m.
Proof.
  intros cf n has S h a. induction ij as [|[i j] ij IH]; intros m x s es s' HF Ho Hr.
  - cbn in Hr. injection Hr as <- <-. exists m. split; reflexivity.
  - inversion HF as [|? ? [[Hi Hp] Hj] HF']; subst. cbn [fst snd] in Hi, Hj, Hp. cbn [length rsteps] in Hr. rewrite run_bind in Hr.
    match type of Hr with context [run h ?q s] => destruct (run h q s) as [[it ec] t|] eqn:Hinc; [|discriminate] end. cbn iota in Hr.
    rewrite run_bind in Hr. cbn [fst] in Hr.
    destruct it as [[im|] rc].
    2: { exfalso. unfold rdir_deref in Hr. cbn [r_impl] in Hr. destruct (cf_dbg cf); cbn in Hr; discriminate. }
    destruct (run_rincrement cf n has S h m a i x s im rc ec t Hi Hp Ho Hinc) as [H1 ->].
    destruct im as [[|d st] o]; [cbn in Hr; discriminate|]. cbn [rdir_deref r_impl run] in Hr. rewrite run_bind in Hr.
    match type of Hr with context [run h ?q t] => destruct (run h q t) as [es1 t1|] eqn:Hst; [|discriminate] end.
    cbn [run] in Hr. injection Hr as <- <-.
    set (m1 := put_obj m a (d :: st, o)) in *.
    destruct (IH m1 (d :: st, o) t es1 t1 HF' (put_same _ m a _ _ Ho) Hst) as (m' & Hm' & Hv).
    exists m'. split; [|exact Hv].
    cbn [flat_map app fst snd rexec_all]. rewrite run_bind. cbn [rexec]. rewrite (at_ltb _ m a i Hi), H1. cbn [fst snd]. rewrite run_bind.
    cbn [rexec_all]. rewrite run_bind. cbn [rexec]. change (m_vars m1) with (m_vars m). rewrite (at_ltb _ m a j Hj).
    unfold rshare_deref. change (var_at m1 j) with (var_at m j). rewrite (proj2 Hj). unfold m1. rewrite (put_same _ m a _ _ Ho).
    cbn [pbind run fst snd]. rewrite run_bind. fold m1. rewrite Hm'. cbn [run fst snd]. reflexivity.
Qed.

(** * C88: after the end *)

Lemma refers_after : forall X (m : memory X) a i j v, at_obj m a i -> at_obj m a j -> i <> j -> refers a (upd (m_vars m) i v) = true.
Proof. intros X m a i j v [Hi _] [Hj Hv] Hn. apply refers_upd; auto. right. exists j. auto. Qed.

(** One of the copies reaches the end (or an error [ec]): it is an end iterator then, but the others are not. They still show
    the last entry; advancing them is undefined (readdir on a null stream). *)
Theorem C88_after_the_end : forall cf n S (h : kernel S) m a i j st s ec s' has has',
  at_obj m a i -> at_obj m a j -> i <> j -> obj_at m a = Some st ->
  run h (dir_iter_increment cf n true (Some st)) s = Done (None, ec) s' ->
  (exists m', run h (dexec_all cf n [DInc has i; DEqual i j; DDeref j] m) s =
     Done (m', [if failed ec then tell has ec else Completed None; Answer false; Shown (ds_entry st)]) s') /\
  run h (dexec_all cf n [DInc has i; DInc has' j] m) s = Failed FUB s'.
Proof.
  intros cf n S h m a i j st s ec s' has has' Hi Hj Hij Ho Hr. cbn [dir_iter_increment] in Hr. rewrite run_bind in Hr.
  destruct n as [|n]; [discriminate|].
  destruct (run h (advance cf (Datatypes.S n) st) s) as [[[ok e1] st1] t|] eqn:Ha; [|discriminate]. cbn iota in Hr.
  destruct ok; [discriminate|].
  assert (Hst1 : ds_handle st1 = None /\ ds_entry st1 = ds_entry st).
  { assert (Hgen : forall k s0 r e x t0, run h (advance cf k st) s0 = Done (r, e, x) t0 -> r = false -> ds_handle x = None /\ ds_entry x = ds_entry st).
    { induction k as [|k IHk]; intros s0 r e x t0 Hk Hf; [discriminate|]. cbn [advance] in Hk. destruct (ds_handle st) as [d|] eqn:Hd; [|discriminate].
      rewrite run_bind in Hk. destruct (run h (posix_readdir d) s0) as [[[nm ty] e2] t2|]; [|discriminate]. cbn iota in Hk.
      destruct (str_eqb nm (lit ".") || str_eqb nm (lit "..")); [eapply IHk; eauto|].
      destruct (failed e2 || is_nil nm).
      - cbn [run] in Hk. destruct (h (c_closedir d) t2). injection Hk as _ _ <- _. auto.
      - exfalso. rewrite run_bind in Hk. destruct (run h (lift _) t2); [|discriminate]. cbn [run] in Hk. injection Hk as <- _ _ _. discriminate. }
    exact (Hgen _ _ _ _ _ _ Ha eq_refl). }
  assert (Hec : e1 = ec /\ t = s').
  { destruct e1; cbn [failed report run] in Hr; injection Hr as <- <-; auto. }
  destruct Hec as [-> ->]. destruct Hst1 as [Hh He]. destruct Hi as [Hi1 Hi2]. destruct Hj as [Hj1 Hj2].
  set (x := Stream (ds_handle st1) (snd (move_ctor Posix (ds_root st1))) (ds_entry st1)).
  set (m1 := Mem (m_objs (put_obj m a x)) (upd (m_vars m) i (None, false))).
  assert (Hinc : forall b, run h (dexec cf (Datatypes.S n) (DInc b i) m) s = Done (m1, if failed ec then tell b ec else Completed None) s').
  { intros b. cbn [dexec]. rewrite (proj2 (Nat.ltb_lt i (length (m_vars m))) Hi1). unfold share_increment. rewrite Hi2, Ho, run_bind, Ha. cbn iota.
    rewrite run_bind. fold x. unfold set_var, release. change (var_at (put_obj m a x) i) with (var_at m i). rewrite Hi2. cbn [m_vars put_obj].
    rewrite (refers_after _ m a i j (None, false)); [|split; auto|split; auto|auto]. cbn [run]. reflexivity. }
  assert (Hlen : length (m_vars m1) = length (m_vars m)) by (cbn [m1 m_vars]; apply upd_length).
  assert (Hvi : var_at m1 i = (None, false)) by (unfold var_at; cbn [m1 m_vars]; apply nth_upd_same; auto).
  assert (Hvj : fst (var_at m1 j) = Some a) by (unfold var_at; cbn [m1 m_vars]; rewrite nth_upd_other by auto; exact Hj2).
  assert (Hox : obj_at m1 a = Some x) by exact (put_same _ m a x st Ho).
  assert (Hli : (i <? length (m_vars m1)) = true) by (apply Nat.ltb_lt; lia).
  assert (Hlj : (j <? length (m_vars m1)) = true) by (apply Nat.ltb_lt; lia).
  split.
  - exists m1. cbn [dexec_all]. rewrite run_bind, Hinc. cbn [fst snd]. rewrite run_bind. cbn [dexec]. rewrite Hli, Hlj. cbn [andb].
    rewrite run_bind. cbn [run fst snd]. rewrite run_bind. rewrite run_bind. cbn [dexec]. rewrite Hlj. unfold share_deref. rewrite Hvj, Hox. cbn [pbind run fst snd].
    unfold share_equal. rewrite Hvi, Hvj. cbn [fst]. change (ds_entry x) with (ds_entry st1). rewrite He. reflexivity.
  - cbn [dexec_all]. rewrite run_bind, Hinc. cbn [fst snd]. rewrite run_bind. rewrite run_bind. cbn [dexec]. rewrite Hlj.
    unfold share_increment. rewrite Hvj, Hox, run_bind. cbn [advance]. change (ds_handle x) with (ds_handle st1). rewrite Hh. reflexivity.
Qed.

Lemma advance_stack_end : forall cf n S (h : kernel S) st s rem s',
  run h (advance_stack cf n st) s = Done (None, None, rem) s' -> rem = [].
Proof.
  intros cf n S h. induction st as [|x st IH]; intros s rem s' Hr; cbn [advance_stack] in Hr.
  - cbn [run] in Hr. injection Hr as <- _. reflexivity.
  - rewrite run_bind in Hr. destruct (run h (advance cf n x) s) as [[[ok ec] s1] t|]; [|discriminate]. cbn iota in Hr.
    destruct ok; [discriminate|]. destruct ec; cbn [failed] in Hr; [discriminate|]. exact (IH _ _ _ Hr).
Qed.

(** A recursive iterator keeps nothing of the entry: the stack is empty, so that the depth is -1 and looking is undefined, and so is
    advancing unless the recursion was disabled; then the other copy becomes an end iterator too. *)
Theorem C88_recursive_after_the_end : forall cf n S (h : kernel S) (m : memory shared_impl) a i j (x : shared_impl) s rc s' has has',
  at_obj m a i -> at_obj m a j -> i <> j -> obj_at m a = Some x -> snd (var_at m i) = true ->
  run h (rdir_increment cf n true (RIter (Some x) true)) s = Done (RIter None rc, None) s' ->
  (exists m', run h (rexec_all cf n [RInc has i; REqual i j; RDepth j] m) s =
     Done (m', [Completed None; Answer false; Count (-1)]) s') /\
  run h (rexec_all cf n [RInc has i; RDeref j] m) s = Failed FUB s' /\
  (snd (var_at m j) = true -> run h (rexec_all cf n [RInc has i; RInc has' j] m) s = Failed FUB s') /\
  (snd (var_at m j) = false -> exists m', run h (rexec_all cf n [RInc has i; RInc has' j; REqual i j] m) s =
     Done (m', [Completed None; Completed None; Answer true]) s').
Proof.
  intros cf n S h m a i j [st o] s rc s' has has' Hi Hj Hij Ho Hpi Hr. unfold rdir_increment in Hr. cbn [r_recursion] in Hr.
  rewrite run_bind in Hr.
  match type of Hr with context [run h ?q s] => destruct (run h q s) as [[[b e1] it1] s1|] eqn:Ht; [|discriminate] end. cbn iota in Hr.
  destruct Hi as [Hi1 Hi2]. destruct Hj as [Hj1 Hj2].
  destruct it1 as [[im1|] rc1].
  2: { exfalso. destruct e1 as [e|].
       - destruct b; cbn [orb failed run] in Hr; discriminate.
       - unfold rdir_try in Ht. cbn [r_impl] in Ht. destruct st as [|t st]; [discriminate|]. rewrite run_bind in Ht.
         match type of Ht with context [run h ?q s] => destruct (run h q s) as [[[ty ec0] e1] s2|]; [|discriminate] end. cbn iota in Ht.
         rewrite run_bind in Ht.
         match type of Ht with context [run h ?q s2] => destruct (run h q s2) as [[m2 [new|]] s3|]; [| |discriminate] end; cbn iota in Ht.
         + destruct m2; cbn [run] in Ht; discriminate.
         + destruct m2 as [x|]; [|cbn [run] in Ht; discriminate].
           destruct (errno_eqb x EACCES && has_dopt do_skip_permission_denied o); [cbn [run] in Ht; discriminate|].
           rewrite run_bind in Ht. match type of Ht with context [run h ?q s3] => destruct (run h q s3) as [u s4|]; [|discriminate] end.
           cbn [report pbind run] in Ht. discriminate. }
  destruct (run_rtry cf n true S h m a i st o s b e1 im1 rc1 s1 Hi2 Ho Ht) as (H1 & -> & ->).
  destruct b; cbn [orb failed] in Hr; [cbn [run] in Hr; discriminate|].
  unfold rdir_advance in Hr. cbn [r_impl r_recursion] in Hr. destruct im1 as [st1 o1]. rewrite run_bind in Hr.
  destruct (run h (advance_stack cf n st1) s1) as [[[[st2|] e2] rem] s2|] eqn:Hadv; [| |discriminate]; cbn iota in Hr.
  { cbn [run] in Hr. discriminate. }
  assert (He2 : e2 = None).
  { rewrite run_bind in Hr. destruct (run h (impl_reset rem) s2); [|discriminate]. destruct e2; auto. cbn [failed report pbind run] in Hr. discriminate. }
  subst e2. pose proof (advance_stack_end _ _ _ _ _ _ _ _ Hadv) as ->. cbn [impl_reset rev close_all pbind failed run] in Hr. injection Hr as _ <-.
  set (m0 := put_obj m a (st1, o1)) in *.
  set (m1 := Mem (m_objs (put_obj m0 a ([], o1))) (upd (m_vars m) i (None, true))).
  assert (Hvars : upd (m_vars m0) i (fst (var_at m0 i), true) = m_vars m0).
  { change (var_at m0 i) with (var_at m i). change (m_vars m0) with (m_vars m). rewrite <- Hpi, <- surjective_pairing. apply upd_nth. }
  assert (Ho0 : obj_at m0 a = Some (st1, o1)) by exact (put_same _ m a _ _ Ho).
  assert (Hinc : forall b, run h (rexec cf n (RInc b i) m) s = Done (m1, Completed None) s2).
  { intros b. cbn [rexec]. rewrite (proj2 (Nat.ltb_lt i (length (m_vars m))) Hi1). unfold rshare_increment. rewrite Hpi, run_bind, H1. cbn iota.
    cbn [failed]. rewrite Hvars. replace (Mem (m_objs m0) (m_vars m0)) with m0 by reflexivity.
    unfold rshare_advance. change (var_at m0 i) with (var_at m i). rewrite Hi2, Ho0, run_bind, Hadv. cbn iota. rewrite run_bind.
    unfold set_var, release. change (var_at (put_obj m0 a ([], o1)) i) with (var_at m i). rewrite Hi2. cbn [m_vars put_obj m0].
    rewrite (refers_after _ m a i j (None, snd (var_at m i))); [|split; auto|split; auto|auto]. cbn [run failed]. rewrite Hpi. reflexivity. }
  assert (Hlen : length (m_vars m1) = length (m_vars m)) by (cbn [m1 m_vars]; apply upd_length).
  assert (Hvi : var_at m1 i = (None, true)) by (unfold var_at; cbn [m1 m_vars]; apply nth_upd_same; auto).
  assert (Hvj : var_at m1 j = (Some a, snd (var_at m j))).
  { unfold var_at at 1; cbn [m1 m_vars]; rewrite nth_upd_other by auto. rewrite <- Hj2. apply surjective_pairing. }
  assert (Hox : obj_at m1 a = Some ([], o1)) by exact (put_same _ m0 a _ _ Ho0).
  assert (Hli : (i <? length (m_vars m1)) = true) by (apply Nat.ltb_lt; lia).
  assert (Hlj : (j <? length (m_vars m1)) = true) by (apply Nat.ltb_lt; lia).
  split; [|split; [|split]].
  - exists m1. cbn [rexec_all]. rewrite run_bind, Hinc. cbn [fst snd]. rewrite run_bind. cbn [rexec]. rewrite Hli, Hlj. cbn [andb].
    rewrite run_bind. cbn [run fst snd]. rewrite run_bind. rewrite run_bind. cbn [rexec]. rewrite Hlj. unfold rshare_depth. rewrite Hvj. cbn [fst].
    rewrite Hox. cbn [pbind run fst snd]. unfold share_equal. rewrite Hvi, Hvj. reflexivity.
  - cbn [rexec_all]. rewrite run_bind, Hinc. cbn [fst snd]. rewrite run_bind. rewrite run_bind. cbn [rexec]. rewrite Hlj. unfold rshare_deref.
    rewrite Hvj. cbn [fst]. rewrite Hox. reflexivity.
  - intros Hpj. cbn [rexec_all]. rewrite run_bind, Hinc. cbn [fst snd]. rewrite run_bind. rewrite run_bind. cbn [rexec]. rewrite Hlj.
    unfold rshare_increment, rshare_try. rewrite Hvj, Hpj. cbn [fst snd]. rewrite Hox. reflexivity.
  - intros Hpj. set (m2 := Mem (m_objs m1) (upd (m_vars m1) j (fst (var_at m1 j), true))).
    assert (Hv2 : var_at m2 j = (Some a, true)).
    { unfold var_at; cbn [m2 m_vars]. rewrite nth_upd_same by lia. rewrite Hvj. reflexivity. }
    assert (Ho2 : obj_at m2 a = Some ([], o1)) by exact Hox.
    assert (Hq : exists m3, run h (rexec cf n (RInc has' j) m1) s2 = Done (m3, Completed None) s2 /\ m_vars m3 = upd (m_vars m2) j (None, true)).
    { cbn [rexec]. rewrite Hlj. unfold rshare_increment. rewrite Hvj, Hpj. cbn [fst snd]. cbn iota. cbn [pbind failed].
      fold m2.
      unfold rshare_advance. rewrite Hv2. cbn [fst snd]. rewrite Ho2. cbn [advance_stack pbind]. cbn iota. rewrite run_bind.
      unfold set_var, release. change (var_at (put_obj m2 a ([], o1)) j) with (var_at m2 j). rewrite Hv2. cbn [fst].
      destruct (refers a _).
      - cbn [run failed]. eexists. split; reflexivity.
      - match goal with |- context [obj_at ?mm a] => replace (obj_at mm a) with (Some ([] : list dstream, o1)) end.
        2: { symmetry. exact (put_same _ m2 a ([], o1) _ Ho2). }
        cbn [impl_destroy impl_reset fst rev close_all pbind run failed]. eexists. split; reflexivity. }
    destruct Hq as (m3 & Hq & Hv3). exists m3. cbn [rexec_all]. rewrite run_bind, Hinc. cbn [fst snd]. rewrite run_bind, run_bind, Hq.
    cbn [fst snd]. rewrite run_bind, run_bind. cbn [rexec].
    assert (Hlen3 : length (m_vars m3) = length (m_vars m)) by (rewrite Hv3; cbn [m2 m_vars]; rewrite !upd_length; exact Hlen).
    rewrite !Hlen3, (proj2 (Nat.ltb_lt _ _) Hi1), (proj2 (Nat.ltb_lt _ _) Hj1). cbn [andb run pbind fst snd].
    unfold share_equal.
    assert (E1 : var_at m3 i = (None, true)).
    { unfold var_at. rewrite Hv3, nth_upd_other by auto. cbn [m2 m_vars]. rewrite nth_upd_other by auto. exact Hvi. }
    assert (E2 : var_at m3 j = (None, true)).
    { unfold var_at. rewrite Hv3. apply nth_upd_same. cbn [m2 m_vars]. rewrite upd_length. lia. }
    rewrite E1, E2. reflexivity.
Qed.

(** When a directory cannot be entered, the iterator that was incremented becomes an end iterator and reports the error; the other copies
    still refer to the entry, but its path is empty. *)
Theorem C88_recursive_after_error : forall cf n S (h : kernel S) (m : memory shared_impl) a i j st o s b x it s' has,
  at_obj m a i -> at_obj m a j -> i <> j -> obj_at m a = Some (st, o) -> snd (var_at m i) = true ->
  run h (rdir_try cf n true (RIter (Some (st, o)) true)) s = Done (b, Some x, it) s' ->
  exists m' e t, run h (rexec_all cf n [RInc has i; REqual i j; RDeref j] m) s = Done (m', [tell has (Some x); Answer false; Shown e]) t /\
    pathname (de_path e) = [].
Proof.
  intros cf n S h m a i j st o s b x it s' has [Hi1 Hi2] [Hj1 Hj2] Hij Ho Hpi Hr.
  unfold rdir_try in Hr. cbn [r_impl] in Hr. destruct st as [|t st]; [discriminate|]. rewrite run_bind in Hr.
  match type of Hr with context [run h ?q s] => destruct (run h q s) as [[[ty ec0] e1] s2|] eqn:Hg; [|discriminate] end. cbn iota in Hr.
  rewrite run_bind in Hr.
  match type of Hr with context [run h ?q s2] => destruct (run h q s2) as [[m2 [new|]] s3|] eqn:Hq; [| |discriminate] end; cbn iota in Hr.
  { destruct m2; cbn [run] in Hr; discriminate. }
  destruct m2 as [y|]; [|cbn [run] in Hr; discriminate].
  destruct (errno_eqb y EACCES && has_dopt do_skip_permission_denied o) eqn:Hsk; [cbn [run] in Hr; discriminate|].
  rewrite run_bind in Hr. match type of Hr with context [run h ?q s3] => destruct (run h q s3) as [u s4|]; [|discriminate] end.
  cbn [report pbind run fst snd] in Hr. injection Hr as <- <- <- <-.
  set (e := Entry (snd (move_ctor Posix (de_path e1))) (de_data e1)).
  set (m0 := put_obj m a (Stream (ds_handle t) (ds_root t) e :: st, o)).
  set (m1 := Mem (m_objs m0) (upd (m_vars m) i (None, true))).
  assert (Hinc : run h (rexec cf n (RInc has i) m) s = Done (m1, tell has (Some y)) s3).
  { cbn [rexec]. rewrite (proj2 (Nat.ltb_lt i (length (m_vars m))) Hi1). unfold rshare_increment. rewrite Hpi, run_bind.
    unfold rshare_try. rewrite Hi2, Ho, run_bind, Hg. cbn iota. rewrite run_bind, Hq. cbn iota. rewrite Hsk. cbv zeta. rewrite run_bind. fold e. fold m0.
    unfold set_var, release. change (var_at m0 i) with (var_at m i). rewrite Hi2. change (m_vars m0) with (m_vars m). cbn [m_vars].
    rewrite (refers_after _ m a i j (None, snd (var_at m i))); [|split; auto|split; auto|auto]. cbn [run failed]. rewrite Hpi. reflexivity. }
  assert (Hlen : length (m_vars m1) = length (m_vars m)) by (cbn [m1 m_vars]; apply upd_length).
  assert (Hvi : var_at m1 i = (None, true)) by (unfold var_at; cbn [m1 m_vars]; apply nth_upd_same; auto).
  assert (Hvj : fst (var_at m1 j) = Some a) by (unfold var_at; cbn [m1 m_vars]; rewrite nth_upd_other by auto; exact Hj2).
  assert (Hox : obj_at m1 a = Some (Stream (ds_handle t) (ds_root t) e :: st, o)) by exact (put_same _ m a _ _ Ho).
  assert (Hli : (i <? length (m_vars m1)) = true) by (apply Nat.ltb_lt; lia).
  assert (Hlj : (j <? length (m_vars m1)) = true) by (apply Nat.ltb_lt; lia).
  exists m1, e, s3. split; [|reflexivity].
  cbn [rexec_all]. rewrite run_bind, Hinc. cbn [fst snd]. rewrite run_bind. cbn [rexec]. rewrite Hli, Hlj. cbn [andb].
  rewrite run_bind. cbn [run fst snd]. rewrite run_bind, run_bind. cbn [rexec]. rewrite Hlj. unfold rshare_deref. rewrite Hvj, Hox. cbn [pbind run fst snd].
  unfold share_equal. rewrite Hvi, Hvj. reflexivity.
Qed.

(** * C88: iterators that share nothing do not affect each other *)

Lemma wp_done : forall A (q : prog A) S (h : kernel S) s held (P : A -> Prop) a s',
  wp q held (fun a _ => P a) (fun _ => True) -> run h q s = Done a s' -> P a.
Proof.
  intros A q S h. induction q as [a|f|c k IH]; intros s held P x s' H Hr; cbn in *.
  - injection Hr as <- <-. exact H.
  - discriminate.
  - destruct (h c s) as [r s1]. destruct (H r) as (y & _ & Hy). exact (IH r s1 y P x s' Hy Hr).
Qed.

(** In a memory a program has reached, an iterator without copies is not affected by anything done with the others: it refers to the same
    object in the same state, and has no copies still. *)
Theorem C88_separate : forall cf n k S (h : kernel S) s0 s j,
  (forall cs0 m os0 cs m' os s', run h (dexec_all cf n cs0 (fresh k)) s0 = Done (m, os0) s -> alone m j ->
     (forall c, In c cs -> dmentions c j = false) -> run h (dexec_all cf n cs m) s = Done (m', os) s' ->
     alone m' j /\ var_at m' j = var_at m j /\ seen m' j = seen m j /\ share_deref cf j m' = share_deref cf j m) /\
  (forall cs0 m os0 cs m' os s', run h (rexec_all cf n cs0 (fresh k)) s0 = Done (m, os0) s -> alone m j ->
     (forall c, In c cs -> rmentions c j = false) -> run h (rexec_all cf n cs m) s = Done (m', os) s' ->
     alone m' j /\ var_at m' j = var_at m j /\ seen m' j = seen m j /\ rshare_deref cf j m' = rshare_deref cf j m /\
     rshare_depth j m' = rshare_depth j m).
Proof.
  intros cf n k S h s0 s j. split; intros cs0 m os0 cs m' os s' H0 Ha Hc Hr.
  - assert (Hk : linked m).
    { refine (wp_done _ _ _ h s0 [] (fun r => linked (fst r)) _ _ _ H0). eapply wp_mono.
      - apply (wp_dexec_all cf n cs0 (fresh k) [] [] (fun _ => True)); [apply fresh_linked|reflexivity].
      - intros r l (A & _). exact A.
      - auto. }
    assert (Hf : framed m m' j).
    { refine (wp_done _ _ _ h s _ (fun r => framed m (fst r) j) _ _ _ Hr). eapply wp_mono.
      - apply (wp_dexec_all cf n cs m _ [] (fun _ => True) Hk). reflexivity.
      - intros r l (_ & _ & A). apply A. exact Hc.
      - auto. }
    destruct (Hf Ha) as (A1 & A2 & A3). repeat (split; [assumption|]). unfold share_deref. unfold seen in A3. rewrite A2 in *.
    destruct (fst (var_at m j)); [rewrite A3|]; reflexivity.
  - assert (Hk : linked m).
    { refine (wp_done _ _ _ h s0 [] (fun r => linked (fst r)) _ _ _ H0). eapply wp_mono.
      - apply (wp_rexec_all cf n cs0 (fresh k) [] [] (fun _ => True)); [apply fresh_linked|reflexivity].
      - intros r l (A & _). exact A.
      - auto. }
    assert (Hf : framed m m' j).
    { refine (wp_done _ _ _ h s _ (fun r => framed m (fst r) j) _ _ _ Hr). eapply wp_mono.
      - apply (wp_rexec_all cf n cs m _ [] (fun _ => True) Hk). reflexivity.
      - intros r l (_ & _ & A). apply A. exact Hc.
      - auto. }
    destruct (Hf Ha) as (A1 & A2 & A3). repeat (split; [assumption|]). unfold rshare_deref, rshare_depth. unfold seen in A3. rewrite A2 in *.
    destruct (fst (var_at m j)); [rewrite A3|]; split; reflexivity.
Qed.

(** * C88: the pending recursion belongs to one iterator *)

Lemma upd_comm : forall A (l : list A) i j x y, i <> j -> upd (upd l i x) j y = upd (upd l j y) i x.
Proof. induction l; intros [|i] [|j] x y H; cbn; auto; try congruence. f_equal. apply IHl. congruence. Qed.

Section Pending.
Variable i : nat.

(** The same outcome with the flag of [i] cleared. *)
Let cleared {B St} (r : outcome (memory shared_impl * B) St) : outcome (memory shared_impl * B) St :=
  match r with Done x s => Done (rshare_disable i (fst x), snd x) s | Failed f s => Failed f s end.

Lemma disable_vars : forall m j, j <> i -> var_at (rshare_disable i m) j = var_at m j.
Proof. intros m j H. unfold var_at. cbn [rshare_disable m_vars]. apply nth_upd_other. auto. Qed.
Lemma disable_obj : forall m a, obj_at (rshare_disable i m) a = obj_at m a.
Proof. reflexivity. Qed.
Lemma disable_put : forall m a x, put_obj (rshare_disable i m) a x = rshare_disable i (put_obj m a x).
Proof. reflexivity. Qed.
Lemma disable_length : forall m, length (m_vars (rshare_disable i m)) = length (m_vars m).
Proof. intros m. cbn [rshare_disable m_vars]. apply upd_length. Qed.
Lemma disable_upd : forall m os j v, j <> i ->
  Mem os (upd (m_vars (rshare_disable i m)) j v) = rshare_disable i (Mem os (upd (m_vars m) j v)).
Proof.
  intros m os j v H. unfold rshare_disable. cbn [m_objs m_vars]. f_equal. rewrite upd_comm by auto. f_equal.
  unfold var_at. cbn [m_vars]. rewrite nth_upd_other by auto. reflexivity.
Qed.
Lemma upd_beyond : forall A (l : list A) k x, length l <= k -> upd l k x = l.
Proof. induction l; intros [|k] x H; cbn in *; auto; [lia|]. f_equal. apply IHl. lia. Qed.
Lemma disable_refers : forall m a, refers a (m_vars (rshare_disable i m)) = refers a (m_vars m).
Proof.
  intros m a. cbn [rshare_disable m_vars]. destruct (Nat.ltb_spec i (length (m_vars m))) as [H|H].
  - unfold var_at. apply refers_flag. exact H.
  - rewrite upd_beyond by exact H. reflexivity.
Qed.

Lemma disable_release : forall fin old m St (h : kernel St) s,
  run h (release fin old (rshare_disable i m)) s =
  match run h (release fin old m) s with Done m' s' => Done (rshare_disable i m') s' | Failed f s' => Failed f s' end.
Proof.
  intros fin [a|] m St h s; cbn [release]; [|reflexivity]. rewrite disable_refers, disable_obj.
  destruct (refers a (m_vars m)); [reflexivity|]. destruct (obj_at m a); [|reflexivity]. rewrite !run_bind.
  destruct (run h (fin s0) s); reflexivity.
Qed.

Lemma disable_set : forall fin j v m St (h : kernel St) s, j <> i ->
  run h (set_var fin j v (rshare_disable i m)) s =
  match run h (set_var fin j v m) s with Done m' s' => Done (rshare_disable i m') s' | Failed f s' => Failed f s' end.
Proof.
  intros fin j v m St h s H. unfold set_var. rewrite disable_vars by auto. change (m_objs (rshare_disable i m)) with (m_objs m).
  rewrite disable_upd by auto. apply disable_release.
Qed.

Lemma disable_set_then : forall fin j v m B (o : B) St (h : kernel St) s, j <> i ->
  run h (let! m1 := set_var fin j v (rshare_disable i m) in Ret (m1, o)) s = cleared (run h (let! m1 := set_var fin j v m in Ret (m1, o)) s).
Proof.
  intros fin j v m B o St h s H. rewrite !run_bind, disable_set by auto. destruct (run h (set_var fin j v m) s); reflexivity.
Qed.

Lemma disable_advance : forall cf n has j m St (h : kernel St) s, j <> i ->
  run h (rshare_advance cf n has j (rshare_disable i m)) s = cleared (run h (rshare_advance cf n has j m) s).
Proof.
  intros cf n has j m St h s H. unfold rshare_advance. rewrite disable_vars by auto. destruct (fst (var_at m j)) as [a|]; [|reflexivity].
  rewrite disable_obj. destruct (obj_at m a) as [[st o]|]; [|reflexivity]. rewrite !run_bind.
  destruct (run h (advance_stack cf n st) s) as [[[[st2|] e2] rem] s2|]; cbn iota; [reflexivity| |reflexivity].
  rewrite disable_put. apply disable_set_then. exact H.
Qed.

Lemma disable_try : forall cf n j m St (h : kernel St) s, j <> i ->
  run h (rshare_try cf n j (rshare_disable i m)) s =
  match run h (rshare_try cf n j m) s with Done x s' => Done (rshare_disable i (fst (fst x)), snd (fst x), snd x) s' | Failed f s' => Failed f s' end.
Proof.
  intros cf n j m St h s H. unfold rshare_try. rewrite disable_vars by auto. destruct (fst (var_at m j)) as [a|]; [|reflexivity].
  rewrite disable_obj. destruct (obj_at m a) as [[[|t st] o]|]; try reflexivity. rewrite !run_bind.
  match goal with |- context [run h ?q s] => destruct (run h q s) as [[[ty ec0] e1] s1|]; [|reflexivity] end. cbn iota.
  rewrite !run_bind. match goal with |- context [run h ?q s1] => destruct (run h q s1) as [[m2 [new|]] s2|]; [| |reflexivity] end; cbn iota.
  - destruct m2; reflexivity.
  - destruct m2 as [x|]; [|reflexivity]. destruct (_ && _); [reflexivity|]. cbv zeta. rewrite disable_put, !run_bind, disable_set by auto.
    match goal with |- context [run h ?q s2] => destruct (run h q s2); reflexivity end.
Qed.

Lemma disable_exec : forall cf n c m St (h : kernel St) s, rmentions c i = false ->
  run h (rexec cf n c (rshare_disable i m)) s = cleared (run h (rexec cf n c m) s).
Proof.
  intros cf n c m St h s Hc. destruct c as [has j p o|j k|j k|j|has j|has j|j|j|j|j|j k]; cbn [rmentions rexec] in *;
    try (apply orb_false_iff in Hc; destruct Hc as [Hc Hk]; apply eqb_apart in Hk); apply eqb_apart in Hc; rewrite disable_length.
  - destruct (j <? length (m_vars m)); [|reflexivity]. unfold rshare_new. rewrite !run_bind.
    destruct (run h (stream_ctor cf n p o) s) as [[ec st] s1|]; [|reflexivity]. cbn iota.
    destruct (failed ec).
    + rewrite !run_bind. destruct (run h (stream_destroy st) s1) as [u s2|]; [|reflexivity]. destruct has; [|reflexivity]. apply disable_set_then. exact Hc.
    + destruct (negb (good st)); [apply disable_set_then; exact Hc|]. unfold set_new.
      exact (disable_set_then impl_destroy j _ (Mem (m_objs m ++ [Some ([st], o)]) (m_vars m)) _ _ St h s1 Hc).
  - destruct (_ && _); [|reflexivity]. unfold share_copy. rewrite disable_vars by auto. apply disable_set_then. exact Hc.
  - destruct (_ && _); [|reflexivity]. unfold share_move. destruct (Nat.eqb j k); [reflexivity|].
    rewrite disable_vars by auto. change (m_objs (rshare_disable i m)) with (m_objs m). rewrite disable_upd by auto. apply disable_set_then. exact Hc.
  - destruct (j <? _); [|reflexivity]. apply disable_set_then. exact Hc.
  - destruct (j <? _); [|reflexivity]. unfold rshare_increment. rewrite disable_vars by auto. rewrite !run_bind.
    assert (Hgo : forall m1 s1, run h (rshare_advance cf n has j (Mem (m_objs (rshare_disable i m1)) (upd (m_vars (rshare_disable i m1)) j (fst (var_at (rshare_disable i m1) j), true)))) s1 =
      cleared (run h (rshare_advance cf n has j (Mem (m_objs m1) (upd (m_vars m1) j (fst (var_at m1 j), true)))) s1)).
    { intros m1 s1. rewrite disable_vars by auto. change (m_objs (rshare_disable i m1)) with (m_objs m1). rewrite disable_upd by auto. apply disable_advance. exact Hc. }
    destruct (snd (var_at m j)).
    + rewrite disable_try by auto. destruct (run h (rshare_try cf n j m) s) as [[[m1 b] ec] s1|]; [|reflexivity]. cbn [fst snd]. cbn iota.
      destruct b; [reflexivity|]. destruct (failed ec); [reflexivity|]. apply Hgo.
    + cbn [run]. cbn iota. cbn [failed]. apply Hgo.
  - destruct (j <? _); [|reflexivity]. unfold rshare_pop. rewrite disable_vars by auto. destruct (fst (var_at m j)) as [a|]; [|reflexivity].
    rewrite disable_obj. destruct (obj_at m a) as [[[|t st] o]|]; try reflexivity. rewrite !run_bind.
    destruct (run h (stream_destroy t) s) as [u s1|]; [|reflexivity]. cbv zeta. rewrite disable_put.
    destruct (is_nil st); [apply disable_set_then; exact Hc|]. apply disable_advance. exact Hc.
  - destruct (j <? _); [|reflexivity]. cbn [run cleared fst snd]. unfold rshare_disable at 1. rewrite disable_vars by auto.
    change (m_objs (rshare_disable i m)) with (m_objs m). rewrite disable_upd by auto. reflexivity.
  - destruct (j <? _); [|reflexivity]. rewrite !run_bind. unfold rshare_deref. rewrite disable_vars by auto.
    destruct (fst (var_at m j)) as [a|]; [|destruct (cf_dbg cf); reflexivity]. rewrite disable_obj. destruct (obj_at m a) as [[[|t st] o]|]; reflexivity.
  - destruct (j <? _); [|reflexivity]. rewrite !run_bind. unfold rshare_depth. rewrite disable_vars by auto.
    destruct (fst (var_at m j)) as [a|]; [|reflexivity]. rewrite disable_obj. destruct (obj_at m a) as [[st o]|]; reflexivity.
  - destruct (j <? _); [|reflexivity]. rewrite disable_vars by auto. reflexivity.
  - destruct (_ && _); [|reflexivity]. unfold share_equal. rewrite !disable_vars by auto. reflexivity.
Qed.

Lemma disable_exec_all : forall cf n cs m St (h : kernel St) s, (forall c, In c cs -> rmentions c i = false) ->
  run h (rexec_all cf n cs (rshare_disable i m)) s = cleared (run h (rexec_all cf n cs m) s).
Proof.
  intros cf n. induction cs as [|c cs IH]; intros m St h s Hc; cbn [rexec_all]; [reflexivity|].
  rewrite !run_bind, disable_exec by (apply Hc; left; auto). destruct (run h (rexec cf n c m) s) as [[m1 o1] s1|]; [|reflexivity].
  cbn [cleared fst snd]. rewrite !run_bind, IH by (intros c' H'; apply Hc; right; auto).
  destruct (run h (rexec_all cf n cs m1) s1) as [[m2 o2] s2|]; reflexivity.
Qed.

End Pending.

(** disable_recursion_pending through one iterator can be put before or after anything done through the others, copies of it
    included: they see the same, and the end state is the same. *)
Theorem C88_pending : forall cf n i cs m St (h : kernel St) s m' os s', (forall c, In c cs -> rmentions c i = false) ->
  run h (rexec_all cf n (RDisable i :: cs) m) s = Done (m', Completed None :: os) s' <->
  run h (rexec_all cf n (cs ++ [RDisable i]) m) s = Done (m', os ++ [Completed None]) s'.
Proof.
  intros cf n i cs m St h s m' os s' Hc.
  assert (Hone : forall m s, run h (rexec cf n (RDisable i) m) s = Done (rshare_disable i m, Completed None) s).
  { clear m s. intros m s. cbn [rexec]. destruct (Nat.ltb_spec i (length (m_vars m))) as [|Hge]; [reflexivity|].
    unfold rshare_disable. rewrite upd_beyond by exact Hge. destruct m. reflexivity. }
  assert (Happ : forall cs m s,
    run h (rexec_all cf n (cs ++ [RDisable i]) m) s =
    match run h (rexec_all cf n cs m) s with Done x t => Done (rshare_disable i (fst x), snd x ++ [Completed None]) t | Failed f t => Failed f t end).
  { clear m s Hc cs m' os s'. induction cs as [|c cs IH]; intros m s; cbn [app rexec_all]; rewrite !run_bind.
    - rewrite Hone. cbn [run fst snd]. rewrite run_bind. reflexivity.
    - destruct (run h (rexec cf n c m) s) as [[m1 o1] s1|]; [|reflexivity]. cbn [fst snd]. rewrite !run_bind, IH.
      destruct (run h (rexec_all cf n cs m1) s1) as [[m2 o2] s2|]; reflexivity. }
  rewrite Happ. cbn [rexec_all]. rewrite run_bind, Hone. cbn [fst snd].
  rewrite run_bind, disable_exec_all by exact Hc. destruct (run h (rexec_all cf n cs m) s) as [[m1 o1] s1|]; [|split; discriminate].
  cbn [run fst snd]. split; intros H.
  - injection H as <- <- <-. reflexivity.
  - injection H as <- H2 <-. apply app_inj_tail in H2. destruct H2 as [-> _]. reflexivity.
Qed.

(** * Examples *)

(** A directory "d" with the files "a" and "b" and the directory "sub" holding "c"; the state is what the streams 7 (of "d") and 8
    (of "d/sub") have left. *)
Definition trees : kernel (list (str * dtype) * list (str * dtype)) := fun c s =>
  match c return answer c * (list (str * dtype) * list (str * dtype)) with
  | c_opendir p => if str_eqb p (lit "d") then (Val 7%N, s) else if str_eqb p (lit "d/sub") then (Val 8%N, s) else (Err ENOENT, s)
  | c_readdir d =>
      match (if N.eqb d 7 then fst s else snd s) with
      | [] => (Val None, s)
      | x :: r => (Val (Some x), if N.eqb d 7 then (r, snd s) else (fst s, r))
      end
  | c_closedir _ => (tt, s)
  | c' => (fst (failing ENOENT c' tt), s)
  end.
Definition in_trees : list (str * dtype) * list (str * dtype) :=
  ([(lit ".", DT_DIR); (lit "a", DT_REG); (lit "sub", DT_DIR); (lit "b", DT_REG)], [(lit "c", DT_REG)]).

(** What was seen, with the names only. *)
Definition named (os : list obs) : list (obs + str) :=
  map (fun o => match o with Shown e => inr (pathname (de_path e)) | _ => inl o end) os.
Definition quiet (r : outcome (memory dstream * list obs) ((list (str * dtype) * list (str * dtype)) * list event)) :=
  match r with Done x s => Some (named (snd x), held_after [] (snd s), length (open_streams (fun y => [y]) (fst x))) | Failed _ _ => None end.
Definition rquiet (r : outcome (memory shared_impl * list obs) ((list (str * dtype) * list (str * dtype)) * list event)) :=
  match r with Done x s => Some (named (snd x), held_after [] (snd s), length (open_streams fst (fst x))) | Failed _ _ => None end.

Example C88_streams_example :
  let d := topath (lit "d") in
  let sub := topath (lit "d/sub") in
  (* a copy keeps the stream open after the first iterator is assigned another directory; a moved one, too *)
  quiet (run (traced trees) (dexec_all plain_config 9
    [DNew true 0 d 0; DCopy 1 0; DNew true 0 sub 0; DDeref 0; DInc false 1; DDeref 1; DMove 2 1; DDeref 2; DInc true 1] (fresh 3)) (in_trees, [])) =
    Some ([inl (Completed None); inl (Completed None); inl (Completed None); inr (lit "d/sub/c"); inl (Completed None); inr (lit "d/sub");
           inl (Completed None); inr (lit "d/sub"); inl (Completed (Some EINVAL))], Some [HDir 8; HDir 7], 2) /\
  (* all gone: nothing is open *)
  quiet (run (traced trees) (dexec_all plain_config 9
    [DNew true 0 d 0; DCopy 1 0; DDrop 0; DCopy 2 1; DDrop 1; DDrop 2] (fresh 3)) (in_trees, [])) =
    Some (repeat (inl (Completed None)) 6, Some [], 0) /\
  (* a recursive iterator inside "d/sub" holds two streams; pop through the copy closes one *)
  rquiet (run (traced trees) (rexec_all plain_config 9
    [RNew true 0 d 0; RInc true 0; RCopy 1 0; RInc true 0; RDeref 1; RDepth 1; RDrop 0; RPop true 1; RDeref 1] (fresh 2)) (in_trees, [])) =
    Some ([inl (Completed None); inl (Completed None); inl (Completed None); inl (Completed None); inr (lit "d/sub/c"); inl (Count 1);
           inl (Completed None); inl (Completed None); inr (lit "d/b")], Some [HDir 7], 1).
Proof. vm_compute. auto. Qed.

(** The hypotheses of C88_copies, C88_after_the_end and their recursive versions. *)
Definition at_start : dstream := Stream (Some 7%N) (topath (lit "d")) (Entry (topath (lit "d/a")) (iter_data cache_reset ft_regular)).
Definition shared_start : memory dstream := Mem [Some at_start] [(Some 0, false); (Some 0, false)].
Definition shared_rstart : memory shared_impl := Mem [Some ([at_start], 0%N)] [(Some 0, true); (Some 0, true)].
Definition rest_of_d : list (str * dtype) * list (str * dtype) := ([(lit "sub", DT_DIR); (lit "b", DT_REG)], [(lit "c", DT_REG)]).

(** Incrementing the two copies in turn, looking through the other one: "d/sub", "d/b". *)
Example C88_copies_example :
  Forall (fun x => at_obj shared_start 0 (fst x) /\ at_obj shared_start 0 (snd x)) [(0, 1); (1, 0)] /\
  exists es s', run trees (dsteps plain_config 9 true 2 (Some at_start)) rest_of_d = Done es s' /\
    map (fun e => pathname (de_path e)) es = [lit "d/sub"; lit "d/b"] /\
  exists m', run trees (dexec_all plain_config 9 [DInc true 0; DDeref 1; DInc true 1; DDeref 0] shared_start) rest_of_d =
    Done (m', flat_map (fun e => [Completed None; Shown e]) es) s'.
Proof.
  split; [repeat (constructor; [cbn; unfold at_obj; cbn; auto with arith|]); constructor|].
  eexists _, _. split; [vm_compute; reflexivity|]. split; [vm_compute; reflexivity|]. eexists. vm_compute. reflexivity.
Qed.

(** The same with the recursive iterator: "d/sub", "d/sub/c", "d/b". *)
Example C88_recursive_copies_example :
  Forall (fun y => (at_obj shared_rstart 0 (fst y) /\ snd (var_at shared_rstart (fst y)) = true) /\ at_obj shared_rstart 0 (snd y)) [(0, 1); (1, 0); (0, 0)] /\
  exists es s', run trees (rsteps plain_config 9 true 3 (RIter (Some ([at_start], 0%N)) true)) rest_of_d = Done es s' /\
    map (fun e => pathname (de_path e)) es = [lit "d/sub"; lit "d/sub/c"; lit "d/b"].
Proof.
  split; [repeat (constructor; [cbn; unfold at_obj; cbn; auto with arith|]); constructor|].
  eexists _, _. split; [vm_compute; reflexivity|]. vm_compute. reflexivity.
Qed.

(** "d" is exhausted. *)
Example C88_after_the_end_example :
  run trees (dir_iter_increment plain_config 9 true (Some at_start)) ([], []) = Done (None, None) ([], []) /\
  run trees (rdir_increment plain_config 9 true (RIter (Some ([at_start], 0%N)) true)) ([], []) = Done (RIter None true, None) ([], []) /\
  at_obj shared_start 0 0 /\ at_obj shared_start 0 1 /\ at_obj shared_rstart 0 0 /\ at_obj shared_rstart 0 1.
Proof. unfold at_obj. cbn. repeat split; auto with arith. Qed.

(** The entry is a directory that cannot be opened. *)
Example C88_recursive_after_error_example :
  let st := Stream (Some 7%N) (topath (lit "d")) (Entry (topath (lit "d/x")) (iter_data cache_reset ft_directory)) in
  exists b it s', run trees (rdir_try plain_config 9 true (RIter (Some ([st], 0%N)) true)) rest_of_d = Done (b, Some ENOENT, it) s'.
Proof. eexists _, _, _. vm_compute. reflexivity. Qed.

(** Two iterators, one of them copied and driven to the end; the other one is where it was. *)
Example C88_separate_example :
  exists m os s, run trees (dexec_all plain_config 9 [DNew true 0 (topath (lit "d")) 0; DNew true 1 (topath (lit "d/sub")) 0] (fresh 3)) in_trees = Done (m, os) s /\
    alone m 1 /\
  exists m' os' s', run trees (dexec_all plain_config 9 [DCopy 2 0; DInc true 2; DInc true 2; DInc true 2] m) s = Done (m', os') s' /\
    share_equal m' 2 0 = false /\ exists x, seen m' 1 = Some x /\ pathname (de_path (ds_entry x)) = lit "d/sub/c".
Proof.
  eexists _, _, _. split; [vm_compute; reflexivity|]. split.
  - intros [|[|[|[|k]]]] a Hk Ha; vm_compute in Ha |- *; congruence.
  - eexists _, _, _. split; [vm_compute; reflexivity|]. split; [reflexivity|]. eexists. split; vm_compute; reflexivity.
Qed.

(** At "d/sub", the recursion of one copy is disabled; the other one still enters the directory. *)
Example C88_pending_example :
  (forall c, In c [RInc true 1; RDeref 1; RPending 1] -> rmentions c 0 = false) /\
  exists m' os s', run trees (rexec_all plain_config 9 [RDisable 0; RInc true 1; RInc true 1; RDeref 1; RPending 1; RPending 0] shared_rstart) rest_of_d =
    Done (m', os) s' /\ named os = [inl (Completed None); inl (Completed None); inl (Completed None); inr (lit "d/sub/c"); inl (Answer true); inl (Answer false)].
Proof.
  split.
  - intros c [<-|[<-|[<-|[]]]]; reflexivity.
  - eexists _, _, _. split; [vm_compute; reflexivity|]. vm_compute. reflexivity.
Qed.

Print Assumptions C88_streams.
Print Assumptions C88_all_closed.
Print Assumptions C88_copies.
Print Assumptions C88_recursive_copies.
Print Assumptions C88_after_the_end.
Print Assumptions C88_recursive_after_the_end.
Print Assumptions C88_recursive_after_error.
Print Assumptions C88_separate.
Print Assumptions C88_pending.
