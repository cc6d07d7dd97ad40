(** Lemmas about the file system of FS.v: trees, name resolution, the effect of the calls. *)
From Coq Require Import Ascii String Bool Arith NArith ZArith Lia.
From Verif Require Import Str PathModel PathSpec StrProofs PathProofs PathOps PathLaws FlagsModel TimeModel Prog DirModel FS.
From Coq Require Import List.
Import ListNotations.

Lemma tree_ind' : forall P : tree -> Prop,
  (forall i, P (Leaf i)) ->
  (forall i l, Forall (fun e => P (snd e)) l -> P (Dir i l)) ->
  forall t, P t.
Proof.
  intros P Hl Hd. fix IH 1. intros [i|i l]; [apply Hl|]. apply Hd.
  induction l as [|e r IHr]; constructor; [apply IH|exact IHr].
Qed.

Lemma str_eqb_refl : forall a, str_eqb a a = true.
Proof. intros. apply str_eqb_spec. reflexivity. Qed.
Lemma str_eqb_neq : forall a b, a <> b -> str_eqb a b = false.
Proof. intros. destruct (str_eqb a b) eqn:H1; auto. apply str_eqb_spec in H1. congruence. Qed.
Lemma str_eqb_false : forall a b, str_eqb a b = false -> a <> b.
Proof. intros a b H ->. rewrite str_eqb_refl in H. discriminate. Qed.

(** * Lists of entries *)

Lemma assoc_In : forall A n (l : list (str * A)) x, assoc n l = Some x -> In (n, x) l.
Proof.
  induction l as [|[m y] r IH]; cbn; intros x H; [discriminate|].
  destruct (str_eqb m n) eqn:E.
  - apply str_eqb_spec in E. inversion H; subst. auto.
  - auto.
Qed.
Lemma assoc_None : forall A n (l : list (str * A)), assoc n l = None <-> ~ In n (map fst l).
Proof.
  induction l as [|[m y] r IH]; cbn; [tauto|].
  destruct (str_eqb m n) eqn:E.
  - apply str_eqb_spec in E. split; [discriminate|]. intros H. exfalso. auto.
  - apply str_eqb_false in E. rewrite IH. tauto.
Qed.
Lemma In_assoc : forall A n x (l : list (str * A)), NoDup (map fst l) -> In (n, x) l -> assoc n l = Some x.
Proof.
  induction l as [|[m y] r IH]; cbn; intros Hd Hi; [tauto|].
  inversion Hd as [|? ? Hn Hr]; subst. destruct Hi as [Hi|Hi].
  - inversion Hi; subst. rewrite str_eqb_refl. reflexivity.
  - rewrite str_eqb_neq; auto. intros ->. apply Hn. apply (in_map fst) in Hi. exact Hi.
Qed.
Lemma assoc_app : forall A n (a b : list (str * A)),
  assoc n (a ++ b) = match assoc n a with Some x => Some x | None => assoc n b end.
Proof.
  induction a as [|[m y] r IH]; intros b; cbn; auto. destruct (str_eqb m n); auto.
Qed.
Lemma assoc_update : forall A n m f (l : list (str * A)),
  assoc m (update n f l) = if str_eqb n m then option_map f (assoc m l) else assoc m l.
Proof.
  induction l as [|[x y] r IH]; cbn; [destruct (str_eqb n m); reflexivity|].
  destruct (str_eqb x n) eqn:E1; cbn.
  - apply str_eqb_spec in E1. subst. destruct (str_eqb n m); auto.
  - destruct (str_eqb x m) eqn:E2; [|exact IH].
    apply str_eqb_spec in E2. subst. rewrite str_eqb_neq; auto.
    intros ->. rewrite str_eqb_refl in E1. discriminate.
Qed.
Lemma assoc_delete_other : forall A n m (l : list (str * A)), n <> m -> assoc m (delete n l) = assoc m l.
Proof.
  induction l as [|[x y] r IH]; cbn; intros H; auto.
  destruct (str_eqb x n) eqn:E1; cbn.
  - apply str_eqb_spec in E1. subst. rewrite str_eqb_neq; auto.
  - destruct (str_eqb x m); auto.
Qed.
Lemma In_delete : forall A n (l : list (str * A)) e, In e (delete n l) -> In e l.
Proof.
  induction l as [|[x y] r IH]; cbn; intros e H; auto.
  destruct (str_eqb x n); cbn in *; intuition.
Qed.
Lemma map_fst_delete : forall A n (l : list (str * A)) m, In m (map fst (delete n l)) -> In m (map fst l).
Proof.
  intros A n l m H. apply in_map_iff in H as [e [<- H]]. apply in_map. eapply In_delete; eauto.
Qed.
Lemma NoDup_delete : forall A n (l : list (str * A)), NoDup (map fst l) -> NoDup (map fst (delete n l)).
Proof.
  induction l as [|[x y] r IH]; cbn; intros H; auto. inversion H; subst.
  destruct (str_eqb x n); auto. cbn. constructor; auto. intros Hi. apply map_fst_delete in Hi. auto.
Qed.
Lemma assoc_delete_same : forall A n (l : list (str * A)), NoDup (map fst l) -> assoc n (delete n l) = None.
Proof.
  induction l as [|[x y] r IH]; cbn; intros H; auto. inversion H; subst.
  destruct (str_eqb x n) eqn:E; cbn.
  - apply str_eqb_spec in E. subst. apply assoc_None. assumption.
  - rewrite E. auto.
Qed.
Lemma map_fst_update : forall A n f (l : list (str * A)), map fst (update n f l) = map fst l.
Proof.
  induction l as [|[x y] r IH]; cbn; auto. destruct (str_eqb x n); cbn; congruence.
Qed.
Lemma update_id : forall A n f (l : list (str * A)) c, assoc n l = Some c -> f c = c -> update n f l = l.
Proof.
  induction l as [|[x y] r IH]; cbn; intros c H Hf; auto.
  destruct (str_eqb x n); [inversion H; subst; congruence|]. erewrite IH; eauto.
Qed.
Lemma update_update : forall A n f g (l : list (str * A)), update n f (update n g l) = update n (fun x => f (g x)) l.
Proof.
  induction l as [|[x y] r IH]; cbn; auto. destruct (str_eqb x n) eqn:E; cbn; rewrite E; auto. congruence.
Qed.
Lemma update_ext : forall A n f g (l : list (str * A)),
  (forall c, assoc n l = Some c -> f c = g c) -> update n f l = update n g l.
Proof.
  induction l as [|[x y] r IH]; cbn; intros H; auto.
  destruct (str_eqb x n); [rewrite H; auto|]. rewrite IH; auto.
Qed.
Lemma delete_snoc : forall A n (l : list (str * A)) x, ~ In n (map fst l) -> delete n (l ++ [(n, x)]) = l.
Proof.
  induction l as [|[m y] r IH]; cbn; intros x H.
  - rewrite str_eqb_refl. reflexivity.
  - rewrite str_eqb_neq by tauto. rewrite IH by tauto. reflexivity.
Qed.

(** * Trees *)

Lemma get_app : forall p q t, get t (p ++ q) = match get t p with Some c => get c q | None => None end.
Proof.
  induction p as [|n r IH]; intros q t; cbn; auto.
  destruct t as [i|i l]; auto. destruct (assoc n l); auto.
Qed.

Lemma get_snoc : forall t p n,
  get t (p ++ [n]) = match get t p with Some (Dir _ l) => assoc n l | _ => None end.
Proof.
  intros. rewrite get_app. destruct (get t p) as [[i|i l]|]; auto. cbn. destruct (assoc n l); auto.
Qed.

Lemma look_get : forall t p x, look t p = Some x <-> exists c, get t p = Some c /\ node_of c = x.
Proof.
  intros. unfold look. destruct (get t p) as [c|]; cbn; split.
  - intros H. inversion H; subst. eauto.
  - intros [c' [H <-]]. congruence.
  - discriminate.
  - intros [c' [H _]]. discriminate.
Qed.
Lemma look_None : forall t p, look t p = None <-> get t p = None.
Proof. intros. unfold look. destruct (get t p); cbn; split; congruence. Qed.
Lemma look_dir : forall t p i, look t p = Some (NDir i) <-> exists l, get t p = Some (Dir i l).
Proof.
  intros. rewrite look_get. split.
  - intros [[j|j l] [H E]]; inversion E; subst. eauto.
  - intros [l H]. exists (Dir i l). auto.
Qed.
Lemma look_leaf : forall t p i, look t p = Some (NLeaf i) <-> get t p = Some (Leaf i).
Proof.
  intros. rewrite look_get. split.
  - intros [[j|j l] [H E]]; inversion E; subst. auto.
  - intros H. exists (Leaf i). auto.
Qed.

Lemma removelast_snoc : forall A (l : list A) x, removelast (l ++ [x]) = l.
Proof. intros. rewrite removelast_app by discriminate. cbn. apply app_nil_r. Qed.

(** A place below an existing place exists only under a directory. *)
Lemma look_parent : forall t p n x, look t (p ++ [n]) = Some x -> exists i, look t p = Some (NDir i).
Proof.
  intros t p n x H. apply look_get in H as [c [H _]]. rewrite get_snoc in H.
  destruct (get t p) as [[i|i l]|] eqn:E; try discriminate. exists i. apply look_dir. eauto.
Qed.

Lemma snoc_cases : forall (p : loc), p = [] \/ exists q n, p = q ++ [n].
Proof.
  intros p. destruct p as [|a r]; auto. right. exists (removelast (a :: r)), (last (a :: r) []).
  apply app_removelast_last. discriminate.
Qed.

Lemma look_removelast : forall t p x, look t p = Some x -> p <> [] -> exists i, look t (removelast p) = Some (NDir i).
Proof.
  intros t p x H Hne. destruct (snoc_cases p) as [->|[q [n ->]]]; [congruence|].
  rewrite removelast_snoc. eapply look_parent; eauto.
Qed.

(** [alter] changes only what is strictly below its place. *)
Lemma get_alter_at : forall f p t i l, get t p = Some (Dir i l) -> get (alter f p t) p = Some (Dir i (f l)).
Proof.
  induction p as [|n r IH]; intros t i l H; cbn in H.
  - inversion H; subst. reflexivity.
  - destruct t as [j|j m]; [discriminate|]. cbn. rewrite assoc_update, str_eqb_refl.
    destruct (assoc n m) as [c|]; [|discriminate]. cbn. eauto.
Qed.

Lemma get_alter_in : forall f p t i l q, get t p = Some (Dir i l) ->
  get (alter f p t) (p ++ q) = get (Dir i (f l)) q.
Proof. intros. rewrite get_app. erewrite get_alter_at; eauto. Qed.

Lemma below_spec : forall p q, below p q = true <-> exists r, q = p ++ r.
Proof.
  induction p as [|a p' IH]; intros q; cbn.
  - split; eauto.
  - destruct q as [|b q'].
    + split; [discriminate|]. intros [r H]. discriminate.
    + rewrite andb_true_iff, str_eqb_spec, IH. split.
      * intros [-> [r ->]]. eauto.
      * intros [r H]. inversion H; subst. eauto.
Qed.
Lemma below_refl : forall p, below p p = true.
Proof. intros. apply below_spec. exists []. symmetry. apply app_nil_r. Qed.
Lemma below_app : forall p q, below p (p ++ q) = true.
Proof. intros. apply below_spec. eauto. Qed.

Lemma look_alter_out : forall f p t q, below p q = false \/ q = p -> look (alter f p t) q = look t q.
Proof.
  intros f. induction p as [|n r IH]; intros t q H.
  - destruct H as [H| ->]; [discriminate|]. unfold look. destruct t; reflexivity.
  - destruct t as [i|i l]; [reflexivity|].
    destruct q as [|m q']; [reflexivity|]. unfold look. cbn.
    rewrite assoc_update. destruct (str_eqb n m) eqn:E; [|reflexivity].
    destruct (assoc m l) as [c|]; cbn; [|reflexivity].
    apply (IH c q'). destruct H as [H|H].
    + cbn in H. rewrite E in H. auto.
    + inversion H; auto.
Qed.

(** Outside the altered directory and its ancestors the subtrees are the same. *)
Lemma get_alter_out : forall f p t q, below p q = false -> below q p = false -> get (alter f p t) q = get t q.
Proof.
  intros f. induction p as [|n r IH]; intros t q H1 H2.
  - discriminate.
  - destruct t as [i|i l]; [reflexivity|].
    destruct q as [|m q']; [discriminate|]. cbn in *.
    rewrite assoc_update. destruct (str_eqb n m) eqn:E; [|reflexivity].
    apply str_eqb_spec in E. subst. rewrite str_eqb_refl in H2.
    destruct (assoc m l) as [c|]; cbn; [|reflexivity]. apply IH; auto.
Qed.

Lemma alter_id : forall f p t i l, get t p = Some (Dir i l) -> f l = l -> alter f p t = t.
Proof.
  intros f. induction p as [|n r IH]; intros t i l H Hf; cbn in H.
  - inversion H; subst. cbn. congruence.
  - destruct t as [j|j m]; [discriminate|]. cbn. destruct (assoc n m) as [c|] eqn:E; [|discriminate].
    rewrite (update_id _ _ _ _ c); auto. eapply IH; eauto.
Qed.
Lemma alter_alter : forall f g p t, alter f p (alter g p t) = alter (fun l => f (g l)) p t.
Proof.
  intros f g. induction p as [|n r IH]; intros [i|i l]; cbn; auto.
  rewrite update_update. f_equal. apply update_ext. intros c _. apply IH.
Qed.
Lemma alter_ext : forall f g p t i l, get t p = Some (Dir i l) -> f l = g l -> alter f p t = alter g p t.
Proof.
  intros f g. induction p as [|n r IH]; intros t i l H Hf; cbn in H.
  - inversion H; subst. cbn. congruence.
  - destruct t as [j|j m]; [discriminate|]. cbn. f_equal. apply update_ext. intros c Hc.
    rewrite Hc in H. eapply IH; eauto.
Qed.

(** Inserting a name and looking. *)
Lemma look_insert : forall p n c t i l, get t p = Some (Dir i l) -> assoc n l = None -> forall q x,
  look t q = Some x -> look (insert_at p n c t) q = Some x.
Proof.
  intros p n c t i l H Hn q x Hq. unfold insert_at.
  destruct (below p q) eqn:Hb; [|rewrite look_alter_out; auto].
  apply below_spec in Hb as [r ->]. destruct r as [|m r'].
  - rewrite app_nil_r in *. rewrite look_alter_out; auto.
  - unfold look in *. rewrite (get_alter_in _ _ _ _ _ _ H). rewrite get_app, H in Hq. cbn in *.
    rewrite assoc_app. destruct (assoc m l); [auto|discriminate].
Qed.
Lemma get_insert_new : forall p n c t i l q, get t p = Some (Dir i l) -> assoc n l = None ->
  get (insert_at p n c t) (p ++ n :: q) = get c q.
Proof.
  intros. unfold insert_at. erewrite get_alter_in by eauto. cbn. rewrite assoc_app, H0. cbn.
  rewrite str_eqb_refl. reflexivity.
Qed.
Lemma get_insert_out : forall p n c t i l q, get t p = Some (Dir i l) -> assoc n l = None ->
  below (p ++ [n]) q = false -> below q p = false -> get (insert_at p n c t) q = get t q.
Proof.
  intros p n c t i l q H Hn Hb Hq. unfold insert_at. destruct (below p q) eqn:E; [|apply get_alter_out; auto].
  apply below_spec in E as [r ->]. destruct r as [|m r'].
  - rewrite app_nil_r, below_refl in Hq. discriminate.
  - erewrite get_alter_in by eauto. rewrite (get_app p), H. cbn. rewrite assoc_app.
    destruct (assoc m l) as [x|]; auto. cbn. destruct (str_eqb n m) eqn:E; auto.
    apply str_eqb_spec in E. subst.
    assert (below (p ++ [m]) (p ++ m :: r') = true).
    { apply below_spec. exists r'. rewrite <- app_assoc. reflexivity. }
    congruence.
Qed.
Lemma look_insert_out : forall p n c t i l q, get t p = Some (Dir i l) -> assoc n l = None ->
  below (p ++ [n]) q = false -> look (insert_at p n c t) q = look t q.
Proof.
  intros p n c t i l q H Hn Hb. destruct (look t q) as [x|] eqn:E.
  - erewrite look_insert; eauto.
  - unfold insert_at. destruct (below p q) eqn:E1; [|rewrite look_alter_out; auto].
    apply below_spec in E1 as [r ->]. destruct r as [|m r'].
    + rewrite app_nil_r in *. rewrite look_alter_out; auto.
    + unfold look in *. erewrite get_alter_in by eauto. rewrite get_app, H in E. cbn in *. rewrite assoc_app.
      destruct (assoc m l) as [y|]; auto. cbn. destruct (str_eqb n m) eqn:E1; auto.
      apply str_eqb_spec in E1. subst.
      assert (below (p ++ [m]) (p ++ m :: r') = true).
      { apply below_spec. exists r'. rewrite <- app_assoc. reflexivity. }
      congruence.
Qed.

(** * Resolution *)

Lemma steps_nil : forall lk tg last links cur, steps lk tg last links cur [] = Found links cur.
Proof. destruct links; reflexivity. Qed.

Lemma steps_cons : forall lk tg last links cur n r,
  steps lk tg last links cur (n :: r) =
  match lk cur with
  | None => Fail ENOENT
  | Some (NLeaf _) => Fail ENOTDIR
  | Some (NDir _) =>
      if str_eqb n (lit ".") then steps lk tg last links cur r
      else if str_eqb n (lit "..") then steps lk tg last links (removelast cur) r
      else
        match lk (cur ++ [n]) with
        | None => if is_nil r then Missing cur n else Fail ENOENT
        | Some (NDir _) => steps lk tg last links (cur ++ [n]) r
        | Some (NLeaf i) =>
            match tg i with
            | None => if is_nil r then Found links (cur ++ [n]) else Fail ENOTDIR
            | Some t =>
                if is_nil r && negb last then Found links (cur ++ [n])
                else match links with
                     | O => Fail ELOOP
                     | S l => steps lk tg last l (if starts_slash t then [] else cur) (comps t ++ r)
                     end
            end
        end
  end.
Proof. destruct links; reflexivity. Qed.

Global Opaque steps.

(** Walking a concatenation. *)
Lemma steps_app : forall lk tg last b, b <> [] -> forall links a cur,
  steps lk tg last links cur (a ++ b) =
  match steps lk tg true links cur a with
  | Found l q => steps lk tg last l q b
  | Missing _ _ => Fail ENOENT
  | Fail e => Fail e
  end.
Proof.
  intros lk tg last b Hb. induction links as [|links IHl];
  (induction a as [|n r IHa]; intros cur; [rewrite steps_nil; reflexivity|]).
  all: cbn [app]; rewrite !steps_cons; destruct (lk cur) as [[i|i]|]; auto;
    destruct (str_eqb n (lit ".")); auto; destruct (str_eqb n (lit "..")); auto;
    destruct (lk (cur ++ [n])) as [[j|j]|] eqn:E2; auto.
  all: assert (Hnil : is_nil (r ++ b) = false) by (destruct r, b; cbn; congruence).
  all: rewrite ?Hnil.
  - destruct (tg j) as [t|].
    + cbn [andb]. rewrite andb_false_r. reflexivity.
    + destruct r as [|m r']; cbn [is_nil]; auto.
      destruct b as [|b1 b']; [congruence|]. rewrite steps_cons, E2. reflexivity.
  - destruct r as [|m r']; cbn [is_nil]; auto.
  - destruct (tg j) as [t|].
    + cbn [andb]. rewrite andb_false_r. rewrite app_assoc. apply IHl.
    + destruct r as [|m r']; cbn [is_nil]; auto.
      destruct b as [|b1 b']; [congruence|]. rewrite steps_cons, E2. reflexivity.
  - destruct r as [|m r']; cbn [is_nil]; auto.
Qed.

(** More names and unchanged symlinks: what was found is found. *)
Definition grows (lk : loc -> option node) (tg : N -> option str) (lk' : loc -> option node) (tg' : N -> option str) : Prop :=
  (forall q x, lk q = Some x -> lk' q = Some x) /\ (forall q i, lk q = Some (NLeaf i) -> tg' i = tg i).

Lemma steps_grows : forall lk tg lk' tg' last, grows lk tg lk' tg' -> forall links cs cur l q,
  steps lk tg last links cur cs = Found l q -> steps lk' tg' last links cur cs = Found l q.
Proof.
  intros lk tg lk' tg' last [Hg Ht]. induction links as [|links IHl];
  (induction cs as [|n r IHr]; intros cur l q; [rewrite !steps_nil; auto|]).
  all: rewrite !steps_cons; destruct (lk cur) as [[i|i]|] eqn:E1; try discriminate; rewrite (Hg _ _ E1);
    destruct (str_eqb n (lit ".")); auto; destruct (str_eqb n (lit "..")); auto;
    destruct (lk (cur ++ [n])) as [[j|j]|] eqn:E2;
    [rewrite (Hg _ _ E2), (Ht _ _ E2)|rewrite (Hg _ _ E2); auto|destruct (is_nil r); discriminate].
  - destruct (tg j); auto. 
  - destruct (tg j); auto. destruct (is_nil r && negb last); auto.
Qed.

(** What [Missing] says. *)
Lemma steps_missing : forall lk tg last links cs cur p n,
  steps lk tg last links cur cs = Missing p n ->
  (exists i, lk p = Some (NDir i)) /\ lk (p ++ [n]) = None /\ is_dots n = false.
Proof.
  intros lk tg last. induction links as [|links IHl];
  (induction cs as [|m r IHr]; intros cur p n; [rewrite steps_nil; discriminate|]).
  all: rewrite !steps_cons; destruct (lk cur) as [[i|i]|] eqn:E1; try discriminate;
    destruct (str_eqb m (lit ".")) eqn:D1; [apply IHr|]; destruct (str_eqb m (lit "..")) eqn:D2; [apply IHr|];
    destruct (lk (cur ++ [m])) as [[j|j]|] eqn:E2; [|apply IHr|].
  - destruct (tg j); [|destruct (is_nil r); discriminate]. destruct (is_nil r && negb last); discriminate.
  - destruct (is_nil r); intros H; inversion H; subst. unfold is_dots. rewrite D1, D2. eauto.
  - destruct (tg j); [|destruct (is_nil r); discriminate]. destruct (is_nil r && negb last); [discriminate|apply IHl].
  - destruct (is_nil r); intros H; inversion H; subst. unfold is_dots. rewrite D1, D2. eauto.
Qed.

(** The missing name of a walk over names can be an entry name. *)
Definition names_ok (cs : list str) : Prop := Forall (fun n => noslash n /\ n <> []) cs.
Lemma comps_ok : forall t, names_ok (comps t).
Proof.
  intros. unfold comps, names_ok. apply Forall_app. split; [apply names_all|].
  destruct (ends_slash t && negb (is_nil (names t))); constructor; auto. split; [|discriminate].
  reflexivity.
Qed.
Lemma steps_missing_name : forall lk tg last links cs cur p n, names_ok cs ->
  steps lk tg last links cur cs = Missing p n -> good_name n = true.
Proof.
  intros lk tg last.
  assert (Hgood : forall n, noslash n /\ n <> [] -> str_eqb n (lit ".") = false -> str_eqb n (lit "..") = false -> good_name n = true).
  { intros n [H1 H2] D1 D2. unfold good_name, plain. rewrite D1, D2. destruct n; [congruence|]. exact H1. }
  induction links as [|links IHl];
  (induction cs as [|m r IHr]; intros cur p n Hok; [rewrite steps_nil; discriminate|]; inversion Hok; subst).
  all: rewrite !steps_cons; destruct (lk cur) as [[i|i]|] eqn:E1; try discriminate;
    destruct (str_eqb m (lit ".")) eqn:D1; [apply IHr; auto|]; destruct (str_eqb m (lit "..")) eqn:D2; [apply IHr; auto|];
    destruct (lk (cur ++ [m])) as [[j|j]|] eqn:E2; [|apply IHr; auto|].
  - destruct (tg j); [|destruct (is_nil r); discriminate]. destruct (is_nil r && negb last); discriminate.
  - destruct (is_nil r); intros H; inversion H; subst. auto.
  - destruct (tg j); [|destruct (is_nil r); discriminate]. destruct (is_nil r && negb last); [discriminate|].
    apply IHl. apply Forall_app. split; auto. apply comps_ok.
  - destruct (is_nil r); intros H; inversion H; subst. auto.
Qed.

(** A found place exists when the walk starts at an existing place. *)
Definition closed (lk : loc -> option node) : Prop :=
  (exists i, lk [] = Some (NDir i)) /\ forall p x, lk p = Some x -> p <> [] -> exists i, lk (removelast p) = Some (NDir i).
Lemma steps_found : forall lk tg last, closed lk -> forall links cs cur l q,
  (exists x, lk cur = Some x) -> steps lk tg last links cur cs = Found l q -> exists x, lk q = Some x.
Proof.
  intros lk tg last [[ir Hroot] Hclosed]. induction links as [|links IHl];
  (induction cs as [|m r IHr]; intros cur l q Hcur; [rewrite steps_nil; intros H; inversion H; subst; auto|]).
  all: rewrite !steps_cons; destruct (lk cur) as [[i|i]|] eqn:E1; try discriminate;
    destruct (str_eqb m (lit ".")) eqn:D1; [apply IHr; eauto|];
    destruct (str_eqb m (lit "..")) eqn:D2;
    [apply IHr; destruct cur as [|c cur']; [eauto|]; destruct (Hclosed _ _ E1) as [k Hk]; [discriminate|eauto]|];
    destruct (lk (cur ++ [m])) as [[j|j]|] eqn:E2; [|apply IHr; eauto|destruct (is_nil r); discriminate].
  - destruct (tg j); [|destruct (is_nil r); intros H; inversion H; subst; eauto].
    destruct (is_nil r && negb last); intros H; inversion H; subst; eauto.
  - destruct (tg j); [|destruct (is_nil r); intros H; inversion H; subst; eauto].
    destruct (is_nil r && negb last); [intros H; inversion H; subst; eauto|].
    apply IHl. destruct (starts_slash s); eauto.
Qed.

(** The missing component once it exists. *)
Lemma steps_fill : forall lk tg lk' tg' last p n i, grows lk tg lk' tg' -> lk' (p ++ [n]) = Some (NDir i) ->
  forall links cs cur, steps lk tg last links cur cs = Missing p n ->
  exists l, steps lk' tg' last links cur cs = Found l (p ++ [n]).
Proof.
  intros lk tg lk' tg' last p n i [Hg Ht] Hn. induction links as [|links IHl];
  (induction cs as [|m r IHr]; intros cur; [rewrite steps_nil; discriminate|]).
  all: rewrite !steps_cons; destruct (lk cur) as [[j|j]|] eqn:E1; try discriminate; rewrite (Hg _ _ E1);
    destruct (str_eqb m (lit ".")) eqn:D1; [apply IHr|]; destruct (str_eqb m (lit "..")) eqn:D2; [apply IHr|];
    destruct (lk (cur ++ [m])) as [[v|v]|] eqn:E2;
    [rewrite (Hg _ _ E2), (Ht _ _ E2)|rewrite (Hg _ _ E2); apply IHr|].
  - destruct (tg v); [|destruct (is_nil r); discriminate]. destruct (is_nil r && negb last); discriminate.
  - destruct r; [|discriminate]. intros H; inversion H; subst. rewrite Hn, steps_nil. eauto.
  - destruct (tg v); [|destruct (is_nil r); discriminate]. destruct (is_nil r && negb last); [discriminate|apply IHl].
  - destruct r; [|discriminate]. intros H; inversion H; subst. rewrite Hn, steps_nil. eauto.
Qed.

(** When following the last symlink finds a place that is itself no symlink, not following finds it too, unless a symlink was followed. *)
Lemma steps_last : forall lk tg links cs cur l q, 
  steps lk tg false links cur cs = Found l q ->
  (forall i, lk q = Some (NLeaf i) -> tg i = None) ->
  steps lk tg true links cur cs = Found l q.
Proof.
  intros lk tg. induction links as [|links IHl];
  (induction cs as [|m r IHr]; intros cur l q; [rewrite !steps_nil; auto|]).
  all: rewrite !steps_cons; destruct (lk cur) as [[j|j]|] eqn:E1; try discriminate;
    destruct (str_eqb m (lit ".")) eqn:D1; [apply IHr|]; destruct (str_eqb m (lit "..")) eqn:D2; [apply IHr|];
    destruct (lk (cur ++ [m])) as [[v|v]|] eqn:E2; [|apply IHr|destruct (is_nil r); discriminate].
  - destruct (tg v) eqn:Et; auto. destruct (is_nil r); cbn; [|discriminate].
    intros H Hq; inversion H; subst. rewrite (Hq _ E2) in Et. discriminate.
  - destruct (tg v) eqn:Et; auto. destruct (is_nil r) eqn:Er; cbn.
    + intros H Hq; inversion H; subst. rewrite (Hq _ E2) in Et. discriminate.
    + apply IHl.
Qed.

(** * Well-formed trees *)

Lemma wf_tree_dir : forall i l, wf_tree (Dir i l) <->
  NoDup (map fst l) /\ Forall (fun e => good_name (fst e) = true) l /\ Forall (fun e => wf_tree (snd e)) l.
Proof.
  intros i l. cbn. assert (H : forall m : list (str * tree),
    ((fix all (l : list (str * tree)) : Prop := match l with [] => True | e :: r => wf_tree (snd e) /\ all r end) m) <->
    Forall (fun e => wf_tree (snd e)) m).
  { induction m as [|e r IH]; split; intros H; auto.
    - destruct H as [H1 H2]. constructor; auto. apply IH; auto.
    - inversion H; subst. split; auto. apply IH; auto. }
  rewrite H. tauto.
Qed.

Lemma Forall_assoc : forall A (P : str * A -> Prop) l n x, Forall P l -> assoc n l = Some x -> P (n, x).
Proof. intros A P l n x H Ha. apply assoc_In in Ha. rewrite Forall_forall in H. auto. Qed.

Lemma wf_get : forall p t c, wf_tree t -> get t p = Some c -> wf_tree c.
Proof.
  induction p as [|n r IH]; intros t c Hw H; cbn in H; [inversion H; subst; auto|].
  destruct t as [i|i l]; [discriminate|]. destruct (assoc n l) as [d|] eqn:E; [|discriminate].
  apply wf_tree_dir in Hw as (_ & _ & Hw). apply (Forall_assoc _ _ _ _ _ Hw) in E. eauto.
Qed.

Lemma Forall_update : forall A (P : str * A -> Prop) n f l,
  Forall P l -> (forall x, assoc n l = Some x -> P (n, f x)) -> Forall P (update n f l).
Proof.
  induction l as [|[m y] r IH]; intros H Hf; cbn; auto. inversion H; subst. cbn in Hf.
  destruct (str_eqb m n) eqn:E.
  - apply str_eqb_spec in E. subst. constructor; auto.
  - constructor; auto.
Qed.

Lemma wf_alter : forall f p t i l, wf_tree t -> get t p = Some (Dir i l) -> wf_tree (Dir i (f l)) -> wf_tree (alter f p t).
Proof.
  intros f. induction p as [|n r IH]; intros t i l Hw H Hf; cbn in H.
  - inversion H; subst. exact Hf.
  - destruct t as [j|j m]; [discriminate|]. destruct (assoc n m) as [c|] eqn:E; [|discriminate].
    cbn [alter]. apply wf_tree_dir in Hw as (H1 & H2 & H3). apply wf_tree_dir. repeat split.
    + rewrite map_fst_update. auto.
    + apply Forall_update; auto. intros x Hx. apply (Forall_assoc _ _ _ _ _ H2) in Hx. exact Hx.
    + apply Forall_update; auto. intros x Hx. cbn. assert (x = c) by congruence. subst.
      eapply IH; eauto. apply (Forall_assoc _ _ _ _ _ H3 E).
Qed.

Lemma in_flat_update : forall n g (l : list (str * tree)) x,
  In x (flat_map (fun e => inodes (snd e)) (update n g l)) ->
  In x (flat_map (fun e => inodes (snd e)) l) \/ exists c, assoc n l = Some c /\ In x (inodes (g c)).
Proof.
  induction l as [|[m y] r IH]; cbn; intros x H; auto.
  destruct (str_eqb m n) eqn:E; cbn in H; rewrite in_app_iff in *.
  - destruct H as [H|H]; eauto.
  - destruct H as [H|H]; auto. apply IH in H as [H|H]; auto.
Qed.

Lemma inodes_alter : forall f p t x, In x (inodes (alter f p t)) ->
  In x (inodes t) \/ exists i l, get t p = Some (Dir i l) /\ In x (inodes (Dir i (f l))).
Proof.
  intros f. induction p as [|n r IH]; intros [i|i l] x H; auto.
  - right. exists i, l. auto.
  - cbn in H. destruct H as [H|H]; [left; cbn; auto|].
    apply in_flat_update in H as [H|[c [Hc H]]]; [left; cbn; auto|].
    apply IH in H as [H|[j [m [H1 H2]]]].
    + left. cbn. right. apply in_flat_map. exists (n, c). split; auto. apply assoc_In. auto.
    + right. exists j, m. cbn [get]. rewrite Hc. auto.
Qed.

Lemma inodes_get : forall p t c x, get t p = Some c -> In x (inodes c) -> In x (inodes t).
Proof.
  induction p as [|n r IH]; intros t c x H Hi; cbn in H; [inversion H; subst; auto|].
  destruct t as [i|i l]; [discriminate|]. destruct (assoc n l) as [d|] eqn:E; [|discriminate].
  cbn. right. apply in_flat_map. exists (n, d). split; [apply assoc_In; auto|eapply IH; eauto].
Qed.

Lemma NoDup_snoc : forall A (l : list A) x, NoDup l -> ~ In x l -> NoDup (l ++ [x]).
Proof.
  induction l as [|a r IH]; cbn; intros x H Hx; [constructor; auto; constructor|].
  inversion H; subst. constructor; [|apply IH; tauto].
  rewrite in_app_iff. cbn. intros [Hi|[Hi|[]]]; auto.
Qed.

Lemma wf_insert : forall p n c t i l, wf_tree t -> get t p = Some (Dir i l) -> assoc n l = None ->
  good_name n = true -> wf_tree c -> wf_tree (insert_at p n c t).
Proof.
  intros p n c t i l Hw H Hn Hg Hc. unfold insert_at. eapply wf_alter; eauto.
  apply (wf_get _ _ _ Hw) in H. apply wf_tree_dir in H as (H1 & H2 & H3). apply wf_tree_dir.
  repeat split.
  - rewrite map_app. cbn. apply NoDup_snoc; auto. apply assoc_None; auto.
  - apply Forall_app. auto.
  - apply Forall_app. auto.
Qed.

Lemma Forall_delete : forall A (P : str * A -> Prop) n l, Forall P l -> Forall P (delete n l).
Proof.
  intros A P n l H. rewrite Forall_forall in *. intros x Hx. apply H. eapply In_delete; eauto.
Qed.

Lemma alter_missing : forall f p t, (forall i l, get t p <> Some (Dir i l)) -> alter f p t = t.
Proof.
  intros f. induction p as [|n r IH]; intros [i|i l] H; cbn; auto.
  - destruct (H i l). reflexivity.
  - f_equal. destruct (assoc n l) as [c|] eqn:E.
    + apply (update_id _ _ _ _ c); auto. apply IH. intros j m Hc. apply (H j m). cbn. rewrite E. auto.
    + clear H. induction l as [|[m y] l' IHl]; cbn in *; auto. destruct (str_eqb m n); [discriminate|].
      rewrite IHl; auto.
Qed.

Lemma wf_delete : forall p n t, wf_tree t -> wf_tree (delete_at p n t).
Proof.
  intros p n t Hw. unfold delete_at. destruct (get t p) as [[i|i l]|] eqn:E.
  - rewrite alter_missing; auto. intros; congruence.
  - eapply wf_alter; eauto. apply (wf_get _ _ _ Hw) in E. apply wf_tree_dir in E as (H1 & H2 & H3).
    apply wf_tree_dir. repeat split; [apply NoDup_delete|apply Forall_delete|apply Forall_delete]; auto.
  - rewrite alter_missing; auto. intros; congruence.
Qed.

Lemma in_flat_delete : forall n (l : list (str * tree)) x,
  In x (flat_map (fun e => inodes (snd e)) (delete n l)) -> In x (flat_map (fun e => inodes (snd e)) l).
Proof.
  intros n l x H. apply in_flat_map in H as [e [H1 H2]]. apply in_flat_map. exists e. split; auto.
  eapply In_delete; eauto.
Qed.

Lemma inodes_delete : forall p n t x, In x (inodes (delete_at p n t)) -> In x (inodes t).
Proof.
  intros p n t x H. unfold delete_at in H. apply inodes_alter in H as [H|[i [l [H1 H2]]]]; auto.
  eapply inodes_get; eauto. cbn in *. destruct H2 as [H2|H2]; auto. right. eapply in_flat_delete; eauto.
Qed.

Lemma inodes_insert : forall p n c t x, In x (inodes (insert_at p n c t)) -> In x (inodes t) \/ In x (inodes c).
Proof.
  intros p n c t x H. unfold insert_at in H. apply inodes_alter in H as [H|[i [l [H1 H2]]]]; auto.
  cbn in H2. rewrite flat_map_app, in_app_iff in H2. cbn in H2. rewrite app_nil_r in H2.
  destruct H2 as [H2|[H2|H2]]; auto; left; eapply inodes_get; eauto; cbn; auto.
Qed.

(** * Resolution in states *)

Lemma closed_look : forall s, wf s -> closed (look (f_root s)).
Proof.
  intros s Hw. destruct (wf_root_dir s Hw) as [i [l H]]. split.
  - exists i. rewrite H. reflexivity.
  - intros p x. apply look_removelast.
Qed.

Definition links_left (p : place) : nat := match p with Found l _ => l | _ => 0 end.

Lemma resolve_missing : forall k s last t cs p n, names_ok cs -> resolve_comps k s last t cs = Missing p n ->
  exists i l, get (f_root s) p = Some (Dir i l) /\ assoc n l = None /\ good_name n = true.
Proof.
  intros k s last t cs p n Hok H. unfold resolve_comps in H. destruct (is_nil t); [discriminate|].
  pose proof (steps_missing _ _ _ _ _ _ _ _ H) as ([i Hi] & Hn & _).
  apply look_dir in Hi as [l Hl]. exists i, l. split; auto. split.
  - apply look_None in Hn. rewrite get_snoc, Hl in Hn. auto.
  - eapply steps_missing_name; eauto.
Qed.
Lemma find_missing : forall k s last t p n, find_at k s last t = Missing p n ->
  exists i l, get (f_root s) p = Some (Dir i l) /\ assoc n l = None /\ good_name n = true.
Proof. intros k s last t p n H. eapply resolve_missing; [apply comps_ok|exact H]. Qed.
Lemma entry_missing : forall k s t p n, find_entry k s t = Missing p n ->
  exists i l, get (f_root s) p = Some (Dir i l) /\ assoc n l = None /\ good_name n = true.
Proof. intros k s t p n H. eapply resolve_missing; [apply names_all|exact H]. Qed.

Lemma wf_make : forall s, wf s -> forall p n c perm nl k i l,
  get (f_root s) p = Some (Dir i l) -> assoc n l = None -> good_name n = true ->
  wf_tree c -> (forall x, In x (inodes c) -> x = f_next s) -> wf (make k s p n c perm nl).
Proof.
  intros s Hw p n c perm nl k i l H Hn Hg Hc Hi. destruct Hw as [W1 [ri [rl Hr]] W3]. constructor; cbn.
  - eapply wf_insert; eauto.
  - rewrite Hr. unfold insert_at. destruct p; cbn; eauto.
  - intros x Hx. apply inodes_insert in Hx as [Hx|Hx]; [apply W3 in Hx; lia|apply Hi in Hx; lia].
Qed.

Lemma wf_unchanged : forall s s', wf s -> f_root s' = f_root s -> f_next s' = f_next s -> wf s'.
Proof. intros s s' [W1 W2 W3] H1 H2. constructor; rewrite ?H1, ?H2; auto. Qed.

Lemma wf_deleted : forall s s' p n, wf s -> f_root s' = delete_at p n (f_root s) -> f_next s' = f_next s -> wf s'.
Proof.
  intros s s' p n [W1 [ri [rl Hr]] W3] H1 H2. constructor; rewrite ?H1, ?H2.
  - apply wf_delete; auto.
  - rewrite Hr. unfold delete_at. destruct p; cbn; eauto.
  - intros x Hx. apply inodes_delete in Hx. auto.
Qed.

(** * Deleting and looking *)

Lemma get_delete_other : forall p n t m q i l, get t p = Some (Dir i l) -> m <> n ->
  get (delete_at p n t) (p ++ m :: q) = get t (p ++ m :: q).
Proof.
  intros. unfold delete_at. erewrite get_alter_in by eauto. rewrite (get_app p), H. cbn.
  rewrite assoc_delete_other; auto.
Qed.
Lemma get_delete_same : forall p n t q i l, wf_tree t -> get t p = Some (Dir i l) ->
  get (delete_at p n t) (p ++ n :: q) = None.
Proof.
  intros. unfold delete_at. erewrite get_alter_in by eauto. cbn. rewrite assoc_delete_same; auto.
  apply (wf_get _ _ _ H) in H0. apply wf_tree_dir in H0. tauto.
Qed.
Lemma look_delete_out : forall p n t q, below (p ++ [n]) q = false -> look (delete_at p n t) q = look t q.
Proof.
  intros p n t q H. destruct (get t p) as [[i|i l]|] eqn:E;
    [unfold delete_at; rewrite alter_missing; auto; intros; congruence| |unfold delete_at; rewrite alter_missing; auto; intros; congruence].
  destruct (below p q) eqn:Hb; [|unfold delete_at; apply look_alter_out; auto].
  apply below_spec in Hb as [r ->]. destruct r as [|m r'].
  - rewrite app_nil_r. unfold delete_at. apply look_alter_out; auto.
  - unfold look. erewrite get_delete_other; eauto. intros ->. 
    assert (below (p ++ [n]) (p ++ n :: r') = true).
    { apply below_spec. exists r'. rewrite <- app_assoc. reflexivity. }
    congruence.
Qed.
Lemma get_delete_out : forall p n t q, below (p ++ [n]) q = false -> below q p = false -> get (delete_at p n t) q = get t q.
Proof.
  intros p n t q H Hq. destruct (get t p) as [[i|i l]|] eqn:E;
    [unfold delete_at; rewrite alter_missing; auto; intros; congruence| |unfold delete_at; rewrite alter_missing; auto; intros; congruence].
  destruct (below p q) eqn:Hb; [|unfold delete_at; apply get_alter_out; auto].
  apply below_spec in Hb as [r ->]. destruct r as [|m r'].
  - rewrite app_nil_r, below_refl in Hq. discriminate.
  - eapply get_delete_other; eauto. intros ->. 
    assert (below (p ++ [n]) (p ++ n :: r') = true).
    { apply below_spec. exists r'. rewrite <- app_assoc. reflexivity. }
    congruence.
Qed.

Lemma look_delete_sub : forall p n t q x, wf_tree t -> look (delete_at p n t) q = Some x -> look t q = Some x.
Proof.
  intros p n t q x Hw H. destruct (below (p ++ [n]) q) eqn:Hb; [|rewrite look_delete_out in H; auto].
  apply below_spec in Hb as [r ->]. rewrite <- app_assoc in *. cbn in *.
  destruct (get t p) as [[i|i l]|] eqn:E;
    [unfold delete_at in H; rewrite alter_missing in H; auto; intros; congruence| |unfold delete_at in H; rewrite alter_missing in H; auto; intros; congruence].
  apply look_get in H as [c [H _]]. erewrite get_delete_same in H by eauto. discriminate.
Qed.

Lemma below_snoc_parent : forall q p n, below q (p ++ [n]) = true -> below q p = true \/ q = p ++ [n].
Proof.
  intros q p n H. apply below_spec in H as [r H]. destruct (snoc_cases r) as [->|[r' [m ->]]].
  - rewrite app_nil_r in H. auto.
  - rewrite app_assoc in H. apply app_inj_tail in H as [H _]. left. apply below_spec. eauto.
Qed.
Lemma below_length : forall p q, below p q = true -> length p <= length q.
Proof. intros p q H. apply below_spec in H as [r ->]. rewrite app_length. lia. Qed.
Lemma below_not_snoc : forall p n, below (p ++ [n]) p = false.
Proof.
  intros. destruct (below (p ++ [n]) p) eqn:H; auto. apply below_length in H. rewrite app_length in H. cbn in H. lia.
Qed.
Lemma below_leaf : forall t q i p x, get t q = Some (Leaf i) -> look t p = Some x -> below q p = true -> p = q.
Proof.
  intros t q i p x Hq Hp H. apply below_spec in H as [[|m r] ->]; [apply app_nil_r|].
  apply look_get in Hp as [c [Hp _]]. rewrite get_app, Hq in Hp. discriminate.
Qed.

Lemma snoc_removelast : forall (q : loc), q <> [] -> q = removelast q ++ [last q []].
Proof. intros. apply app_removelast_last. auto. Qed.

(** Moving an entry to a free name outside it. *)
Lemma wf_move : forall s q c p n, wf s -> q <> [] -> get (f_root s) q = Some c ->
  (exists i, look (f_root s) p = Some (NDir i)) -> look (f_root s) (p ++ [n]) = None ->
  good_name n = true -> below q p = false -> wf (move_entry s q c p n).
Proof.
  intros s q c p n Hw Hq Hc [i Hp] Hn Hg Hb. pose proof Hw as [W1 [ri [rl Hr]] W3].
  assert (Hp' : look (delete_at (removelast q) (last q []) (f_root s)) p = Some (NDir i)).
  { rewrite look_delete_out; auto. rewrite <- snoc_removelast; auto. }
  apply look_dir in Hp' as [l Hl].
  assert (Hn' : assoc n l = None).
  { assert (Hx : look (delete_at (removelast q) (last q []) (f_root s)) (p ++ [n]) = None).
    { destruct (look (delete_at _ _ _) (p ++ [n])) eqn:E; auto. apply look_delete_sub in E; auto. congruence. }
    apply look_None in Hx. rewrite get_snoc, Hl in Hx. auto. }
  constructor; unfold move_entry; cbn.
  - eapply wf_insert; eauto. apply wf_delete; auto. eapply wf_get; eauto.
  - rewrite Hr. unfold insert_at, delete_at. destruct (removelast q); cbn; destruct p; cbn; eauto.
  - intros x Hx. apply inodes_insert in Hx as [Hx|Hx].
    + apply inodes_delete in Hx. auto.
    + apply W3. eapply inodes_get; eauto.
Qed.

(** Entry names in a well-formed tree are possible names. *)
Lemma wf_name : forall t p n x, wf_tree t -> look t (p ++ [n]) = Some x -> good_name n = true.
Proof.
  intros t p n x Hw H. apply look_get in H as [c [H _]]. rewrite get_snoc in H.
  destruct (get t p) as [[i|i l]|] eqn:E; try discriminate.
  apply (wf_get _ _ _ Hw) in E. apply wf_tree_dir in E as (_ & E & _).
  apply (Forall_assoc _ _ _ _ _ E H).
Qed.

Theorem wf_step : forall k c s, wf s -> wf (snd (fsk k c s)).
Proof.
  intros k c s Hw. assert (Hsame : forall s', f_root s' = f_root s -> f_next s' = f_next s -> wf s').
  { intros. eapply wf_unchanged; eauto. }
  destruct c; cbn; auto.
  - (* open *) unfold sys_open. destruct (find_at k s true p) as [l q|q n|e] eqn:E; auto.
    + destruct (look (f_root s) q) as [[i|i]|]; destruct fl; auto.
    + destruct fl; auto. cbn. apply find_missing in E as (i & l & H1 & H2 & H3).
      eapply wf_unchanged; [eapply (wf_make s Hw q n (Leaf (f_next s)) (mode_bits mode) 1 k); eauto|reflexivity|reflexivity].
      * exact I.
      * cbn. intuition.
  - (* mkdir *) unfold sys_mkdir. destruct (find_entry k s p) as [l q|q n|e] eqn:E; auto.
    cbn. apply entry_missing in E as (i & l & H1 & H2 & H3). eapply wf_make; eauto.
    + apply wf_tree_dir. repeat split; constructor.
    + cbn. intuition.
  - (* symlink *) unfold sys_symlink. destruct (is_nil target); auto.
    destruct (find_at k s false link) as [l q|q n|e] eqn:E; auto.
    cbn. apply find_missing in E as (i & l & H1 & H2 & H3).
    eapply wf_unchanged; [eapply (wf_make s Hw q n (Leaf (f_next s)) 511 1 k); eauto|reflexivity|reflexivity].
    + exact I.
    + cbn. intuition.
  - (* link *) unfold sys_link. destruct (node_at s (find_at k s false old)) as [e|x] eqn:Ex; auto.
    destruct (find_at k s false new) as [l q|q n|e] eqn:E; auto. destruct x as [j|j]; auto.
    apply find_missing in E as (i & l & H1 & H2 & H3). pose proof Hw as [W1 [ri [rl Hr]] W3]. constructor; cbn.
    + eapply wf_insert; eauto. exact I.
    + rewrite Hr. unfold insert_at. destruct q; cbn; eauto.
    + intros x Hx. apply inodes_insert in Hx as [Hx|[<-|[]]]; auto. apply W3.
      unfold node_at in Ex. destruct (find_at k s false old) as [ll qq|? ?|?]; try discriminate.
      destruct (look (f_root s) qq) as [y|] eqn:El; inversion Ex; subst. apply look_leaf in El.
      apply (inodes_get _ _ _ _ El). cbn. auto.
  - (* remove *) unfold sys_remove. destruct (find_entry k s p) as [l q|q n|e] eqn:E; auto.
    destruct (is_nil q); auto. destruct (str_eqb (last_name p) (lit ".")); auto.
    destruct (str_eqb (last_name p) (lit "..")); auto.
    destruct (get (f_root s) q) as [[i|i m]|]; auto.
    + destruct (ends_slash p); auto. eapply wf_deleted; eauto; reflexivity.
    + destruct (is_nil m); auto. eapply wf_deleted; eauto; reflexivity.
  - (* rename *) unfold sys_rename. destruct (find_entry k s old) as [l q|q n|e] eqn:E; auto.
    destruct (get (f_root s) q) as [c|] eqn:Hc; auto.
    destruct (is_nil q || is_dots (last_name old) || is_dots (last_name new) || is_nil (names new)) eqn:E0; auto.
    assert (Hq : q <> []) by (intros ->; discriminate).
    destruct (negb match c with Leaf _ => false | Dir _ _ => true end && (ends_slash old || ends_slash new)); auto.
    destruct (find_entry k s new) as [l2 q2|p n|e2] eqn:E2; auto.
    + destruct (get (f_root s) q2) as [c2|] eqn:Hc2; [|auto].
      destruct (snoc_cases q2) as [->|[p2 [n2 ->]]].
      { destruct (wf_root_dir s Hw) as [ri [rl Hr]]. cbn in Hc2. inversion Hc2; subst. rewrite Hr.
        destruct c; auto. destruct (same_loc q []); auto. destruct (below q []) eqn:Hb; auto.
        destruct rl as [|e rl]; auto. cbn.
        assert (exists x, q = x :: tl q) as [x Hx] by (destruct q; [congruence|eauto]).
        rewrite Hx, Hr in Hc. cbn in Hc. discriminate. }
      rewrite removelast_snoc, last_snoc.
      assert (Hlook : look (f_root s) (p2 ++ [n2]) = Some (node_of c2)) by (apply look_get; eauto).
      pose proof (look_parent _ _ _ _ Hlook) as [pi Hpi].
      pose proof (wf_name _ _ _ _ (wf_root s Hw) Hlook) as Hg.
      apply look_dir in Hpi as [pl Hpl].
      assert (Hdel : forall s', f_root s' = delete_at p2 n2 (f_root s) -> f_next s' = f_next s ->
        below (p2 ++ [n2]) q = false -> below q (p2 ++ [n2]) = false -> wf (move_entry s' q c p2 n2)).
      { intros s' Hs1 Hs2 Hb1 Hb2. apply wf_move; auto.
        - eapply wf_deleted; eauto.
        - rewrite Hs1. destruct (below q p2) eqn:Hb3.
          + apply below_spec in Hb3 as [r ->]. rewrite <- app_assoc, below_app in Hb2. discriminate.
          + rewrite get_delete_out; auto.
        - exists pi. rewrite Hs1, look_delete_out by apply below_not_snoc. apply look_dir. eauto.
        - rewrite Hs1. apply look_None. eapply get_delete_same; eauto. apply (wf_root s Hw).
        - destruct (below q p2) eqn:Hb3; auto.
          apply below_spec in Hb3 as [r ->]. rewrite <- app_assoc, below_app in Hb2. discriminate. }
      assert (Hleaf : forall i, c = Leaf i -> q <> p2 ++ [n2] -> below q (p2 ++ [n2]) = false).
      { intros i -> Hne. destruct (below q (p2 ++ [n2])) eqn:Hb; auto. destruct Hne.
        symmetry. eapply below_leaf; eauto. }
      destruct c2 as [j|j m], c as [i|i m']; auto.
      * destruct (N.eqb i j) eqn:Eij; auto. apply Hdel; auto.
        { destruct (below (p2 ++ [n2]) q) eqn:Hb; auto.
          assert (q = p2 ++ [n2]) by (eapply below_leaf; eauto; apply look_leaf; eauto).
          subst q. rewrite Hc in Hc2. inversion Hc2; subst. rewrite N.eqb_refl in Eij. discriminate. }
        eapply Hleaf; eauto. intros ->. rewrite Hc in Hc2. inversion Hc2; subst. rewrite N.eqb_refl in Eij. discriminate.
      * destruct (same_loc q (p2 ++ [n2])) eqn:Es; auto. destruct (below q (p2 ++ [n2])) eqn:Hb; auto.
        destruct m as [|e m]; auto. cbn [is_nil]. apply Hdel; auto.
        destruct (below (p2 ++ [n2]) q) eqn:Hb1; auto.
        apply below_spec in Hb1 as [r ->]. destruct r as [|x r].
        { rewrite app_nil_r, below_refl in Hb. discriminate. }
        rewrite get_app, Hc2 in Hc. discriminate.
    + pose proof (entry_missing _ _ _ _ _ E2) as (i & m & H1 & H2 & H3).
      assert (Hwf : below q p = false -> wf (move_entry s q c p n)).
      { intros Hb. apply wf_move; auto.
        - exists i. apply look_dir. eauto.
        - apply look_None. rewrite get_snoc, H1. auto. }
      destruct c as [j|j m'].
      * cbn. apply Hwf. destruct (below q p) eqn:Hb; auto.
        assert (p = q) by (eapply below_leaf; eauto; apply look_dir; eauto). congruence.
      * cbn [andb]. destruct (below q p) eqn:Hb; auto.
  - (* truncate *) unfold sys_truncate. destruct (node_at s (find_at k s true p)) as [e|[i|i]]; auto.
    unfold resize_obj. destruct (f_body s i); auto. destruct (len <? 0)%Z; auto.
  - (* ftruncate *) unfold with_fd. destruct (nassoc fd (f_fds s)) as [[i o]|]; auto.
    unfold resize_obj. destruct (f_body s i); auto. destruct (len <? 0)%Z; auto.
  - (* fchmod *) unfold with_fd. destruct (nassoc fd (f_fds s)) as [[i o]|]; auto.
  - (* fchmodat *) unfold sys_fchmodat. destruct (node_at s (find_at k s (negb nofollow) p)) as [e|x]; auto.
    match goal with |- wf (snd (if ?b then _ else _)) => destruct b end; auto.
  - (* utimensat *) unfold sys_utimensat. destruct (node_at s (find_at k s true p)) as [e|x]; auto.
    match goal with |- wf (snd (if ?b then _ else _)) => destruct b end; auto.
  - (* chdir *) unfold sys_chdir. destruct (find_at k s true p) as [l q|q n|e]; auto.
    destruct (look (f_root s) q) as [[i|i]|]; auto.
  - (* sendfile *) unfold sys_sendfile. destruct (nassoc in_fd (f_fds s)) as [[i o]|]; auto.
    destruct (nassoc out_fd (f_fds s)) as [[j o2]|]; auto.
    destruct (f_body s i); auto. destruct (f_body s j); auto.
  - (* read *) unfold sys_read. destruct (nassoc fd (f_fds s)) as [[i o]|]; auto. destruct (f_body s i); auto.
  - (* write *) unfold sys_write. destruct (nassoc fd (f_fds s)) as [[i o]|]; auto. destruct (f_body s i); auto.
  - (* opendir *) unfold sys_opendir. destruct (find_at k s true p) as [l q|q n|e]; auto.
    destruct (get (f_root s) q) as [[i|i l']|]; auto.
  - (* readdir *) unfold sys_readdir. destruct (nassoc d (f_dirs s)) as [[|e r]|]; auto.
Qed.

(** Every state a program reaches is well-formed. *)
Theorem wf_run : forall A k (p : prog A) s, wf s ->
  match run (fsk k) p s with Done _ s' => wf s' | Failed _ s' => wf s' end.
Proof.
  intros A k. induction p as [a|f|c q IH]; intros s Hw; cbn [run]; auto.
  pose proof (wf_step k c s Hw) as H. destruct (fsk k c s) as [r s']. apply IH. exact H.
Qed.

(** As [steps_fill], for any object that is not followed further. *)
Lemma steps_fill_leaf : forall lk tg lk' tg' last p n x, grows lk tg lk' tg' -> lk' (p ++ [n]) = Some x ->
  (forall i, x = NLeaf i -> tg' i = None \/ last = false) ->
  forall links cs cur, steps lk tg last links cur cs = Missing p n ->
  exists l, steps lk' tg' last links cur cs = Found l (p ++ [n]).
Proof.
  intros lk tg lk' tg' last p n x [Hg Ht] Hn Hx.
  assert (Hone : forall links, exists l,
    match lk' (p ++ [n]) with
    | Some (NLeaf i) =>
        match tg' i with
        | Some t =>
            if is_nil (@nil str) && negb last then Found links (p ++ [n])
            else match links with
                 | 0 => Fail ELOOP
                 | S l => steps lk' tg' last l (if starts_slash t then [] else p) (comps t ++ [])
                 end
        | None => if is_nil (@nil str) then Found links (p ++ [n]) else Fail ENOTDIR
        end
    | Some (NDir _) => steps lk' tg' last links (p ++ [n]) []
    | None => if is_nil (@nil str) then Missing p n else Fail ENOENT
    end = Found l (p ++ [n])).
  { intros links. rewrite Hn. destruct x as [i|i]; [|rewrite steps_nil; eauto].
    destruct (Hx i eq_refl) as [-> | ->]; cbn; eauto. destruct (tg' i); eauto. }
  induction links as [|links IHl];
  (induction cs as [|m r IHr]; intros cur; [rewrite steps_nil; discriminate|]).
  all: rewrite !steps_cons; destruct (lk cur) as [[j|j]|] eqn:E1; try discriminate; rewrite (Hg _ _ E1);
    destruct (str_eqb m (lit ".")) eqn:D1; [apply IHr|]; destruct (str_eqb m (lit "..")) eqn:D2; [apply IHr|];
    destruct (lk (cur ++ [m])) as [[v|v]|] eqn:E2;
    [rewrite (Hg _ _ E2), (Ht _ _ E2)|rewrite (Hg _ _ E2); apply IHr|].
  - destruct (tg v); [|destruct (is_nil r); discriminate]. destruct (is_nil r && negb last); discriminate.
  - destruct r; [|discriminate]. intros H; inversion H; subst. apply Hone.
  - destruct (tg v); [|destruct (is_nil r); discriminate]. destruct (is_nil r && negb last); [discriminate|apply IHl].
  - destruct r; [|discriminate]. intros H; inversion H; subst. apply Hone.
Qed.
