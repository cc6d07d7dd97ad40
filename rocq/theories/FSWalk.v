(** recursive_directory_iterator on the file system of FS.v. *)
From Coq Require Import Ascii String Bool Arith NArith ZArith Lia FinFun.
From Verif Require Import Str PathModel PathSpec StrProofs PathProofs PathOps PathOps2 PathReach PathLaws
  FlagsModel TimeModel Prog DirModel OpsModel OpsProps FS FSProofs FSSpec FSOps FSPlace FSProps IterProps FSIter FSRemove FSCopyTree.
From Coq Require Import List.
Import ListNotations.

(** * Vocabulary *)

(** The loop of a client: for (recursive_directory_iterator it(p, opts, ec); it != end; it.increment(ec)) visit( *it, it.depth() ).
    The result is what was visited and the code after the loop; with [has] false the overloads without ec are used. *)
Fixpoint rvisit_all (cf : config) (n : nat) (has : bool) (k : nat) (it : rdir_iter) (ec : ecode) : prog (list (dir_entry * Z) * ecode) :=
  match k with
  | O => Stop FFuel
  | S k' =>
      match r_impl it with
      | None => Ret ([], ec)
      | Some _ =>
          let! e := rdir_deref cf it in
          let! d := rdir_depth it in
          let! j := rdir_increment cf n has it in
          let! r := rvisit_all cf n has k' (fst j) (snd j) in
          Ret ((e, d) :: fst r, snd r)
      end
  end.
Definition visit_tree (cf : config) (n : nat) (has : bool) (p : path) (opts : N) : prog (list (dir_entry * Z) * ecode) :=
  let! i := rdir_ctor cf n has p opts in rvisit_all cf n has n (fst i) (snd i).

(** Some increments. *)
Fixpoint forward (cf : config) (n : nat) (has : bool) (m : nat) (it : rdir_iter) : prog rdir_iter :=
  match m with
  | O => Ret it
  | S m' => let! j := rdir_increment cf n has it in forward cf n has m' (fst j)
  end.

(** A client that leaves the directory it is in after [m] increments by pop(ec), and visits the rest; the result is the entry where it left
    and what it visited after that. *)
Definition pop_after (cf : config) (n : nat) (has : bool) (p : path) (opts : N) (m : nat) : prog (dir_entry * Z * list (dir_entry * Z) * ecode) :=
  let! i := rdir_ctor cf n has p opts in
  let! it := forward cf n has m (fst i) in
  let! e := rdir_deref cf it in
  let! d := rdir_depth it in
  let! j := rdir_pop cf n has it in
  let! r := rvisit_all cf n has n (fst j) (snd j) in
  Ret (e, d, fst r, snd r).

(** A client that calls disable_recursion_pending() after [m] increments. *)
Definition disable_after (cf : config) (n : nat) (has : bool) (p : path) (opts : N) (m : nat) : prog (dir_entry * Z * list (dir_entry * Z) * ecode) :=
  let! i := rdir_ctor cf n has p opts in
  let! it := forward cf n has m (fst i) in
  let! e := rdir_deref cf it in
  let! d := rdir_depth it in
  let! j := rdir_increment cf n has (rdir_disable it) in
  let! r := rvisit_all cf n has n (fst j) (snd j) in
  Ret (e, d, fst r, snd r).

(** What is seen of a visit: the path and the type of the entry and the depth. *)
Definition rshown (x : dir_entry * Z) : str * file_type * Z := (shown (fst x), snd x).

(** The visit of the place [r] below the directory at [q] that was given as [dir]: its path, its type and the number of directories
    between. *)
Definition visit_of (s : fs) (dir : str) (q : loc) (r : loc) : str * file_type * Z :=
  (fold_left append_text r dir,
   match look (f_root s) (q ++ r) with Some x => type_of s x | None => ft_none end,
   (Z.of_nat (length r) - 1)%Z).

(** No symlink comes before a directory in the order of the entries of a directory. *)
Definition links_last (s : fs) (c : tree) : Prop :=
  forall r i l1 a j l2 b k l l3, get c r = Some (Dir i (l1 ++ (a, Leaf j) :: l2 ++ (b, Dir k l) :: l3)) -> link_text s j = None.

(** The place [r] lies below a directory that may not be read. *)
Definition behind (D : N -> bool) (c : tree) (r : loc) : Prop :=
  exists r1 r2 i l, r = r1 ++ r2 /\ r2 <> [] /\ get c r1 = Some (Dir i l) /\ D i = true.

(** The system with directories [D] that may not be read: opendir fails with EACCES. *)
Definition guarded (k : choices) (D : N -> bool) : kernel fs := fun c =>
  match c as c return fs -> answer c * fs with
  | c_opendir t => fun s =>
      match find_at k s true t with
      | Found _ q =>
          match get (f_root s) q with
          | Some (Dir i _) => if D i then (Err EACCES, s) else fsk k (c_opendir t) s
          | _ => fsk k (c_opendir t) s
          end
      | _ => fsk k (c_opendir t) s
      end
  | c => fsk k c
  end.

(** The place [r] lies below a directory that comes after a symlink among the entries of its parent. *)
Definition after_link (s : fs) (c : tree) (r : loc) : Prop :=
  exists r1 n r2 i l1 a j l2 d l3, r = r1 ++ n :: r2 /\ r2 <> [] /\
    get c r1 = Some (Dir i (l1 ++ (a, Leaf j) :: l2 ++ (n, d) :: l3)) /\ link_text s j <> None.

(** The places of the directory [c] are listed in [l]: everything below [c], each once, parents before children. *)
Definition parents_first (l : list loc) : Prop := forall l1 r n l2, l = l1 ++ (r ++ [n]) :: l2 -> r = [] \/ In r l1.
Definition inside (c : tree) (r : loc) : Prop := r <> [] /\ look c r <> None.

(** * The order of the visits *)

Definition is_link (s : fs) (c : tree) : bool :=
  match c with Leaf i => match link_text s i with Some _ => true | None => false end | Dir _ _ => false end.

Section Scan.
Variable s : fs.
Variable f : tree -> list loc.
Fixpoint scan (seen : bool) (l : list (str * tree)) : list loc :=
  match l with
  | [] => []
  | (n, c) :: r =>
      let seen' := is_link s c || seen in
      [n] :: (if seen' then [] else map (cons n) (f c)) ++ scan seen' r
  end.
End Scan.
(** The directories [D] are not entered. *)
Fixpoint places (s : fs) (D : N -> bool) (t : tree) : list loc :=
  match t with Leaf _ => [] | Dir i l => if D i then [] else scan s (places s D) false l end.

Lemma scan_in : forall s f l seen r, (forall e, In e l -> forall r', In r' (f (snd e)) -> inside (snd e) r') ->
  In r (scan s f seen l) -> exists n c r', r = n :: r' /\ In (n, c) l /\ look c r' <> None.
Proof.
  intros s f. induction l as [|[n c] l IH]; intros seen r Hf H; [destruct H|]. cbn [scan] in H. destruct H as [<-|H].
  - exists n, c, []. split; auto. split; [left; auto|]. destruct c; discriminate.
  - apply in_app_or in H as [H|H].
    + destruct (is_link s c || seen); [destruct H|]. apply in_map_iff in H as (r' & <- & H).
      exists n, c, r'. split; auto. split; [left; auto|]. destruct (Hf (n, c) (or_introl eq_refl) r' H). auto.
    + apply IH in H; [|intros; eapply Hf; eauto; right; auto]. destruct H as (n' & c' & r' & H1 & H2 & H3).
      exists n', c', r'. split; auto. split; [right; auto|auto].
Qed.

Lemma inside_cons : forall i l n c r, wf_tree (Dir i l) -> In (n, c) l -> look c r <> None -> inside (Dir i l) (n :: r).
Proof.
  intros i l n c r Hw Hin Hr. apply wf_tree_dir in Hw as (Hnd & _). split; [discriminate|].
  unfold look in *. cbn [get]. rewrite (In_assoc _ n c l) by auto. auto.
Qed.

Lemma places_inside : forall s D c, wf_tree c -> forall r, In r (places s D c) -> inside c r.
Proof.
  intros s D c. induction c as [i|i l IH] using tree_ind'; intros Hw r H; [destruct H|]. cbn [places] in H. destruct (D i); [destruct H|].
  pose proof Hw as Hw'. apply wf_tree_dir in Hw' as (_ & _ & Hall).
  apply scan_in in H.
  - destruct H as (n & c & r' & -> & Hin & Hl). eapply inside_cons; eauto.
  - rewrite Forall_forall in *. intros e He r' Hr'. eapply IH; eauto.
Qed.

Lemma scan_head : forall s f l seen r, In r (scan s f seen l) -> exists n r', r = n :: r' /\ In n (map fst l).
Proof.
  intros s f. induction l as [|[n c] l IH]; intros seen r H; [destruct H|]. cbn [scan] in H. destruct H as [<-|H].
  - exists n, []. split; auto. left; auto.
  - apply in_app_or in H as [H|H].
    + destruct (is_link s c || seen); [destruct H|]. apply in_map_iff in H as (r' & <- & H). exists n, r'. split; auto. left; auto.
    + apply IH in H as (n' & r' & H1 & H2). exists n', r'. split; auto. right; auto.
Qed.

Lemma nodup_app : forall A (a b : list A), NoDup a -> NoDup b -> (forall x, In x a -> ~ In x b) -> NoDup (a ++ b).
Proof.
  intros A a b Ha Hb H. induction Ha as [|x a Hx Ha IH]; cbn; auto. constructor.
  - rewrite in_app_iff. intros [Hi|Hi]; [auto|]. apply (H x); [left; auto|auto].
  - apply IH. intros y Hy. apply H. right; auto.
Qed.

Lemma places_nodup : forall s D c, wf_tree c -> NoDup (places s D c).
Proof.
  intros s D c. induction c as [i|i l IH] using tree_ind'; intros Hw; [constructor|]. cbn [places]. destruct (D i); [constructor|].
  pose proof (places_inside s D) as Hins. apply wf_tree_dir in Hw as (Hnd & _ & Hall). generalize false.
  induction l as [|[n c] l IHl]; intros seen; [constructor|]. cbn [scan].
  inversion IH as [|? ? IH1 IH2]; inversion Hall as [|? ? H1 H2]; inversion Hnd as [|? ? N1 N2]; subst. cbn [fst snd map] in *.
  assert (Hn : forall r b, In r (scan s (places s D) b l) -> forall r', r <> n :: r').
  { intros r b Hr r' ->. apply scan_head in Hr as (n' & r2 & He & Hi). inversion He; subst. auto. }
  assert (Hd : forall x, In x (if is_link s c || seen then [] else map (cons n) (places s D c)) -> exists r, r <> [] /\ x = n :: r).
  { intros x Hx. destruct (is_link s c || seen); [destruct Hx|]. apply in_map_iff in Hx as (r & <- & Hx). exists r. split; auto. apply (Hins c H1 r Hx). }
  constructor.
  - rewrite in_app_iff. intros [Hx|Hx].
    + apply Hd in Hx as (r & Hr & He). inversion He; subst. congruence.
    + eapply Hn; eauto.
  - apply nodup_app.
    + destruct (is_link s c || seen); [constructor|]. apply FinFun.Injective_map_NoDup; [|apply IH1; auto]. intros a b Hab. congruence.
    + apply IHl; auto.
    + intros x Hx Hy. apply Hd in Hx as (r & _ & ->). eapply Hn; eauto.
Qed.

Lemma split_app : forall A (a b l1 l2 : list A) x, a ++ b = l1 ++ x :: l2 ->
  (exists l3, a = l1 ++ x :: l3 /\ l2 = l3 ++ b) \/ (exists l3, b = l3 ++ x :: l2 /\ l1 = a ++ l3).
Proof.
  intros A. induction a as [|y a IH]; intros b l1 l2 x H; cbn in H.
  - right. exists l1. auto.
  - destruct l1 as [|z l1]; cbn in H; inversion H; subst.
    + left. exists a. auto.
    + apply IH in H2 as [(l3 & -> & ->)|(l3 & -> & ->)]; [left|right]; exists l3; auto.
Qed.

Lemma parents_app : forall a b, parents_first a -> parents_first b -> parents_first (a ++ b).
Proof.
  intros a b Ha Hb l1 r n l2 H. apply split_app in H as [(l3 & H & _)|(l3 & H & ->)].
  - eapply Ha; eauto.
  - apply Hb in H as [H|H]; auto. right. apply in_or_app. auto.
Qed.

Lemma parents_below : forall n l, parents_first l -> parents_first ([n] :: map (cons n) l).
Proof.
  intros n l Hl l1 r x l2 H. destruct l1 as [|y l1]; cbn in H; inversion H; subst.
  - destruct r as [|a [|b r]]; cbn in H1; inversion H1; auto.
  - apply map_eq_app in H2 as (m1 & m2 & -> & <- & H2). destruct m2 as [|m m2]; cbn in H2; inversion H2 as [[H3 H4]].
    destruct r as [|a r]; [left; auto|]. cbn in H3. inversion H3; subst. right.
    destruct (Hl m1 r x m2 eq_refl) as [->|Hi]; [left; auto|]. right. apply in_map. auto.
Qed.

Lemma places_parents : forall s D c, parents_first (places s D c).
Proof.
  intros s D c. induction c as [i|i l IH] using tree_ind'; [intros [|y l1]; discriminate|]. cbn [places]. destruct (D i); [intros [|y l1]; discriminate|]. generalize false.
  induction IH as [|[n c] l H1 H2 IHl]; intros seen; [intros [|y l1]; discriminate|]. cbn [scan snd] in *.
  change ([n] :: (if is_link s c || seen then [] else map (cons n) (places s D c)) ++ scan s (places s D) (is_link s c || seen) l)
    with (([n] :: (if is_link s c || seen then [] else map (cons n) (places s D c))) ++ scan s (places s D) (is_link s c || seen) l).
  apply parents_app; auto. destruct (is_link s c || seen).
  - intros l1 r x l2 H. destruct l1 as [|y [|z l1]]; cbn in H; inversion H; subst.
    destruct r as [|a [|b r]]; cbn in *; try discriminate; auto.
  - apply parents_below. auto.
Qed.

Lemma scan_all : forall s f l seen n c, In (n, c) l -> In [n] (scan s f seen l).
Proof.
  intros s f. induction l as [|[m d] l IH]; intros seen n c []; cbn [scan].
  - inversion H; subst. left; auto.
  - right. apply in_or_app. right. eauto.
Qed.

Lemma scan_descends : forall s f n c l2 l1 seen, seen = false -> is_link s c = false ->
  (forall a j, In (a, Leaf j) l1 -> link_text s j = None) ->
  forall r, In r (f c) -> In (n :: r) (scan s f seen (l1 ++ (n, c) :: l2)).
Proof.
  intros s f n c l2. induction l1 as [|[m d] l1 IH]; intros seen -> Hc Hl r Hr; cbn [app scan]; right; apply in_or_app.
  - left. rewrite Hc. cbn. apply in_map. auto.
  - right. apply IH; auto.
    + rewrite orb_false_r. destruct d as [j|j l]; [|reflexivity]. cbn [is_link]. rewrite (Hl m j) by (left; auto). reflexivity.
    + intros a j Ha. apply (Hl a j). right; auto.
Qed.

Lemma scan_came : forall s f n r l seen, r <> [] -> In (n :: r) (scan s f seen l) ->
  seen = false /\ exists l1 c l2, l = l1 ++ (n, c) :: l2 /\ In r (f c) /\ (forall a j, In (a, Leaf j) l1 -> link_text s j = None).
Proof.
  intros s f n r. induction l as [|[m d] l IH]; intros seen Hr H; [destruct H|]. cbn [scan] in H. destruct H as [H|H]; [inversion H; subst; congruence|].
  apply in_app_or in H as [H|H].
  - destruct (is_link s d || seen) eqn:Hs; [destruct H|]. apply orb_false_iff in Hs as [_ ->]. split; auto.
    apply in_map_iff in H as (r' & He & H). inversion He; subst. exists [], d, l. split; auto. split; auto. intros a j [].
  - apply IH in H as (Hs & l1 & c & l2 & -> & H1 & H2); auto. apply orb_false_iff in Hs as [Hd ->]. split; auto.
    exists ((m, d) :: l1), c, l2. split; auto. split; auto. intros a j [Ha|Ha]; [|eauto].
    inversion Ha; subst. cbn [is_link] in Hd. destruct (link_text s j); [discriminate|reflexivity].
Qed.

Lemma same_split : forall A (n : str) (a b a' b' : list (str * A)) c c', NoDup (map fst (a ++ (n, c) :: b)) ->
  a ++ (n, c) :: b = a' ++ (n, c') :: b' -> a = a' /\ c = c' /\ b = b'.
Proof.
  intros A n. induction a as [|[m x] a IH]; intros b a' b' c c' Hnd H; destruct a' as [|[m' x'] a']; cbn in *; inversion H; subst.
  - auto.
  - inversion Hnd; subst. destruct H2. rewrite map_app. apply in_or_app. right; left; auto.
  - inversion Hnd; subst. destruct H2. rewrite map_app. apply in_or_app. right; left; auto.
  - inversion Hnd; subst. apply IH in H3 as (-> & -> & ->); auto.
Qed.

Lemma places_exact : forall s D c, wf_tree c -> forall r, In r (places s D c) <-> inside c r /\ ~ after_link s c r /\ ~ behind D c r.
Proof.
  intros s D c. induction c as [i|i l IH] using tree_ind'; intros Hw r.
  - split; [intros []|]. intros [[Hne Hr] _]. destruct r; [congruence|]. destruct Hr. reflexivity.
  - pose proof Hw as Hw'. apply wf_tree_dir in Hw' as (Hnd & _ & Hall). rewrite Forall_forall in IH, Hall. split.
    + intros Hin. split; [apply (places_inside s D (Dir i l)); auto|]. cbn [places] in Hin. destruct (D i) eqn:HD; [destruct Hin|]. split.
      * intros (r1 & n & r2 & i0 & l1 & a & j & l2 & d & l3 & -> & Hr2 & Hg & Hj). destruct r1 as [|m r1].
        -- cbn in Hg. inversion Hg; subst. apply scan_came in Hin as (_ & l1' & c & l2' & He & _ & Hno); auto.
           rewrite He in Hnd. assert (He' : l1' ++ (n, c) :: l2' = (l1 ++ (a, Leaf j) :: l2) ++ (n, d) :: l3) by (rewrite <- He, <- app_assoc; reflexivity).
           destruct (same_split _ _ _ _ _ _ _ _ Hnd He') as (-> & _). apply Hj. apply (Hno a j). apply in_or_app. right; left; auto.
        -- apply scan_came in Hin as (_ & l1' & c & l2' & He & Hin & _); [|destruct r1; discriminate].
           assert (Hmem : In (m, c) l) by (rewrite He; apply in_or_app; right; left; auto).
           apply (IH (m, c) Hmem (Hall (m, c) Hmem)) in Hin as (_ & Hin & _). apply Hin. cbn [get] in Hg. rewrite (In_assoc _ m c l) in Hg by auto.
           exists r1, n, r2, i0, l1, a, j, l2, d, l3. auto.
      * intros (r1 & r2 & i0 & l0 & -> & Hr2 & Hg & Hd). destruct r1 as [|m r1]; [cbn in Hg; inversion Hg; subst; congruence|].
        apply scan_came in Hin as (_ & l1' & c & l2' & He & Hin & _); [|destruct r1; [exact Hr2|discriminate]].
        assert (Hmem : In (m, c) l) by (rewrite He; apply in_or_app; right; left; auto).
        apply (IH (m, c) Hmem (Hall (m, c) Hmem)) in Hin as (_ & _ & Hin). apply Hin. cbn [get] in Hg. rewrite (In_assoc _ m c l) in Hg by auto.
        exists r1, r2, i0, l0. auto.
    + intros [[Hne Hr] [Hno HnD]]. destruct r as [|n r]; [congruence|]. unfold look in Hr. cbn [get] in Hr. destruct (assoc n l) as [c|] eqn:Hc; [|destruct (Hr eq_refl)].
      pose proof (assoc_In _ _ _ _ Hc) as Hin. cbn [places].
      destruct (D i) eqn:HD; [destruct HnD; exists [], (n :: r), i, l; auto|].
      destruct r as [|m r]; [eapply scan_all; eauto|].
      pose proof Hin as Hin'. apply in_split in Hin' as (l1 & l2 & He).
      assert (Hcase : In (m :: r) (places s D c)).
      { apply (IH (n, c) Hin (Hall (n, c) Hin)). split; [split; [discriminate|exact Hr]|]. split.
        - intros (r1 & n' & r2 & i0 & b1 & a & j & b2 & d & b3 & E & Hr2 & Hg & Hj). apply Hno.
          exists (n :: r1), n', r2, i0, b1, a, j, b2, d, b3. rewrite E. split; auto. split; auto. split; auto. cbn [get]. rewrite Hc. exact Hg.
        - intros (r1 & r2 & i0 & l0 & E & Hr2 & Hg & Hd). apply HnD. exists (n :: r1), r2, i0, l0. rewrite E. split; auto. split; auto. split; auto.
          cbn [get]. rewrite Hc. exact Hg. }
      rewrite He. apply scan_descends; auto.
      * destruct c; [destruct Hcase|reflexivity].
      * intros a j Ha. destruct (link_text s j) eqn:Hj; auto. exfalso. apply Hno. apply in_split in Ha as (b1 & b2 & ->).
        exists [], n, (m :: r), i, b1, a, j, b2, c, l2. split; auto. split; [discriminate|]. split; [|congruence].
        cbn. rewrite He, <- app_assoc. reflexivity.
Qed.

Lemma none_behind : forall c r, ~ behind (fun _ => false) c r.
Proof. intros c r (r1 & r2 & i & l & _ & _ & _ & H). discriminate. Qed.

Lemma last_not_after : forall s c r, wf_tree c -> links_last s c -> inside c r -> ~ after_link s c r.
Proof.
  intros s c r Hw Hl [_ Hr] (r1 & n & r2 & i0 & l1 & a & j & l2 & d & l3 & -> & Hr2 & Hg & Hj). destruct d as [i|i l].
  - apply Hr. apply look_None. pose proof (wf_get _ _ _ Hw Hg) as Hd. apply wf_tree_dir in Hd as (Hnd & _).
    assert (Ha : assoc n (l1 ++ (a, Leaf j) :: l2 ++ (n, Leaf i) :: l3) = Some (Leaf i)).
    { apply In_assoc; auto. apply in_or_app. right. right. apply in_or_app. right; left; auto. }
    clear Hr Hj Hl Hw Hnd. destruct r2 as [|m r2]; [congruence|]. revert c Hg.
    induction r1 as [|x r1 IH]; intros c Hg; cbn [app get] in *.
    + inversion Hg; subst. rewrite Ha. reflexivity.
    + destruct c as [|? lc]; [discriminate|]. destruct (assoc x lc); [|discriminate]. auto.
  - apply Hj. apply (Hl r1 i0 l1 a j l2 n i l l3). exact Hg.
Qed.

(** * The iterator *)

(** The state with other streams. *)
Definition at_dirs (s : fs) (h : N) (ds : list (N * list (str * dtype))) : fs :=
  Fs (f_root s) (f_body s) (f_meta s) (f_next s) (f_cwd s) (f_fds s) ds h (f_env s) (f_clock s).

Lemma dtype_type : forall k s c, k_dtype k = true -> told (dtype_of k s c) = type_of s (node_of c).
Proof. intros k s [i|i l] H; unfold dtype_of; rewrite H; cbn; auto. destruct (f_body s i) as [| |[]]; reflexivity. Qed.

(** One level of the stack: the handle, the directory, its place below the start, the entries not read yet and the current entry. *)
Record level := Level { lv_h : N; lv_root : path; lv_rel : loc; lv_es : list (str * tree); lv_ent : dir_entry }.
Definition lv_stream (L : level) : dstream := Stream (Some (lv_h L)) (lv_root L) (lv_ent L).
Definition lv_seen (L : level) : bool := cd_symlink (de_data (lv_ent L)).

Lemma guarded_advance : forall cf k D n st s, run (guarded k D) (advance cf n st) s = run (fsk k) (advance cf n st) s.
Proof.
  intros cf k D. induction n as [|n IH]; intros st s; [reflexivity|]. cbn [advance]. destruct (ds_handle st) as [d|]; [|reflexivity].
  rewrite !run_bind, !run_readdir. cbn [guarded]. destruct (fsk k (c_readdir d) s) as [[e|[[name t]|]] s1]; cbn iota.
  - destruct (str_eqb [] (lit ".") || str_eqb [] (lit "..")); [apply IH|]. reflexivity.
  - destruct t; try reflexivity;
    (destruct (str_eqb name (lit ".") || str_eqb name (lit "..")); [apply IH|]; destruct (failed None || is_nil name); [reflexivity|];
     rewrite !run_bind; destruct (path_div Posix (cf_el cf) (ds_root st) (split_components Posix name)); reflexivity).
  - destruct (str_eqb [] (lit ".") || str_eqb [] (lit "..")); [apply IH|]. reflexivity.
Qed.

Lemma guarded_none : forall A k (p : prog A) s, run (guarded k (fun _ => false)) p s = run (fsk k) p s.
Proof.
  intros A k. induction p as [a|f|c g IH]; intros s; [reflexivity|reflexivity|]. rewrite !run_sys.
  assert (He : guarded k (fun _ => false) c s = fsk k c s).
  { destruct c; try reflexivity. cbn [guarded]. destruct (find_at k s true p); auto. destruct (get (f_root s) p0) as [[|]|]; auto. }
  rewrite He. apply IH.
Qed.

Section Walk.
Variable cf : config.
Variable k : choices.
Variable s : fs.
Variable opts : N.
Variable ds0 : list (N * list (str * dtype)).
Variable dir : str.
Variable q : loc.
Hypothesis Hw : wf s.
Hypothesis Hk : k_dtype k = true.
Hypothesis Ho : has_dopt do_follow_directory_symlink opts = false.
Variable D : N -> bool.
Hypothesis HD : (forall i, D i = false) \/ has_dopt do_skip_permission_denied opts = true.

Definition lv_dir (L : level) : N * list (str * dtype) := (lv_h L, listing k s (lv_es L)).
Definition lv_ok (L : level) : Prop :=
  canon (lv_root L) /\ native (lv_root L) = fold_left append_text (lv_rel L) dir /\
  exists lk i es0, find_at k s true (native (lv_root L)) = Found lk (q ++ lv_rel L) /\
    get (f_root s) (q ++ lv_rel L) = Some (Dir i (es0 ++ lv_es L)).

(** The current entry of a level is the child [c] of that name. *)
Definition lv_at (L : level) (n : str) (c : tree) : Prop :=
  canon (de_path (lv_ent L)) /\ native (de_path (lv_ent L)) = append_text (native (lv_root L)) n /\
  cd_cache (de_data (lv_ent L)) = CBASIC /\ cd_type (de_data (lv_ent L)) = type_of s (node_of c) /\
  (lv_seen L = false -> is_link s c = false) /\ good_name n = true /\ get (f_root s) ((q ++ lv_rel L) ++ [n]) = Some c /\
  ~ In n (map fst (lv_es L)).

Inductive stacked : list level -> Prop :=
| st_nil : stacked []
| st_one : forall L, lv_ok L -> lv_rel L = [] -> stacked [L]
| st_cons : forall L L2 r x c, lv_ok L -> stacked (L2 :: r) -> lv_at L2 x c -> lv_rel L = lv_rel L2 ++ [x] -> stacked (L :: L2 :: r).

Lemma stacked_ok : forall L st, stacked (L :: st) -> lv_ok L.
Proof. intros L st H. inversion H; auto. Qed.
Lemma stacked_tail : forall L st, stacked (L :: st) -> stacked st.
Proof. intros L st H. inversion H; auto. constructor. Qed.
Lemma stacked_length : forall L st, stacked (L :: st) -> length (lv_rel L) = length st.
Proof.
  intros L st. revert L. induction st as [|L2 st IH]; intros L H.
  - inversion H as [|? ? E|]; subst. rewrite E. reflexivity.
  - inversion H as [| |? ? ? ? ? H1 H2 H3 E]; subst. rewrite E, app_length, (IH L2) by auto. cbn. lia.
Qed.
Lemma stacked_change : forall L L' st, stacked (L :: st) -> lv_rel L' = lv_rel L -> lv_ok L' -> stacked (L' :: st).
Proof. intros L L' st H He Hok. inversion H; subst; [constructor; congruence|]. econstructor; eauto. congruence. Qed.

(** What is to come, as places below the start. *)
Definition todo_level (L : level) : list loc := map (app (lv_rel L)) (scan s (places s D) (lv_seen L) (lv_es L)).
Fixpoint todo (st : list level) : list loc :=
  match st with [] => [] | L :: r => todo_level L ++ todo r end.
Definition below_entry (L : level) (n : str) (c : tree) : list loc :=
  map (app (lv_rel L)) (if lv_seen L then [] else map (cons n) (places s D c)).
Definition this_entry (L : level) (n : str) : loc := lv_rel L ++ [n].

(** Moving to the next entry of a level. *)
Lemma level_next : forall n h ds L name c es, lv_es L = (name, c) :: es -> lv_ok L ->
  exists L', lv_h L' = lv_h L /\ lv_root L' = lv_root L /\ lv_rel L' = lv_rel L /\ lv_es L' = es /\ lv_ok L' /\ lv_at L' name c /\
    lv_seen L' = is_link s c || lv_seen L /\
    run (guarded k D) (advance cf (S n) (lv_stream L)) (at_dirs s h (lv_dir L :: ds)) =
    Done (true, None, lv_stream L') (at_dirs s h (lv_dir L' :: ds)).
Proof.
  intros n h ds L name c es He Hok. destruct L as [hh root rel es' ent]. cbn [lv_es] in He. subst es'. unfold lv_ok in Hok. cbn [lv_h lv_root lv_rel lv_es lv_ent] in *.
  destruct Hok as (Hc & Hdir & lk & i & es0 & Hf & Hg).
  pose proof (wf_get _ _ _ (wf_root s Hw) Hg) as Hwt. apply wf_tree_dir in Hwt as (Hnd & Hgn & _).
  assert (Hin : In (name, c) (es0 ++ (name, c) :: es)) by (apply in_or_app; right; left; auto).
  assert (Hname : good_name name = true) by (rewrite Forall_forall in Hgn; apply (Hgn (name, c)); auto).
  destruct (fs_advance cf k n (at_dirs s h ((hh, (name, dtype_of k s c) :: listing k s es) :: ds)) hh name (dtype_of k s c)
    (listing k s es) ds root ent eq_refl Hname (dtype_of_ok k s c) Hc) as (p & Hr & Hcp & Hnp).
  exists (Level hh root rel es (Entry p (iter_data (de_data ent) (told (dtype_of k s c))))).
  cbn [lv_h lv_root lv_rel lv_es lv_ent]. do 4 (split; [reflexivity|]). split.
  { split; auto. split; auto. exists lk, i, (es0 ++ [(name, c)]). cbn [lv_h lv_root lv_rel lv_es lv_ent]. rewrite <- app_assoc. auto. }
  assert (Hseen : lv_seen (Level hh root rel es (Entry p (iter_data (de_data ent) (told (dtype_of k s c))))) = is_link s c || lv_seen (Level hh root rel ((name, c) :: es) ent)).
  { unfold lv_seen. cbn [lv_ent de_data iter_data cd_symlink]. rewrite dtype_type by auto.
    unfold is_link. destruct c as [j|j l]; cbn [node_of type_of]; [|reflexivity]. unfold link_text.
    destruct (f_body s j) as [| |[]]; reflexivity. }
  split; [|split; [exact Hseen|rewrite guarded_advance; exact Hr]].
  unfold lv_at. cbn [lv_h lv_root lv_rel lv_es lv_ent de_path de_data iter_data cd_cache cd_type].
  split; auto. split; auto. split; auto. split; [apply dtype_type; auto|]. split.
  - rewrite Hseen. intros H. apply orb_false_iff in H. tauto.
  - split; auto. split.
    + rewrite get_snoc, Hg. apply In_assoc; auto.
    + rewrite map_app in Hnd. cbn [map fst] in Hnd. apply NoDup_remove_2 in Hnd. intros Hi. apply Hnd. apply in_or_app. auto.
Qed.

Lemma level_end : forall n h ds L, lv_es L = [] ->
  run (guarded k D) (advance cf (S n) (lv_stream L)) (at_dirs s h (lv_dir L :: ds)) =
  Done (false, None, Stream None (lv_root L) (lv_ent L)) (at_dirs s h ds).
Proof.
  intros n h ds L He. rewrite guarded_advance. unfold lv_stream, lv_dir. rewrite He.
  exact (fs_advance_end cf k n (at_dirs s h ((lv_h L, []) :: ds)) (lv_h L) ds (lv_root L) (lv_ent L) eq_refl).
Qed.

Lemma stack_next : forall n h st, stacked st ->
  (todo st = [] /\ run (guarded k D) (advance_stack cf (S n) (map lv_stream st)) (at_dirs s h (map lv_dir st ++ ds0)) = Done (None, None, []) (at_dirs s h ds0)) \/
  (exists L r name c, stacked (L :: r) /\ lv_at L name c /\
    todo st = this_entry L name :: below_entry L name c ++ todo (L :: r) /\
    run (guarded k D) (advance_stack cf (S n) (map lv_stream st)) (at_dirs s h (map lv_dir st ++ ds0)) =
      Done (Some (map lv_stream (L :: r)), None, []) (at_dirs s h (map lv_dir (L :: r) ++ ds0))).
Proof.
  intros n h st. induction st as [|L st IH]; intros Hall; [left; split; reflexivity|].
  pose proof (stacked_ok _ _ Hall) as H1. pose proof (stacked_tail _ _ Hall) as H2. cbn [map advance_stack app].
  destruct (lv_es L) as [|[name c] es] eqn:He.
  - assert (Ht : todo (L :: st) = todo st) by (cbn [todo]; unfold todo_level; rewrite He; reflexivity). rewrite Ht.
    rewrite run_bind, (level_end n h _ L He). cbn [failed]. apply IH; auto.
  - right. destruct (level_next n h (map lv_dir st ++ ds0) L name c es He H1) as (L' & E1 & E2 & E3 & E4 & Hok & Hat & Hs & Hr).
    exists L', st, name, c. split; [eapply stacked_change; eauto|]. split; auto. split.
    + cbn [todo]. unfold todo_level, this_entry, below_entry. rewrite E3, E4, He, Hs. cbn [scan map app]. rewrite map_app, <- app_assoc. reflexivity.
    + rewrite run_bind, Hr. reflexivity.
Qed.

(** Going into a directory. *)
Lemma enter : forall n h st p rel lk i es, canon p -> native p = fold_left append_text rel dir ->
  find_at k s true (native p) = Found lk (q ++ rel) -> get (f_root s) (q ++ rel) = Some (Dir i es) ->
  (places s D (Dir i es) = [] /\ exists h', run (guarded k D) (stream_ctor cf (S (S (S n))) p opts) (at_dirs s h (map lv_dir st ++ ds0)) =
     Done (None, Stream None p entry_default) (at_dirs s h' (map lv_dir st ++ ds0))) \/
  (exists L name c, lv_ok L /\ lv_at L name c /\ lv_rel L = rel /\
     places s D (Dir i es) = [name] :: (if lv_seen L then [] else map (cons name) (places s D c)) ++ scan s (places s D) (lv_seen L) (lv_es L) /\
     run (guarded k D) (stream_ctor cf (S (S (S n))) p opts) (at_dirs s h (map lv_dir st ++ ds0)) =
     Done (None, lv_stream L) (at_dirs s (h + 1) (map lv_dir (L :: st) ++ ds0))).
Proof.
  intros n h st p rel lk i es Hp Hd Hf Hg. set (ds := map lv_dir st ++ ds0). cbn [places]. destruct (D i) eqn:Hi.
  { left. split; auto. exists h. unfold stream_ctor. rewrite run_sys. cbn [guarded].
    change (find_at k (at_dirs s h ds) true (native p)) with (find_at k s true (native p)). rewrite Hf.
    change (f_root (at_dirs s h ds)) with (f_root s). rewrite Hg, Hi. cbn [fst snd].
    destruct HD as [Hno|Hs]; [rewrite Hno in Hi; discriminate|]. rewrite Hs. reflexivity. }
  set (L0 := Level h p rel es entry_default).
  assert (Hopen : run (guarded k D) (stream_ctor cf (S (S (S n))) p opts) (at_dirs s h ds) =
    match run (guarded k D) (advance cf (S n) (lv_stream L0)) (at_dirs s (h + 1) (lv_dir L0 :: ds)) with
    | Done (_, ec, st) s3 => Done (ec, st) s3
    | Failed f s3 => Failed f s3
    end).
  { unfold stream_ctor. rewrite run_sys. cbn [guarded fsk]. unfold sys_opendir.
    change (find_at k (at_dirs s h ds) true (native p)) with (find_at k s true (native p)). rewrite Hf.
    change (f_root (at_dirs s h ds)) with (f_root s). rewrite Hg, Hi. cbn [fst snd]. rewrite run_bind, !guarded_advance.
    rewrite (fs_advance_dots cf k (S n) _ h (listing k s es) ds) by reflexivity.
    change (set_dirs (new_handle (set_dirs (at_dirs s h ds) ((f_handle (at_dirs s h ds), dot_entries k ++ listing k (at_dirs s h ds) es) :: f_dirs (at_dirs s h ds)))) ((h, listing k s es) :: ds))
      with (at_dirs s (h + 1) (lv_dir L0 :: ds)).
    change (lv_stream L0) with (Stream (Some h) p entry_default). change (f_handle (at_dirs s h ds)) with h.
    destruct (run (fsk k) (advance cf (S n) (Stream (Some h) p entry_default)) (at_dirs s (h + 1) (lv_dir L0 :: ds))) as [[[b ec] x] s3|]; reflexivity. }
  rewrite Hopen. destruct es as [|[name c] es].
  - left. split; auto. rewrite (level_end n (h + 1) ds L0 eq_refl). exists (h + 1)%N. reflexivity.
  - right. assert (Hok : lv_ok L0) by (split; auto; split; auto; exists lk, i, []; auto).
    destruct (level_next n (h + 1)%N ds L0 name c es eq_refl Hok) as (L & E1 & E2 & E3 & E4 & Hok' & Hat & Hs & Hr).
    exists L, name, c. split; auto. split; auto. split; [exact E3|]. split.
    + cbn [scan]. rewrite Hs, E4. unfold L0, lv_seen. cbn [lv_ent entry_default de_data cache_reset cd_symlink].
      rewrite orb_false_r. reflexivity.
    + rewrite Hr. reflexivity.
Qed.

Lemma link_type : forall (e : dir_entry) s0, cd_cache (de_data e) = CBASIC -> cd_type (de_data e) <> ft_none -> cd_type (de_data e) <> ft_not_found ->
  run (guarded k D) (GetSymLinkFileType cf true e) s0 = Done (if cd_symlink (de_data e) then ft_symlink else cd_type (de_data e), None, e) s0.
Proof.
  intros e s0 Hc H1 H2. unfold GetSymLinkFileType. rewrite Hc. cbn [cache_eqb]. rewrite run_bind. cbn [run].
  destruct (cd_symlink (de_data e)); [reflexivity|]. destruct (cd_type (de_data e)); try congruence; reflexivity.
Qed.

Lemma type_known : forall x, type_of s x <> ft_none /\ type_of s x <> ft_not_found.
Proof. intros [i|i]; cbn; [|split; discriminate]. destruct (f_body s i) as [| |[]]; split; discriminate. Qed.

(** The iterator stands on the entry [r], and the places [rest] come after it; or it is at the end. *)
Definition stands (it : rdir_iter) (s1 : fs) (r : loc) (rest : list loc) : Prop :=
  exists h L st name c, stacked (L :: st) /\ lv_at L name c /\ it = RIter (Some (map lv_stream (L :: st), opts)) true /\
    s1 = at_dirs s h (map lv_dir (L :: st) ++ ds0) /\ r = this_entry L name /\ rest = below_entry L name c ++ todo (L :: st).
Definition arrives (x : outcome (rdir_iter * ecode) fs) (rest : list loc) : Prop :=
  exists it s1, x = Done (it, None) s1 /\
    match rest with
    | [] => it = RIter None true /\ exists h, s1 = at_dirs s h ds0
    | r :: rest' => stands it s1 r rest'
    end.

Lemma advance_arrives : forall n has h st, stacked st ->
  arrives (run (guarded k D) (rdir_advance cf (S n) has (RIter (Some (map lv_stream st, opts)) true)) (at_dirs s h (map lv_dir st ++ ds0))) (todo st).
Proof.
  intros n has h st Hst. unfold rdir_advance. cbn [r_impl]. rewrite run_bind.
  destruct (stack_next n h st Hst) as [[Hd Hr]|(L' & r & name' & c' & Hok & Hat' & Hd & Hr)]; rewrite Hr, Hd.
  - eexists. eexists. split; [reflexivity|]. split; [reflexivity|]. eexists. reflexivity.
  - eexists. eexists. split; [reflexivity|]. exists h, L', r, name', c'. auto 10.
Qed.

(** One increment. *)
Lemma increment_arrives : forall n has it s1 r rest, stands it s1 r rest ->
  arrives (run (guarded k D) (rdir_increment cf (S (S (S n))) has it) s1) rest.
Proof.
  intros n has it s1 r rest (h & L & st & name & c & Hst & Hat & -> & -> & -> & ->). pose proof Hat as (A1 & A2 & A3 & A4 & A5 & A6 & A7 & A8).
  (* when nothing is entered *)
  assert (Hnext : forall h', below_entry L name c = [] ->
    run (guarded k D) (rdir_try cf (S (S (S n))) has (RIter (Some (map lv_stream (L :: st), opts)) true)) (at_dirs s h (map lv_dir (L :: st) ++ ds0)) =
      Done (false, None, RIter (Some (map lv_stream (L :: st), opts)) true) (at_dirs s h' (map lv_dir (L :: st) ++ ds0)) ->
    arrives (run (guarded k D) (rdir_increment cf (S (S (S n))) has (RIter (Some (map lv_stream (L :: st), opts)) true)) (at_dirs s h (map lv_dir (L :: st) ++ ds0)))
      (below_entry L name c ++ todo (L :: st))).
  { intros h' Hb Ht. rewrite Hb. cbn [app]. unfold rdir_increment. cbn [r_recursion]. rewrite run_bind, Ht. cbn [orb failed r_impl].
    apply (advance_arrives (S (S n))). auto. }
  assert (Htry : run (guarded k D) (rdir_try cf (S (S (S n))) has (RIter (Some (map lv_stream (L :: st), opts)) true)) (at_dirs s h (map lv_dir (L :: st) ++ ds0)) =
    run (guarded k D) (if (if lv_seen L then true else negb (file_type_eqb (type_of s (node_of c)) ft_directory))
      then Ret (false, None, RIter (Some (map lv_stream (L :: st), opts)) true)
      else
        let! o := (let! c := stream_ctor cf (S (S (S n))) (de_path (lv_ent L)) opts in
           Ret (fst c, if good (snd c) then Some (snd c) else None)) in
      match o with
      | (_, Some new_it) => Ret (true, None, RIter (Some (new_it :: map lv_stream (L :: st), opts)) true)
      | (m_ec2, None) =>
          match m_ec2 with
          | Some x =>
              if errno_eqb x EACCES && has_dopt do_skip_permission_denied opts
              then Ret (false, None, RIter (Some (map lv_stream (L :: st), opts)) true)
              else
                let! _ := impl_reset (map lv_stream (L :: st)) in
                let! y := report has [] false m_ec2 in
                Ret (false, snd y, RIter None true)
          | None => Ret (false, None, RIter (Some (map lv_stream (L :: st), opts)) true)
          end
      end) (at_dirs s h (map lv_dir (L :: st) ++ ds0))).
  { unfold rdir_try. cbn [r_impl map]. rewrite Ho. clear Hnext. destruct L as [hh root rel es ent]. unfold lv_stream at 1 2 3. cbn [lv_h lv_root lv_ent ds_entry] in *.
    rewrite run_bind, link_type; auto; [|rewrite A4; apply type_known..]. cbn iota.
    unfold lv_seen in *. cbn [lv_ent] in *. destruct (cd_symlink (de_data ent)); [reflexivity|]. rewrite A4.
    destruct (type_known (node_of c)) as [K1 K2].
    destruct (type_of s (node_of c)); try congruence; reflexivity. }
  destruct (lv_seen L) eqn:Hseen.
  - apply (Hnext h); [unfold below_entry; rewrite Hseen; reflexivity|]. rewrite Htry. reflexivity.
  - destruct c as [i|i es].
    + apply (Hnext h); [unfold below_entry; destruct (lv_seen L); reflexivity|]. rewrite Htry. cbn [node_of type_of].
      destruct (f_body s i) as [| |[]]; reflexivity.
    + cbn [node_of type_of] in Htry. change (file_type_eqb ft_directory ft_directory) with true in Htry. cbn [negb] in Htry. cbn iota in Htry.
      destruct (stacked_ok _ _ Hst) as (Hc & Hdir & lk & i0 & es0 & Hf & Hg).
      assert (Hf' : find_at k s true (native (de_path (lv_ent L))) = Found lk ((q ++ lv_rel L) ++ [name])).
      { rewrite A2. apply (child_found k s true (native (lv_root L)) name lk (q ++ lv_rel L) i0 (Dir i es)); auto; [|discriminate].
        apply look_dir. eauto. }
      assert (Hd' : native (de_path (lv_ent L)) = fold_left append_text (lv_rel L ++ [name]) dir).
      { rewrite fold_left_app. cbn [fold_left]. rewrite <- Hdir. exact A2. }
      pose proof A7 as A7'. rewrite <- app_assoc in Hf', A7'.
      destruct (enter n h (L :: st) (de_path (lv_ent L)) (lv_rel L ++ [name]) lk i es A1 Hd' Hf' A7') as [(Hnone & h' & He)|(L' & name' & c' & Hok & Hat' & E1 & E3 & He)].
      * apply (Hnext h'); [unfold below_entry; rewrite Hseen, Hnone; reflexivity|]. rewrite Htry, run_bind, run_bind, He. reflexivity.
      * assert (Htry' : run (guarded k D) (rdir_try cf (S (S (S n))) has (RIter (Some (map lv_stream (L :: st), opts)) true)) (at_dirs s h (map lv_dir (L :: st) ++ ds0)) =
          Done (true, None, RIter (Some (map lv_stream (L' :: L :: st), opts)) true) (at_dirs s (h + 1) (map lv_dir (L' :: L :: st) ++ ds0))).
        { rewrite Htry, run_bind, run_bind, He. reflexivity. }
        eexists. eexists. split; [unfold rdir_increment; cbn [r_recursion]; rewrite run_bind, Htry'; reflexivity|].
        unfold below_entry. rewrite Hseen, E3. cbn [map app].
        exists (h + 1)%N, L', (L :: st), name', c'.
        split; [econstructor; eauto|]. split; auto. split; auto. split; auto.
        assert (Hm : forall l, map (app (lv_rel L)) (map (cons name) l) = map (app (lv_rel L')) l).
        { intros l. rewrite map_map. apply map_ext. intros a. rewrite E1, <- app_assoc. reflexivity. }
        split; [unfold this_entry; rewrite E1, <- app_assoc; reflexivity|].
        rewrite map_app, map_app. cbn [todo]. unfold below_entry, todo_level. rewrite !Hm, <- !app_assoc. reflexivity.
Qed.

Lemma stands_this : forall it s1 r rest, stands it s1 r rest -> exists e st, r_impl it = Some st /\
  rdir_deref cf it = Ret e /\ (exists d, rdir_depth it = Ret d /\ rshown (e, d) = visit_of s dir q r).
Proof.
  intros it s1 r rest (h & L & st & name & c & Hst & Hat & -> & -> & -> & ->). pose proof Hat as (A1 & A2 & A3 & A4 & A5 & A6 & A7 & A8).
  exists (lv_ent L). eexists. split; [reflexivity|]. split; [reflexivity|]. eexists. split; [reflexivity|].
  destruct (stacked_ok _ _ Hst) as (Hc & Hdir & _). pose proof (stacked_length _ _ Hst) as Hlen.
  unfold rshown, shown, visit_of, this_entry. cbn [fst snd]. rewrite A2, A4, Hdir, fold_left_app. cbn [fold_left]. unfold look. rewrite app_assoc, A7. cbn [option_map].
  f_equal. rewrite app_length, Hlen. cbn [map length]. rewrite map_length. lia.
Qed.

Lemma visits_rest : forall n has m it s1 rest, length rest < m ->
  match rest with [] => it = RIter None true /\ (exists h, s1 = at_dirs s h ds0) | r :: rest' => stands it s1 r rest' end ->
  exists l h', run (guarded k D) (rvisit_all cf (S (S (S n))) has m it None) s1 = Done (l, None) (at_dirs s h' ds0) /\
    map rshown l = map (visit_of s dir q) rest.
Proof.
  intros n has. induction m as [|m IH]; intros it s1 rest Hm H; [lia|]. destruct rest as [|r rest].
  - destruct H as (-> & h & ->). exists [], h. split; reflexivity.
  - destruct (stands_this _ _ _ _ H) as (e & st & He & Hd & d & Hp & Hv).
    destruct (increment_arrives n has it s1 r rest H) as (it' & s2 & Hi & Ha).
    destruct (IH it' s2 rest) as (l & h' & J1 & J2); [cbn in Hm; lia|exact Ha|].
    exists ((e, d) :: l), h'. split; [|cbn [map]; rewrite Hv, J2; reflexivity].
    cbn [rvisit_all]. rewrite He, Hd, Hp. cbn [pbind]. rewrite run_bind, Hi. cbn [fst snd]. rewrite run_bind, J1. reflexivity.
Qed.

Lemma ctor_arrives : forall n has p lk i es, canon p -> native p = dir -> find_at k s true (native p) = Found lk q -> get (f_root s) q = Some (Dir i es) ->
  ds0 = f_dirs s -> arrives (run (guarded k D) (rdir_ctor cf (S (S (S n))) has p opts) s) (places s D (Dir i es)).
Proof.
  intros n has p lk i es Hp Hd Hf Hg Hds.
  assert (Hs : s = at_dirs s (f_handle s) (map lv_dir [] ++ ds0)) by (rewrite Hds; destruct s; reflexivity).
  assert (Hf' : find_at k s true (native p) = Found lk (q ++ [])) by (rewrite app_nil_r; auto).
  assert (Hg' : get (f_root s) (q ++ []) = Some (Dir i es)) by (rewrite app_nil_r; auto).
  unfold rdir_ctor. rewrite run_bind.
  destruct (enter n (f_handle s) [] p [] lk i es Hp Hd Hf' Hg') as [(Hnone & h' & He)|(L & name & c & Hok & Hat & E1 & E3 & He)];
  rewrite <- Hs in He; rewrite He; cbn -[run places].
  - rewrite Hnone. eexists. eexists. split; [reflexivity|]. split; auto. eexists. reflexivity.
  - eexists. eexists. split; [reflexivity|]. rewrite E3. exists (f_handle s + 1)%N, L, [], name, c.
    split; [constructor; auto|]. split; auto. split; auto. split; auto. unfold this_entry, below_entry, todo, todo_level. rewrite E1.
    assert (Hm : forall l : list loc, map (app (A := str) []) l = l) by (intros l; apply map_id).
    rewrite !Hm, app_nil_r. auto.
Qed.

(** Several increments. *)
Lemma forward_arrives : forall n has l1 it s1 r l2,
  match l1 ++ r :: l2 with [] => it = RIter None true /\ (exists h, s1 = at_dirs s h ds0) | r :: rest' => stands it s1 r rest' end ->
  exists it' s2, run (guarded k D) (forward cf (S (S (S n))) has (length l1) it) s1 = Done it' s2 /\ stands it' s2 r l2.
Proof.
  intros n has. induction l1 as [|x l1 IH]; intros it s1 r l2 H; cbn [app] in H.
  - exists it, s1. split; [reflexivity|exact H].
  - destruct (increment_arrives n has it s1 x _ H) as (it' & s2 & Hi & Ha). cbn [length forward]. rewrite run_bind, Hi. cbn [fst].
    apply IH. exact Ha.
Qed.

Lemma todo_outside : forall L st, stacked (L :: st) -> Forall (fun x => below (lv_rel L) x = false) (todo st).
Proof.
  intros L st. revert L. induction st as [|L2 st IH]; intros L H; [constructor|].
  inversion H as [| |? ? ? x c H1 H2 H3 E]; subst. cbn [todo]. apply Forall_app. split.
  - unfold todo_level. apply Forall_forall. intros y Hy. apply in_map_iff in Hy as (z & <- & Hz). apply scan_head in Hz as (m & z' & -> & Hm).
    destruct H3 as (_ & _ & _ & _ & _ & _ & _ & Hx). destruct (below (lv_rel L) (lv_rel L2 ++ m :: z')) eqn:Hb; auto.
    exfalso. apply below_spec in Hb as (w & Hb). rewrite E, <- app_assoc in Hb. apply app_inv_head in Hb. cbn in Hb. inversion Hb; subst. auto.
  - specialize (IH L2 H2). eapply Forall_impl; [|exact IH]. cbn beta. intros y Hy. destruct (below (lv_rel L) y) eqn:Hb; auto.
    apply below_spec in Hb as (w & ->). rewrite E, <- app_assoc, below_app in Hy. discriminate.
Qed.

Lemma filter_none : forall (f : loc -> bool) l, Forall (fun x => f x = false) l -> filter f l = [].
Proof. induction 1 as [|x l Hx _ IH]; [reflexivity|]. cbn. rewrite Hx. exact IH. Qed.
Lemma filter_all : forall (f : loc -> bool) l, Forall (fun x => f x = true) l -> filter f l = l.
Proof. induction 1 as [|x l Hx _ IH]; [reflexivity|]. cbn. rewrite Hx, IH. reflexivity. Qed.

Lemma filter_short : forall (f : loc -> bool) l, length (filter f l) <= length l.
Proof. intros f. induction l as [|x l IH]; cbn; [lia|]. destruct (f x); cbn; lia. Qed.

Lemma rel_below : forall r l, Forall (fun x => negb (below r x) = false) (map (app r) l).
Proof. intros r l. apply Forall_forall. intros x Hx. apply in_map_iff in Hx as (y & <- & _). rewrite below_app. reflexivity. Qed.
Lemma outside_kept : forall r l, Forall (fun x => below r x = false) l -> filter (fun x => negb (below r x)) l = l.
Proof. intros r l H. apply filter_all. eapply Forall_impl; [|exact H]. cbn beta. intros x ->. reflexivity. Qed.

Lemma pop_arrives : forall n has it s1 r rest, stands it s1 r rest ->
  arrives (run (guarded k D) (rdir_pop cf (S n) has it) s1) (filter (fun x => negb (below (removelast r) x)) rest).
Proof.
  intros n has it s1 r rest (h & L & st & name & c & Hst & Hat & -> & -> & -> & ->).
  assert (Hr : removelast (this_entry L name) = lv_rel L) by (unfold this_entry; apply removelast_last). rewrite Hr.
  assert (Hrest : filter (fun x => negb (below (lv_rel L) x)) (below_entry L name c ++ todo (L :: st)) = todo st).
  { cbn [todo]. rewrite !filter_app. unfold below_entry, todo_level. rewrite !(filter_none _ _ (rel_below _ _)). cbn [app].
    apply outside_kept. apply todo_outside. auto. }
  rewrite Hrest. unfold rdir_pop. cbn [r_impl map]. rewrite run_bind. cbn [stream_destroy lv_stream ds_handle]. rewrite run_sys.
  cbn [guarded]. rewrite (head_close k _ (lv_h L) (listing k s (lv_es L)) (map lv_dir st ++ ds0)) by reflexivity. cbn [fst snd run].
  change (set_dirs (at_dirs s h ((lv_dir L :: map lv_dir st) ++ ds0)) (map lv_dir st ++ ds0)) with (at_dirs s h (map lv_dir st ++ ds0)).
  destruct st as [|L2 st]; cbn [is_nil map].
  - eexists. eexists. split; [reflexivity|]. split; auto. eexists. reflexivity.
  - change (lv_stream L2 :: map lv_stream st) with (map lv_stream (L2 :: st)). change (lv_dir L2 :: map lv_dir st) with (map lv_dir (L2 :: st)).
    apply advance_arrives. eapply stacked_tail; eauto.
Qed.

Lemma disabled_arrives : forall n has it s1 r rest, stands it s1 r rest ->
  arrives (run (guarded k D) (rdir_increment cf (S n) has (rdir_disable it)) s1) (filter (fun x => negb (below r x)) rest).
Proof.
  intros n has it s1 r rest (h & L & st & name & c & Hst & Hat & -> & -> & -> & ->).
  assert (Hrest : filter (fun x => negb (below (this_entry L name) x)) (below_entry L name c ++ todo (L :: st)) = todo (L :: st)).
  { rewrite filter_app. rewrite filter_none.
    - cbn [app todo]. apply outside_kept. apply Forall_app. split.
      + unfold todo_level. apply Forall_forall. intros y Hy. apply in_map_iff in Hy as (z & <- & Hz). apply scan_head in Hz as (m & z' & -> & Hm).
        destruct Hat as (_ & _ & _ & _ & _ & _ & _ & Hx). destruct (below (this_entry L name) (lv_rel L ++ m :: z')) eqn:Hb; auto.
        exfalso. apply below_spec in Hb as (w & Hb). unfold this_entry in Hb. rewrite <- app_assoc in Hb. apply app_inv_head in Hb. cbn in Hb. inversion Hb; subst. auto.
      + pose proof (todo_outside L st Hst) as Ht. eapply Forall_impl; [|exact Ht]. cbn beta. intros y Hy. destruct (below (this_entry L name) y) eqn:Hb; auto.
        apply below_spec in Hb as (w & ->). unfold this_entry in Hy. rewrite <- app_assoc, below_app in Hy. discriminate.
    - unfold below_entry, this_entry. apply Forall_forall. intros x Hx. apply in_map_iff in Hx as (y & <- & Hy). destruct (lv_seen L); [destruct Hy|].
      apply in_map_iff in Hy as (z & <- & _). change (name :: z) with ([name] ++ z). rewrite app_assoc, below_app. reflexivity. }
  rewrite Hrest. unfold rdir_increment, rdir_disable. cbn [r_recursion r_impl]. rewrite run_bind. cbn [run orb failed r_impl].
  apply advance_arrives. auto.
Qed.

End Walk.

Lemma walk_places : forall cf k s D p has n q lk i es opts, wf s -> k_dtype k = true -> has_dopt do_follow_directory_symlink opts = false ->
  (forall i, D i = false) \/ has_dopt do_skip_permission_denied opts = true ->
  canon p -> find_at k s true (native p) = Found lk q -> get (f_root s) q = Some (Dir i es) ->
  length (places s D (Dir i es)) + 3 <= n ->
  exists l h', run (guarded k D) (visit_tree cf n has p opts) s = Done (l, None) (at_dirs s h' (f_dirs s)) /\
    map rshown l = map (visit_of s (native p) q) (places s D (Dir i es)).
Proof.
  intros cf k s D p has n q lk i es opts Hw Hk Ho HD Hp Hf Hg Hn.
  destruct n as [|[|[|n]]]; try lia.
  destruct (ctor_arrives cf k s opts (f_dirs s) (native p) q Hw Hk D HD n has p lk i es Hp eq_refl Hf Hg eq_refl) as (it & s1 & Hc & Ha).
  destruct (visits_rest cf k s opts (f_dirs s) (native p) q Hw Hk Ho D HD n has (S (S (S n))) it s1 (places s D (Dir i es)) ltac:(lia) Ha) as (l & h' & J1 & J2).
  exists l, h'. split; [|exact J2]. unfold visit_tree. rewrite run_bind, Hc. exact J1.
Qed.

(** * C48 *)

(** Iterating a directory recursively ends without an error and without a change, for every finite tree, if the system tells the types
    of entries. What is visited lies below the directory in the tree of names, so no symlink is followed; each object is visited once,
    parents before children, with its path, its type and as depth the number of directories between. What is left out is what lies below
    a directory that comes after a symlink among the entries of its parent. *)
Theorem C48_visits_partial : forall cf k s p q i es has opts, wf s -> k_dtype k = true -> canon p ->
  has_dopt do_follow_directory_symlink opts = false ->
  leads_to k s (native p) q (NDir i) -> get (f_root s) q = Some (Dir i es) ->
  exists rs N,
    (forall r, In r rs <-> inside (Dir i es) r /\ ~ after_link s (Dir i es) r) /\ NoDup rs /\ parents_first rs /\
    forall n, N <= n -> exists l s', run (fsk k) (visit_tree cf n has p opts) s = Done (l, None) s' /\ same_state s s' /\
      map rshown l = map (visit_of s (native p) q) rs.
Proof.
  intros cf k s p q i es has opts Hw Hk Hp Ho (lk & Hf & _) Hg.
  pose proof (wf_get _ _ _ (wf_root s Hw) Hg) as Hwt.
  exists (places s (fun _ => false) (Dir i es)), (length (places s (fun _ => false) (Dir i es)) + 3).
  split; [intros; rewrite places_exact by auto; pose proof (none_behind (Dir i es) r); tauto|]. split; [apply places_nodup; auto|]. split; [apply places_parents|].
  intros n Hn. destruct (walk_places cf k s (fun _ => false) p has n q lk i es opts Hw Hk Ho (or_introl (fun _ => eq_refl)) Hp Hf Hg Hn) as (l & h' & J1 & J2). rewrite guarded_none in J1.
  exists l. eexists. split; [exact J1|]. split; [repeat split|exact J2].
Qed.

(** If no symlink comes before a directory, everything is visited. *)
Theorem C48_whole_tree_partial : forall cf k s p q i es has opts, wf s -> k_dtype k = true -> canon p ->
  has_dopt do_follow_directory_symlink opts = false ->
  leads_to k s (native p) q (NDir i) -> get (f_root s) q = Some (Dir i es) -> links_last s (Dir i es) ->
  exists rs N,
    (forall r, In r rs <-> r <> [] /\ look (f_root s) (q ++ r) <> None) /\ NoDup rs /\ parents_first rs /\
    forall n, N <= n -> exists l s', run (fsk k) (visit_tree cf n has p opts) s = Done (l, None) s' /\ same_state s s' /\
      map rshown l = map (visit_of s (native p) q) rs.
Proof.
  intros cf k s p q i es has opts Hw Hk Hp Ho Hl Hg Hll.
  destruct (C48_visits_partial cf k s p q i es has opts Hw Hk Hp Ho Hl Hg) as (rs & N & H1 & H).
  pose proof (wf_get _ _ _ (wf_root s Hw) Hg) as Hwt.
  exists rs, N. split; [|exact H]. intros r. rewrite H1.
  assert (He : look (f_root s) (q ++ r) = look (Dir i es) r).
  { unfold look. f_equal. clear - Hg. revert Hg. generalize (f_root s). induction q as [|x q IH]; intros t Hg; cbn [app get] in *; [congruence|].
    destruct t as [|? lt]; [discriminate|]. destruct (assoc x lt); [|discriminate]. auto. }
  rewrite He. split; [intros [[]]; auto|]. intros [A B]. assert (Hi : inside (Dir i es) r) by (split; auto). split; auto.
  apply last_not_after; auto.
Qed.

(** /a with the directory d holding the file g and the directory e with the file h, then the symlink l to /a. *)
Definition demo_walk : fs :=
  Fs (Dir 1 [(lit "a", Dir 2 [(lit "d", Dir 3 [(lit "g", Leaf 4); (lit "e", Dir 5 [(lit "h", Leaf 6)])]); (lit "l", Leaf 7)])])
    (fun i => if N.eqb i 7 then BLink (lit "/a") else BReg (lit "x")) demo_meta 10 [] [] [] 0 (fun _ => None) 0.

Lemma demo_walk_wf : wf demo_walk.
Proof.
  constructor.
  - repeat (split; try (repeat constructor; cbn; intuition discriminate)).
  - exists 1%N. eexists. reflexivity.
  - cbn. intros x H. repeat (destruct H as [<-|H]; [reflexivity|]). destruct H.
Qed.

Example C48_example : wf demo_walk /\ leads_to demo_choices demo_walk (lit "/a") [lit "a"] (NDir 2) /\
  (exists es, get (f_root demo_walk) [lit "a"] = Some (Dir 2 es) /\ links_last demo_walk (Dir 2 es)) /\
  match run (fsk demo_choices) (visit_tree plain_config 10 true (topath (lit "/a")) 0) demo_walk with
  | Done (l, None) _ =>
      map rshown l = [(lit "/a/d", ft_directory, 0); (lit "/a/d/g", ft_regular, 1); (lit "/a/d/e", ft_directory, 1); (lit "/a/d/e/h", ft_regular, 2);
                      (lit "/a/l", ft_symlink, 0)]%Z
  | _ => False
  end.
Proof.
  split; [exact demo_walk_wf|]. split; [exists 40; split; vm_compute; reflexivity|]. split.
  - eexists. split; [reflexivity|]. intros r i l1 a j l2 b k l l3 H.
    destruct r as [|x r]; [cbn in H; inversion H as [[Hi H']]|].
    + destruct l1 as [|y [|z [|w l1]]]; cbn in H'; inversion H'; subst. destruct l2; discriminate.
    + cbn [get] in H. destruct (assoc x _) as [c|] eqn:Ha; [|discriminate]. apply assoc_In in Ha as [Ha|[Ha|[]]]; inversion Ha; subst c.
      * destruct r as [|x2 r]; [cbn in H; inversion H as [[Hi H']]|].
        -- destruct l1 as [|y [|z [|w l1]]]; cbn in H'; inversion H'; subst. reflexivity.
        -- cbn [get] in H. destruct (assoc x2 _) as [c|] eqn:Hb; [|discriminate]. apply assoc_In in Hb as [Hb|[Hb|[]]]; inversion Hb; subst c.
           ++ destruct r; discriminate.
           ++ destruct r as [|x3 r]; [cbn in H; inversion H as [[Hi H']]|].
              ** destruct l1 as [|y [|z l1]]; cbn in H'; inversion H'; subst. destruct l2; discriminate.
              ** cbn [get] in H. destruct (assoc x3 _) as [c|] eqn:Hc; [|discriminate]. apply assoc_In in Hc as [Hc|[]]; inversion Hc; subst c. destruct r; discriminate.
      * destruct r; discriminate.
  - vm_compute. reflexivity.
Qed.

(** In /a of [demo] the symlink l comes before the directory d: g in d is not visited, and no error tells so. *)
Theorem C48_after_symlink_refuted :
  match run (fsk demo_choices) (visit_tree plain_config 10 true (topath (lit "/a")) 0) demo with
  | Done (l, None) _ => map rshown l = [(lit "/a/f", ft_regular, 0); (lit "/a/l", ft_symlink, 0); (lit "/a/d", ft_directory, 0)]%Z
  | _ => False
  end /\ leads_to demo_choices demo (lit "/a/d/g") [lit "a"; lit "d"; lit "g"] (NLeaf 6).
Proof. split; [vm_compute; reflexivity|]. exists 40. split; vm_compute; reflexivity. Qed.

(** With follow_directory_symlink no directory at all is entered, whatever the system answers: no increment makes the stack higher. *)
Lemma file_type_none : forall S (h : kernel S) cf e s x ec e1 s1, run h (GetFileType cf true e) s = Done (x, ec, e1) s1 -> x = ft_none.
Proof.
  intros S h cf e s x ec e1 s1 H. unfold GetFileType in H. rewrite run_bind in H.
  destruct (run h _ s) as [[ec0 e0] s0|] in H; [|discriminate]. cbn in H. congruence.
Qed.

Lemma advance_stack_short : forall S (h : kernel S) cf n st s st' ec rest s', run h (advance_stack cf n st) s = Done (Some st', ec, rest) s' -> length st' <= length st.
Proof.
  intros S h cf n. induction st as [|d st IH]; intros s st' ec rest s' H; cbn [advance_stack] in H; [cbn in H; discriminate|].
  rewrite run_bind in H. destruct (run h (advance cf n d) s) as [[[ok m_ec] d1] s1|]; [|discriminate].
  destruct ok; [cbn in H; inversion H; subst; cbn; lia|]. destruct (failed m_ec); [cbn in H; discriminate|]. apply IH in H. cbn. lia.
Qed.

Theorem C48_follow_enters_nothing_refuted : forall S (h : kernel S) cf n has st opts rec s it ec s',
  has_dopt do_follow_directory_symlink opts = true ->
  run h (rdir_increment cf n has (RIter (Some (st, opts)) rec)) s = Done (it, ec) s' ->
  match r_impl it with Some (st', _) => length st' <= length st | None => True end.
Proof.
  intros S h cf n has st opts rec s it ec s' Ho H. unfold rdir_increment in H. rewrite run_bind in H. cbn [r_recursion] in H.
  assert (Hadv : forall st1 has s1, length st1 <= length st -> run h (rdir_advance cf n has (RIter (Some (st1, opts)) true)) s1 = Done (it, ec) s' ->
    match r_impl it with Some (st', _) => length st' <= length st | None => True end).
  { intros st1 has1 s1 Hle Ha. unfold rdir_advance in Ha. cbn [r_impl r_recursion] in Ha. rewrite run_bind in Ha.
    destruct (run h (advance_stack cf n st1) s1) as [[[found m_ec] rest] s2|] eqn:Hr; [|discriminate]. destruct found as [st2|].
    - cbn in Ha. inversion Ha; subst. cbn [r_impl]. apply advance_stack_short in Hr. lia.
    - rewrite run_bind in Ha. destruct (run h (impl_reset rest) s2) as [u s3|]; [|discriminate]. destruct (failed m_ec).
      + rewrite run_bind in Ha. destruct (run h (report has1 [] tt m_ec) s3); [|discriminate]. cbn in Ha. inversion Ha; subst. exact Logic.I.
      + cbn in Ha. inversion Ha; subst. exact Logic.I. }
  destruct rec; [|apply (Hadv st has s); [lia|exact H]].
  unfold rdir_try in H. cbn [r_impl r_recursion] in H. destruct st as [|d st]; [cbn in H; discriminate|]. rewrite Ho in H. rewrite run_bind in H.
  destruct (run h (GetFileType cf true (ds_entry d)) s) as [[[x ec0] e1] s1|] eqn:Hg; [|discriminate].
  apply file_type_none in Hg. subst x. cbn [status_known status_of_type st_type] in H.
  change (status_known (status_of_type ft_none)) with false in H. change (st_is_directory (status_of_type ft_none)) with false in H.
  rewrite andb_false_r in H. cbn [negb] in H. rewrite orb_true_r in H. cbn [pbind] in H. destruct ec0 as [x|].
  - destruct (errno_eqb x EACCES && has_dopt do_skip_permission_denied opts).
    + cbn [run orb failed r_impl] in H. apply (Hadv (Stream (ds_handle d) (ds_root d) e1 :: st) has s1) in H; auto.
    + rewrite run_bind in H. destruct (run h (impl_reset _) s1) as [u s2|]; [|discriminate]. destruct has; [|discriminate].
      cbn in H. inversion H; subst. exact Logic.I.
  - cbn [run orb failed r_impl] in H. apply (Hadv (Stream (ds_handle d) (ds_root d) e1 :: st) has s1) in H; auto.
Qed.

Theorem C48_follow_refuted :
  match run (fsk demo_choices) (visit_tree plain_config 10 true (topath (lit "/a")) (dopt_value do_follow_directory_symlink)) demo_walk with
  | Done (l, None) _ => map (fun x => fst (fst (rshown x))) l = [lit "/a/d"; lit "/a/l"]
  | _ => False
  end.
Proof. vm_compute. reflexivity. Qed.

(** If the system does not tell the types of entries, the first increment fails with ENOENT and the iterator is at the end. *)
Definition untyped_choices : choices :=
  Choices (fun _ => 3) (fun _ => 100) (fun n => S n) 40 false (StatVfs 0 0 0 0) 4096 (TimeSpec 2000 0).
Theorem C48_untyped_refuted :
  match run (fsk untyped_choices) (visit_tree plain_config 10 true (topath (lit "/a")) 0) demo_walk with
  | Done (l, Some ENOENT) _ => map (fun x => fst (fst (rshown x))) l = [lit "/a/d"]
  | _ => False
  end.
Proof. vm_compute. reflexivity. Qed.

(** * C49 pop and disable_recursion_pending *)

(** The visits of a tree come in an order [rs] (C48). A client that calls pop() at the entry [r] sees next the first of the remaining
    entries that is not in the directory of [r], and after it the others that are not in that directory; at depth 0 that is nothing. *)
Theorem C49_pop_partial : forall cf k s p q i es has opts, wf s -> k_dtype k = true -> canon p ->
  has_dopt do_follow_directory_symlink opts = false ->
  leads_to k s (native p) q (NDir i) -> get (f_root s) q = Some (Dir i es) ->
  exists rs N, forall n, N <= n ->
    (exists l s', run (fsk k) (visit_tree cf n has p opts) s = Done (l, None) s' /\ map rshown l = map (visit_of s (native p) q) rs) /\
    forall l1 r l2, rs = l1 ++ r :: l2 ->
      exists e d l s', run (fsk k) (pop_after cf n has p opts (length l1)) s = Done (e, d, l, None) s' /\ same_state s s' /\
        rshown (e, d) = visit_of s (native p) q r /\
        map rshown l = map (visit_of s (native p) q) (filter (fun x => negb (below (removelast r) x)) l2).
Proof.
  intros cf k s p q i es has opts Hw Hk Hp Ho (lk & Hf & _) Hg.
  exists (places s (fun _ => false) (Dir i es)), (length (places s (fun _ => false) (Dir i es)) + 3). intros n Hn. split.
  { destruct (walk_places cf k s (fun _ => false) p has n q lk i es opts Hw Hk Ho (or_introl (fun _ => eq_refl)) Hp Hf Hg Hn) as (l & h' & J1 & J2). rewrite guarded_none in J1. eauto. }
  intros l1 r l2 Hrs. destruct n as [|[|[|n]]]; try lia.
  destruct (ctor_arrives cf k s opts (f_dirs s) (native p) q Hw Hk (fun _ => false) (or_introl (fun _ => eq_refl)) n has p lk i es Hp eq_refl Hf Hg eq_refl) as (it & s1 & Hc & Ha).
  rewrite Hrs in Ha. destruct (forward_arrives cf k s opts (f_dirs s) (native p) q Hw Hk Ho (fun _ => false) (or_introl (fun _ => eq_refl)) n has l1 it s1 r l2 Ha) as (it2 & s2 & Hf2 & Hs2).
  destruct (stands_this cf k s opts (f_dirs s) (native p) q (fun _ => false) it2 s2 r l2 Hs2) as (e & st & _ & He & d & Hd & Hv).
  destruct (pop_arrives cf k s opts (f_dirs s) (native p) q Hw Hk (fun _ => false) (or_introl (fun _ => eq_refl)) (S (S n)) has it2 s2 r l2 Hs2) as (it3 & s3 & Hp3 & Ha3).
  set (rest := filter (fun x => negb (below (removelast r) x)) l2) in *.
  assert (Hlen : length rest < S (S (S n))).
  { pose proof (filter_short (fun x => negb (below (removelast r) x)) l2) as Hle. fold rest in Hle. rewrite Hrs, app_length in Hn. cbn [length] in Hn. unfold loc in *. lia. }
  destruct (visits_rest cf k s opts (f_dirs s) (native p) q Hw Hk Ho (fun _ => false) (or_introl (fun _ => eq_refl)) n has (S (S (S n))) it3 s3 rest Hlen Ha3) as (l & h' & J1 & J2).
  exists e, d, l. eexists. split.
  - rewrite <- guarded_none. unfold pop_after. rewrite run_bind, Hc. cbn [fst snd]. rewrite run_bind, Hf2, He, Hd. cbn [pbind]. rewrite run_bind, Hp3. cbn [fst snd].
    rewrite run_bind, J1. reflexivity.
  - split; [repeat split|]. split; [exact Hv|exact J2].
Qed.

(** After disable_recursion_pending() at the entry [r] what lies below [r] is left out, and nothing else. *)
Theorem C49_disable_partial : forall cf k s p q i es has opts, wf s -> k_dtype k = true -> canon p ->
  has_dopt do_follow_directory_symlink opts = false ->
  leads_to k s (native p) q (NDir i) -> get (f_root s) q = Some (Dir i es) ->
  exists rs N, forall n, N <= n ->
    (exists l s', run (fsk k) (visit_tree cf n has p opts) s = Done (l, None) s' /\ map rshown l = map (visit_of s (native p) q) rs) /\
    forall l1 r l2, rs = l1 ++ r :: l2 ->
      exists e d l s', run (fsk k) (disable_after cf n has p opts (length l1)) s = Done (e, d, l, None) s' /\ same_state s s' /\
        rshown (e, d) = visit_of s (native p) q r /\
        map rshown l = map (visit_of s (native p) q) (filter (fun x => negb (below r x)) l2).
Proof.
  intros cf k s p q i es has opts Hw Hk Hp Ho (lk & Hf & _) Hg.
  exists (places s (fun _ => false) (Dir i es)), (length (places s (fun _ => false) (Dir i es)) + 3). intros n Hn. split.
  { destruct (walk_places cf k s (fun _ => false) p has n q lk i es opts Hw Hk Ho (or_introl (fun _ => eq_refl)) Hp Hf Hg Hn) as (l & h' & J1 & J2). rewrite guarded_none in J1. eauto. }
  intros l1 r l2 Hrs. destruct n as [|[|[|n]]]; try lia.
  destruct (ctor_arrives cf k s opts (f_dirs s) (native p) q Hw Hk (fun _ => false) (or_introl (fun _ => eq_refl)) n has p lk i es Hp eq_refl Hf Hg eq_refl) as (it & s1 & Hc & Ha).
  rewrite Hrs in Ha. destruct (forward_arrives cf k s opts (f_dirs s) (native p) q Hw Hk Ho (fun _ => false) (or_introl (fun _ => eq_refl)) n has l1 it s1 r l2 Ha) as (it2 & s2 & Hf2 & Hs2).
  destruct (stands_this cf k s opts (f_dirs s) (native p) q (fun _ => false) it2 s2 r l2 Hs2) as (e & st & _ & He & d & Hd & Hv).
  destruct (disabled_arrives cf k s opts (f_dirs s) (native p) q Hw Hk (fun _ => false) (or_introl (fun _ => eq_refl)) (S (S n)) has it2 s2 r l2 Hs2) as (it3 & s3 & Hp3 & Ha3).
  set (rest := filter (fun x => negb (below r x)) l2) in *.
  assert (Hlen : length rest < S (S (S n))).
  { pose proof (filter_short (fun x => negb (below r x)) l2) as Hle. fold rest in Hle. rewrite Hrs, app_length in Hn. cbn [length] in Hn. unfold loc in *. lia. }
  destruct (visits_rest cf k s opts (f_dirs s) (native p) q Hw Hk Ho (fun _ => false) (or_introl (fun _ => eq_refl)) n has (S (S (S n))) it3 s3 rest Hlen Ha3) as (l & h' & J1 & J2).
  exists e, d, l. eexists. split.
  - rewrite <- guarded_none. unfold disable_after. rewrite run_bind, Hc. cbn [fst snd]. rewrite run_bind, Hf2, He, Hd. cbn [pbind]. rewrite run_bind, Hp3. cbn [fst snd].
    rewrite run_bind, J1. reflexivity.
  - split; [repeat split|]. split; [exact Hv|exact J2].
Qed.

(** At /a/d/g of [demo_walk] pop() leads to /a/l. At /a/d disabling the recursion does too. *)
Example C49_example :
  match run (fsk demo_choices) (pop_after plain_config 10 true (topath (lit "/a")) 0 1) demo_walk with
  | Done (e, d, l, None) _ => rshown (e, d) = (lit "/a/d/g", ft_regular, 1%Z) /\ map rshown l = [(lit "/a/l", ft_symlink, 0%Z)]
  | _ => False
  end /\
  match run (fsk demo_choices) (disable_after plain_config 10 true (topath (lit "/a/d")) 0 0) demo_walk with
  | Done (e, d, l, None) _ => rshown (e, d) = (lit "/a/d/g", ft_regular, 0%Z) /\
      map rshown l = [(lit "/a/d/e", ft_directory, 0%Z); (lit "/a/d/e/h", ft_regular, 1%Z)]
  | _ => False
  end.
Proof. split; vm_compute; split; reflexivity. Qed.

(** On every system: pop() closes the directory of the current entry and moves to the entry its parent's stream delivers next; at depth
    0 it makes the end iterator. Nothing is opened. *)
Theorem C49_pop_next : forall S (h : kernel S) cf n has top d root ent rest opts rec s s1 l e s2 name t r,
  (match ds_handle top with Some d0 => snd (h (c_closedir d0) s) | None => s end) = s1 ->
  delivers h d s1 l e s2 -> Forall possible l -> canon root -> length l < n -> next_of l = Some (name, t, r) ->
  exists s3 p, run h (rdir_pop cf n has (RIter (Some (top :: Stream (Some d) root ent :: rest, opts)) rec)) s =
      Done (RIter (Some (Stream (Some d) root (Entry p (iter_data (de_data ent) (told t))) :: rest, opts)) rec, None) s3 /\
    native p = append_text (native root) name /\ delivers h d s3 r e s2.
Proof.
  intros S h cf n has top d root ent rest opts rec s s1 l e s2 name t r Hs Hd HF Hr Hn Hx.
  pose proof (run_advance S h cf d s1 l e s2 Hd HF n root ent Hr Hn) as Ha. rewrite Hx in Ha. destruct Ha as (s3 & p & J1 & J2 & J3 & J4 & _).
  exists s3, p. split; [|split; auto]. unfold rdir_pop. cbn [r_impl is_nil]. rewrite run_bind.
  assert (Hc : run h (stream_destroy top) s = Done tt s1).
  { unfold stream_destroy. destruct (ds_handle top); [rewrite run_sys; cbn [run]; rewrite Hs; reflexivity|rewrite <- Hs; reflexivity]. }
  rewrite Hc. unfold rdir_advance. cbn [r_impl advance_stack]. rewrite run_bind, run_bind, J1. reflexivity.
Qed.

Theorem C49_pop_top : forall S (h : kernel S) cf n has top opts rec s,
  exists s', run h (rdir_pop cf n has (RIter (Some ([top], opts)) rec)) s = Done (RIter None rec, None) s'.
Proof.
  intros. unfold rdir_pop. cbn [r_impl is_nil]. rewrite run_bind. unfold stream_destroy.
  destruct (ds_handle top); [rewrite run_sys|]; eexists; reflexivity.
Qed.

(** On every system: the increment after disable_recursion_pending() moves to the entry the same stream delivers next, and the increments after it
    may enter again. *)
Theorem C49_disable_next : forall S (h : kernel S) cf n has d root ent rest opts rec s l e s2 name t r,
  delivers h d s l e s2 -> Forall possible l -> canon root -> length l < n -> next_of l = Some (name, t, r) ->
  exists s3 p, run h (rdir_increment cf n has (rdir_disable (RIter (Some (Stream (Some d) root ent :: rest, opts)) rec))) s =
      Done (RIter (Some (Stream (Some d) root (Entry p (iter_data (de_data ent) (told t))) :: rest, opts)) true, None) s3 /\
    native p = append_text (native root) name /\ delivers h d s3 r e s2.
Proof.
  intros S h cf n has d root ent rest opts rec s l e s2 name t r Hd HF Hr Hn Hx.
  pose proof (run_advance S h cf d s l e s2 Hd HF n root ent Hr Hn) as Ha. rewrite Hx in Ha. destruct Ha as (s3 & p & J1 & J2 & J3 & J4 & _).
  exists s3, p. split; [|split; auto]. unfold rdir_increment, rdir_disable. cbn [r_recursion r_impl pbind]. 
  cbn [orb failed]. unfold rdir_advance. cbn [r_impl advance_stack]. rewrite run_bind, run_bind, J1. reflexivity.
Qed.

(** * C50 skip_permission_denied *)

(** With skip_permission_denied the directories that may not be read (opendir answers EACCES) count as empty: iterating recursively gives no error
    and visits what does not lie below such a directory (nor after a symlink, C48). *)
Theorem C50_tree_partial : forall cf k s D p q i es has opts, wf s -> k_dtype k = true -> canon p ->
  has_dopt do_follow_directory_symlink opts = false -> has_dopt do_skip_permission_denied opts = true ->
  leads_to k s (native p) q (NDir i) -> get (f_root s) q = Some (Dir i es) ->
  exists rs N,
    (forall r, In r rs <-> inside (Dir i es) r /\ ~ after_link s (Dir i es) r /\ ~ behind D (Dir i es) r) /\ NoDup rs /\ parents_first rs /\
    forall n, N <= n -> exists l s', run (guarded k D) (visit_tree cf n has p opts) s = Done (l, None) s' /\ same_state s s' /\
      map rshown l = map (visit_of s (native p) q) rs.
Proof.
  intros cf k s D p q i es has opts Hw Hk Hp Ho Hs (lk & Hf & _) Hg.
  pose proof (wf_get _ _ _ (wf_root s Hw) Hg) as Hwt.
  exists (places s D (Dir i es)), (length (places s D (Dir i es)) + 3).
  split; [intros; apply places_exact; auto|]. split; [apply places_nodup; auto|]. split; [apply places_parents|].
  intros n Hn. destruct (walk_places cf k s D p has n q lk i es opts Hw Hk Ho (or_intror Hs) Hp Hf Hg Hn) as (l & h' & J1 & J2).
  exists l. eexists. split; [exact J1|]. split; [repeat split|exact J2].
Qed.

(** The directory e of [demo_walk] (number 5) may not be read. *)
Example C50_example :
  match run (guarded demo_choices (N.eqb 5)) (visit_tree plain_config 10 true (topath (lit "/a")) (dopt_value do_skip_permission_denied)) demo_walk with
  | Done (l, None) _ => map (fun x => fst (fst (rshown x))) l = [lit "/a/d"; lit "/a/d/g"; lit "/a/d/e"; lit "/a/l"]
  | _ => False
  end /\
  match run (guarded demo_choices (N.eqb 5)) (visit_tree plain_config 10 true (topath (lit "/a")) 0) demo_walk with
  | Done (l, Some EACCES) s' => map (fun x => fst (fst (rshown x))) l = [lit "/a/d"; lit "/a/d/g"; lit "/a/d/e"] /\ f_dirs s' = []
  | _ => False
  end.
Proof. split; vm_compute; auto. Qed.

(** On every system, the constructors: a directory that may not be read gives the end iterator, without an error if skip_permission_denied is
    set, and otherwise with it. Every other error of opendir is reported whatever the options. *)
Theorem C50_constructors : forall S (h : kernel S) cf n p opts s e s1, h (c_opendir (native p)) s = (Err e, s1) ->
  (e = EACCES -> has_dopt do_skip_permission_denied opts = true -> forall has,
     run h (dir_iter_ctor cf n has p opts) s = Done (None, None) s1 /\
     run h (rdir_ctor cf n has p opts) s = Done (RIter None true, None) s1) /\
  (e <> EACCES \/ has_dopt do_skip_permission_denied opts = false ->
     run h (dir_iter_ctor cf n true p opts) s = Done (None, Some e) s1 /\
     run h (rdir_ctor cf n true p opts) s = Done (RIter None true, Some e) s1 /\
     run h (dir_iter_ctor cf n false p opts) s = Failed (FThrow (Some e) [p]) s1 /\
     run h (rdir_ctor cf n false p opts) s = Failed (FThrow (Some e) [p]) s1).
Proof.
  intros S h cf n p opts s e s1 H.
  assert (Hc : run h (stream_ctor cf n p opts) s =
    Done (if has_dopt do_skip_permission_denied opts && errno_eqb e EACCES then None else Some e, Stream None p entry_default) s1).
  { unfold stream_ctor. rewrite run_sys, H. reflexivity. }
  split.
  - intros -> Hs has. unfold dir_iter_ctor, rdir_ctor. rewrite !run_bind, Hc, Hs. split; reflexivity.
  - intros Hn.
    assert (Hb : has_dopt do_skip_permission_denied opts && errno_eqb e EACCES = false).
    { destruct Hn as [Hn| ->]; [|reflexivity]. destruct (errno_eqb e EACCES) eqn:He; [|apply andb_false_r]. apply errno_eqb_eq in He. congruence. }
    rewrite Hb in Hc. unfold dir_iter_ctor, rdir_ctor. rewrite !run_bind, Hc. cbn. repeat split; reflexivity.
Qed.

(** On every system, the increment from an entry that is a directory and may not be read: with skip_permission_denied the same as the increment after
    disable_recursion_pending(); without, the streams are closed, the iterator is the end iterator and the error is reported. [plain_dir] is
    an entry as the iterator delivers it for a directory. *)
Definition plain_dir (e : dir_entry) : Prop :=
  cd_cache (de_data e) = CBASIC /\ cd_symlink (de_data e) = false /\ cd_type (de_data e) = ft_directory.
Fixpoint closing {S} (h : kernel S) (l : list dstream) (s : S) : S :=
  match l with
  | [] => s
  | d :: r => closing h r (match ds_handle d with Some x => snd (h (c_closedir x) s) | None => s end)
  end.

Lemma run_close_all : forall S (h : kernel S) l s, run h (close_all l) s = Done tt (closing h l s).
Proof.
  intros S h. induction l as [|d l IH]; intros s; [reflexivity|]. cbn [close_all closing]. rewrite run_bind. unfold stream_destroy.
  destruct (ds_handle d); [rewrite run_sys|]; cbn [run]; apply IH.
Qed.

Theorem C50_increment : forall S (h : kernel S) cf n d st opts s e s1, plain_dir (ds_entry d) ->
  has_dopt do_follow_directory_symlink opts = false ->
  h (c_opendir (native (de_path (ds_entry d)))) s = (Err e, s1) ->
  let it := RIter (Some (d :: st, opts)) true in
  (e = EACCES -> has_dopt do_skip_permission_denied opts = true -> forall has,
     run h (rdir_increment cf n has it) s = run h (rdir_increment cf n has (rdir_disable it)) s1) /\
  (e <> EACCES \/ has_dopt do_skip_permission_denied opts = false ->
     run h (rdir_increment cf n true it) s = Done (RIter None true, Some e) (closing h (rev (d :: st)) s1) /\
     run h (rdir_increment cf n false it) s = Failed (FThrow (Some e) []) (closing h (rev (d :: st)) s1)).
Proof.
  intros S h cf n d st opts s e s1 (P1 & P2 & P3) Ho H it.
  assert (Hd : Stream (ds_handle d) (ds_root d) (ds_entry d) = d) by (destruct d; reflexivity).
  assert (Hc : run h (stream_ctor cf n (de_path (ds_entry d)) opts) s =
    Done (if has_dopt do_skip_permission_denied opts && errno_eqb e EACCES then None else Some e, Stream None (de_path (ds_entry d)) entry_default) s1).
  { unfold stream_ctor. rewrite run_sys, H. reflexivity. }
  assert (Hg : run h (GetSymLinkFileType cf true (ds_entry d)) s = Done (ft_directory, None, ds_entry d) s).
  { unfold GetSymLinkFileType. rewrite P1. cbn [cache_eqb]. rewrite run_bind. cbn [run]. rewrite P2, P3. reflexivity. }
  assert (Htry : forall has, run h (rdir_try cf n has it) s =
    match (if has_dopt do_skip_permission_denied opts && errno_eqb e EACCES then None else Some e) with
    | None => Done (false, None, it) s1
    | Some _ =>
        if has then Done (false, Some e, RIter None true) (closing h (rev (d :: st)) s1)
        else Failed (FThrow (Some e) []) (closing h (rev (d :: st)) s1)
    end).
  { intros has. unfold rdir_try, it. cbn [r_impl r_recursion]. rewrite Ho, run_bind, Hg. cbn iota.
    change (status_known (status_of_type ft_directory)) with true. change (st_is_symlink (status_of_type ft_directory)) with false.
    change (st_is_directory (status_of_type ft_directory)) with true. cbn [failed andb orb negb]. rewrite Hd, run_bind, run_bind, Hc. cbn [fst snd run good ds_handle].
    destruct (has_dopt do_skip_permission_denied opts && errno_eqb e EACCES) eqn:Hb; [reflexivity|].
    rewrite andb_comm in Hb. rewrite Hb. rewrite run_bind. unfold impl_reset. rewrite run_close_all. destruct has; reflexivity. }
  split.
  - intros -> Hs has. unfold rdir_increment. rewrite run_bind. cbn [it r_recursion rdir_disable]. fold it. rewrite Htry, Hs. reflexivity.
  - intros Hn.
    assert (Hb : has_dopt do_skip_permission_denied opts && errno_eqb e EACCES = false).
    { destruct Hn as [Hn| ->]; [|reflexivity]. destruct (errno_eqb e EACCES) eqn:He; [|apply andb_false_r]. apply errno_eqb_eq in He. congruence. }
    rewrite Hb in Htry. unfold rdir_increment. rewrite !run_bind. cbn [it r_recursion]. fold it. rewrite !Htry. split; reflexivity.
Qed.

(** With follow_directory_symlink, and for a directory after a symlink, an unreadable directory gives no error though skip_permission_denied is not
    set: the directory is not tried (C48). In [demo] d has the number 5. *)
Theorem C50_not_tried_refuted :
  match run (guarded demo_choices (N.eqb 3)) (visit_tree plain_config 10 true (topath (lit "/a")) (dopt_value do_follow_directory_symlink)) demo_walk with
  | Done (l, e) _ => e = None /\ map (fun x => fst (fst (rshown x))) l = [lit "/a/d"; lit "/a/l"]
  | _ => False
  end /\
  match run (guarded demo_choices (N.eqb 5)) (visit_tree plain_config 10 true (topath (lit "/a")) 0) demo with
  | Done (l, e) _ => e = None /\ map (fun x => fst (fst (rshown x))) l = [lit "/a/f"; lit "/a/l"; lit "/a/d"]
  | _ => False
  end.
Proof. split; vm_compute; auto. Qed.

Print Assumptions C50_not_tried_refuted.
Print Assumptions C50_tree_partial.
Print Assumptions C50_constructors.
Print Assumptions C50_increment.
Print Assumptions C49_pop_partial.
Print Assumptions C49_disable_partial.
Print Assumptions C49_pop_next.
Print Assumptions C49_pop_top.
Print Assumptions C49_disable_next.
Print Assumptions C48_visits_partial.
Print Assumptions C48_whole_tree_partial.
Print Assumptions C48_after_symlink_refuted.
Print Assumptions C48_follow_enters_nothing_refuted.
Print Assumptions C48_follow_refuted.
Print Assumptions C48_untyped_refuted.
