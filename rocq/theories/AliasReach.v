(** Histories in which the argument of a modifier may be the modified variable itself or one of its own elements (property C14). *)
From Coq Require Import Ascii String Bool Arith NArith ZArith Lia List.
From Verif Require Import Str PathModel PathSpec StrProofs PathProofs PathOps PathOps2 PathNormal PathNormal2 PathMisc PathReach AliasModel AliasProps.
Import ListNotations.

(** The statements of [stmt] (fs_path.h:60-250), where the variables may be the same, and modifications by a path or by an element of the path
    modified, which operator* of the iterator refers to (fs_path.cpp:431-441). *)
Inductive astmt :=
| APlain (c : stmt)
| AConcat (x y : nat)               (* x += y *)
| AAppendElement (x n : nat)        (* x /= *std::next(x.begin(), n + 1), nothing when x is shorter *)
| AConcatElement (x n : nat)        (* x += *std::next(x.begin(), n) *)
| AReplaceExtensionElement (x n : nat).

Section Run.
Variable w : platform.
Variable E : elision.

(** fs_path.cpp:431-441: the n-th element of a path without components is the path itself. *)
Definition element_of (p : path) (n : nat) : option arg :=
  if n <? length (elems p) then Some (if is_nil (comps p) then Self else Elem n) else None.

(** Assignment (fs_path.h:103), move assignment (fs_path.cpp:121-127), swap (fs_path.h:187-191), operator/= (fs_path.cpp:522-597), operator+=
    (fs_path.h:482-490), replace_filename and replace_extension (fs_path.cpp:659-686) by the object itself; the rest as [exec]. *)
Definition exec_alias (st : store) (a : astmt) : out store :=
  let set x r := do p <- r ;; Ok (upd st x p) in
  let arg_of x y := if x =? y then Self else Other (st y) in
  let element x n f := match element_of (st x) n with Some a => set x (f (st x) a) | None => Ok st end in
  match a with
  | APlain (SCopy x y) => set x (assign_at (st x) (arg_of x y))
  | APlain (SMove x y) => if x =? y then set x (Ok (move_assign_self w (st x))) else exec w E st (SMove x y)
  | APlain (SSwap x y) => if x =? y then set x (Ok (swap_self (st x))) else exec w E st (SSwap x y)
  | APlain (SAppend x y) => set x (append_at w E true (st x) (arg_of x y))
  | APlain (SReplaceFilename x y) => set x (replace_filename_at w E (st x) (arg_of x y))
  | APlain (SReplaceExtension x y) => set x (replace_extension_at w (st x) (arg_of x y))
  | APlain c => exec w E st c
  | AConcat x y => set x (concat_at w (st x) (arg_of x y))
  | AAppendElement x n => element x (Datatypes.S n) (append_at w E true)
  | AConcatElement x n => element x n (concat_at w)
  | AReplaceExtensionElement x n => element x n (replace_extension_at w)
  end.

(** One statement after the other. *)
Fixpoint exec_alias_all (st : store) (l : list astmt) : out store :=
  match l with [] => Ok st | a :: r => do st' <- exec_alias st a ;; exec_alias_all st' r end.
End Run.

Lemma append_other : forall w E g p q, append_at w E g p (Other q) = path_append w E g p q.
Proof.
  intros. unfold append_at. cbn [shows bind]. rewrite assign_other. unfold by_assignment. destruct (_ || _) eqn:Hc; [|reflexivity].
  unfold path_append. rewrite Hc. reflexivity.
Qed.

Lemma gives_append_at : forall E g p a, canon p -> (a = Self \/ exists q, a = Other q /\ canon q) -> exists t, gives (append_at Posix E g p a) t.
Proof.
  intros E g p a Hp [->|(q & -> & Hq)].
  - destruct (C89_self Posix E g p) as [-> _]. eexists. apply gives_append; auto.
  - rewrite append_other. eexists. apply gives_append; auto.
Qed.

Lemma gives_concat_at : forall p a q, shows p a = Ok q -> exists t, gives (concat_at Posix p a) t.
Proof. intros p a q H. unfold concat_at. rewrite H. cbn [bind]. eexists. apply gives_concat. Qed.

Lemma erased_ok : forall p, canon p -> exists t,
  match find_extension p with
  | Some (ExtSelf _, Some n) => str_erase (pathname p) n
  | Some (ExtBack c, Some n) => str_erase (pathname p) (c_pos c + n)
  | _ => Ok (pathname p)
  end = Ok t.
Proof.
  intros p Hp. destruct (canon_cases p Hp) as [[->|H] Ht]; [eexists; reflexivity|]. rewrite H. eexists. apply erased_text. exact Ht.
Qed.

Lemma gives_replace_extension_at : forall p a, canon p ->
  (forall t, exists q, shows (Path t (comps p) (ptyp p)) a = Ok q) -> exists t, gives (replace_extension_at Posix p a) t.
Proof.
  intros p a Hp Ha. unfold replace_extension_at. destruct (erased_ok p Hp) as [t ->]. cbn [bind].
  destruct (Ha t) as [q1 ->]. cbn [bind]. destruct (Ha (t ++ [dot])) as [q2 H2]. destruct (Ha t) as [q3 H3].
  destruct (native q1) as [|c s]; [|destruct (Ascii.eqb c dot)]; eapply gives_concat_at; eauto.
Qed.

Lemma element_shows : forall p n a, element_of p n = Some a -> forall t, exists q, shows (Path t (comps p) (ptyp p)) a = Ok q.
Proof.
  intros p n a H t. unfold element_of in H. destruct (n <? length (elems p)) eqn:Hn; [|discriminate]. injection H as <-.
  destruct (comps p) as [|c cs] eqn:Hc; cbn [is_nil]; [eexists; reflexivity|]. cbn [shows comps].
  assert (Hl : n < length (c :: cs)).
  { apply Nat.ltb_lt in Hn. unfold elems in Hn. destruct (ptyp p); try (destruct (empty p); cbn in *; lia). rewrite map_length, Hc in Hn. exact Hn. }
  destruct (nth_error (c :: cs) n) eqn:He; [eexists; reflexivity|]. apply nth_error_None in He. lia.
Qed.

Lemma gives_append_element : forall E g p n a, canon p -> element_of p (Datatypes.S n) = Some a -> exists t, gives (append_at Posix E g p a) t.
Proof.
  intros E g p n a Hp He. unfold element_of in He. destruct (_ <? _) eqn:Hn; [|discriminate]. injection He as <-.
  destruct (is_nil (comps p)) eqn:Hc; [apply gives_append_at; auto|].
  destruct Hp as [->|[s ->]]; [discriminate|].
  apply Nat.ltb_lt in Hn. destruct (nth_error (comps (mkpath s)) (Datatypes.S n)) as [c|] eqn:He.
  - rewrite (C89_append_element Posix E g s (Datatypes.S n) c He). cbn [Nat.eqb andb].
    eexists. apply gives_append; [apply canon_mkpath|].
    assert (Hin : In (comp_path c) (elems (mkpath s))).
    { destruct (typed_split Posix s) as [_ Hm]. fold (mkpath s) in Hm. unfold elems. rewrite Hm by (intros H; rewrite H in Hc; discriminate).
      apply in_map. eapply nth_error_In. exact He. }
    rewrite elems_paths in Hin. apply in_map_iff in Hin as (x & <- & _). apply canon_mkpath.
  - exfalso. apply nth_error_None in He. unfold elems in Hn. destruct (typed_split Posix s) as [_ Hm]. fold (mkpath s) in Hm.
    rewrite Hm, map_length in Hn by (intros H; rewrite H in Hc; discriminate). lia.
Qed.

(** With an elided return, parent_path and lexically_normal give objects that are not what their text would make. *)
Definition usable (E : elision) (a : astmt) : bool :=
  match a with
  | APlain (SParentPath _ _) => negb (el_parent E)
  | APlain (SNormal _ _) => negb (el_normal E)
  | _ => true
  end.

Lemma exec_any : forall E st c, usable E (APlain c) = true -> (forall x, canon (st x)) -> exists st', exec Posix E st c = Ok st' /\ forall x, canon (st' x).
Proof.
  intros [a b o] st c Hu Hst. destruct c; cbn in Hu; 
    try match goal with |- exists st', exec _ _ _ ?c = _ /\ _ => exact (exec_canon (Elision false false o) st c eq_refl eq_refl Hst) end.
  - destruct a; [discriminate|]. exact (exec_canon (Elision false false o) st (SParentPath x y) eq_refl eq_refl Hst).
  - destruct b; [discriminate|]. exact (exec_canon (Elision false false o) st (SNormal x y) eq_refl eq_refl Hst).
Qed.

Lemma exec_alias_canon : forall E st a, usable E a = true ->
  (forall x, canon (st x)) -> exists st', exec_alias Posix E st a = Ok st' /\ forall x, canon (st' x).
Proof.
  intros E st a Hu Hst.
  assert (G : forall x r, (exists t, gives r t) -> exists st', (do p <- r ;; Ok (upd st x p)) = Ok st' /\ forall y, canon (st' y)).
  { intros x r (t & q & -> & Hq & _). cbn [bind]. eexists. split; [reflexivity|]. intros y. unfold upd. destruct (y =? x); auto. }
  assert (D : forall p, canon p -> exists t, gives (Ok p) t) by (intros p Hp; exists (native p), p; auto).
  assert (A : forall x y, (if x =? y then Self else Other (st y)) = Self \/ exists q, (if x =? y then Self else Other (st y)) = Other q /\ canon q).
  { intros x y. destruct (x =? y); eauto. }
  assert (S : forall x y p, exists q, shows p (if x =? y then Self else Other (st y)) = Ok q).
  { intros x y p. destruct (A x y) as [->|(q & -> & _)]; eexists; reflexivity. }
  assert (EL : forall x n f, (forall a, element_of (st x) n = Some a -> exists t, gives (f (st x) a) t) ->
    exists st', match element_of (st x) n with Some a => do p <- f (st x) a ;; Ok (upd st x p) | None => Ok st end = Ok st' /\ forall y, canon (st' y)).
  { intros x n f H. destruct (element_of (st x) n) as [b|]; [apply G, H; reflexivity|]. eauto. }
  destruct a as [c|x y|x n|x n|x n].
  - destruct c; try (apply exec_any; auto; fail); cbn [exec_alias].
    + apply G. destruct (A x y) as [->|(q & -> & Hq)]; [rewrite assign_self|rewrite assign_other]; apply D; auto.
    + destruct (x =? y); [apply G, D, canon_mkpath|apply exec_any; auto].
    + destruct (x =? y); [apply G, D, Hst|apply exec_any; auto].
    + apply G, gives_append_at; auto.
    + apply G. unfold replace_filename_at. destruct (gives_remove_filename (st x) (Hst x)) as (q & -> & Hq & _). cbn [bind].
      apply gives_append_at; auto.
    + apply G, gives_replace_extension_at; auto.
  - cbn [exec_alias]. apply G. destruct (S x y (st x)) as [q Hq]. eapply gives_concat_at; eauto.
  - cbn [exec_alias]. apply EL. intros b Hb. eapply gives_append_element; eauto.
  - cbn [exec_alias]. apply EL. intros b Hb. destruct (element_shows _ _ _ Hb (pathname (st x))) as [q Hq].
    rewrite path_eta in Hq. eapply gives_concat_at; eauto.
  - cbn [exec_alias]. apply EL. intros b Hb. apply gives_replace_extension_at; auto. eapply element_shows; eauto.
Qed.

Lemma exec_alias_all_canon : forall E l st, forallb (usable E) l = true ->
  (forall x, canon (st x)) -> exists st', exec_alias_all Posix E st l = Ok st' /\ forall x, canon (st' x).
Proof.
  induction l as [|c l IH]; intros st Hu Hst; cbn [exec_alias_all]; eauto. cbn in Hu. apply andb_true_iff in Hu as [Hc Hl].
  destruct (exec_alias_canon E st c Hc Hst) as (st1 & -> & H1). cbn [bind]. apply IH; auto.
Qed.

Lemma parent_text_any : forall E p, canon p -> exists q, parent_path Posix E p = Ok q /\ native q = parent_text (native p).
Proof.
  intros E p [->|[s ->]]; [destruct E as [[] [] []]; eexists; split; reflexivity|].
  rewrite native_mkpath. destruct (parent_path_mkpath E s) as (q & H1 & H2 & _). eauto.
Qed.
Lemma normal_text_any : forall E p, canon p -> exists q, lexically_normal Posix E p = Ok q /\ native q = if is_nil (native p) then [] else normal_text (native p).
Proof.
  intros E p Hp. destruct (native p) as [|c s] eqn:Hn.
  - unfold lexically_normal, empty. unfold native in Hn. rewrite Hn. cbn [is_nil].
    destruct (fin_canon (el_normal E) path_default canon_default). eexists. split; [reflexivity|]. auto.
  - destruct (proj1 (canon_cases p Hp)) as [->|Hm]; [discriminate|]. rewrite Hm, Hn. cbn [is_nil].
    destruct (lexically_normal_mkpath E (c :: s)) as (r & H1 & H2 & _); [congruence|]. eauto.
Qed.

Lemma canon_views_any : forall E p q, canon p -> canon q -> native p = native q -> same_view (view_of Posix E p) (view_of Posix E q).
Proof.
  intros E p q Hp Hq Hn.
  destruct (parent_text_any E p Hp) as (p1 & P1 & P2), (parent_text_any E q Hq) as (q1 & Q1 & Q2).
  destruct (normal_text_any E p Hp) as (p3 & P3 & P4), (normal_text_any E q Hq) as (q3 & Q3 & Q4).
  assert (Hpar : text_of (parent_path Posix E p) = text_of (parent_path Posix E q)).
  { unfold text_of. rewrite P1, Q1. cbn [bind]. rewrite P2, Q2, Hn. reflexivity. }
  assert (Hnor : text_of (lexically_normal Posix E p) = text_of (lexically_normal Posix E q)).
  { unfold text_of. rewrite P3, Q3. cbn [bind]. rewrite P4, Q4, Hn. reflexivity. }
  assert (Hhas : has_parent_path Posix E p = has_parent_path Posix E q).
  { unfold has_parent_path. rewrite P1, Q1. cbn [bind]. unfold empty. fold (native p1) (native q1). rewrite P2, Q2, Hn. reflexivity. }
  clear P1 P2 P3 P4 Q1 Q2 Q3 Q4. destruct E as [a b o].
  pose proof (canon_views (Elision false false o) p q eq_refl eq_refl Hp Hq Hn) as V.
  unfold same_view in V |- *. decompose [and] V. clear V. repeat match goal with |- _ /\ _ => split end; try assumption.
Qed.

(** Whatever is elided: histories of operations, on variables that may be arguments to their own modification, that do not keep an elided result of
    parent_path or lexically_normal. None throws, asserts or is undefined, and two variables with equal texts answer every question alike. Missing:
    those results (refuted in PathProps.v), and the element that an assignment destroys ([C89_elements], [C89_append_element]). *)
Theorem C14_aliased_partial : forall E l1 l2, forallb (usable E) l1 = true -> forallb (usable E) l2 = true ->
  exists st1 st2, exec_alias_all Posix E start l1 = Ok st1 /\ exec_alias_all Posix E start l2 = Ok st2 /\
    forall x y, native (st1 x) = native (st2 y) -> same_view (view_of Posix E (st1 x)) (view_of Posix E (st2 y)).
Proof.
  intros E l1 l2 H1 H2.
  destruct (exec_alias_all_canon E l1 start H1 (fun _ => canon_default)) as (st1 & A1 & C1).
  destruct (exec_alias_all_canon E l2 start H2 (fun _ => canon_default)) as (st2 & A2 & C2).
  exists st1, st2. split; auto. split; auto. intros. apply canon_views_any; auto.
Qed.

(** Without such arguments these are the histories of [C14_text_determines_partial]. *)
Theorem C14_aliased_plain : forall w E l st, forallb no_alias l = true ->
  exec_alias_all w E st (map APlain l) = exec_all w E st l.
Proof.
  induction l as [|c l IH]; intros st H; [reflexivity|]. cbn in H. apply andb_true_iff in H as [Hc Hl]. cbn [map exec_alias_all exec_all].
  replace (exec_alias w E st (APlain c)) with (exec w E st c); [destruct (exec w E st c); cbn [bind]; auto|].
  destruct c; try reflexivity; cbn [no_alias] in Hc; cbn [exec_alias exec];
    try (apply negb_true_iff in Hc; rewrite Hc); try reflexivity.
  - destruct (x =? y) eqn:Hxy; [apply Nat.eqb_eq in Hxy; subst; rewrite assign_self|rewrite assign_other]; reflexivity.
  - rewrite append_other. reflexivity.
  - unfold replace_filename_at, replace_filename. destruct (remove_filename w (st x)); cbn [bind]; try reflexivity. rewrite append_other. reflexivity.
  - f_equal. unfold replace_extension_at, replace_extension. 
    match goal with |- context [bind ?x _] => destruct x as [t| | |]; try reflexivity end.
    cbn [bind shows native]. destruct (pathname (st y)) as [|c s] eqn:Hy; [|destruct (Ascii.eqb c dot) eqn:Hd]; unfold concat_at; cbn [shows bind]; unfold native; rewrite ?Hy, ?Hd; reflexivity.
Qed.

(** p /= p, p.replace_extension(p), p += *p.begin(), p /= *std::next(p.begin()), p = std::move(p) one after the other. *)
Definition aliased_history : list astmt :=
  [APlain (SText 0 (lit "a.x")); APlain (SAppend 0 0); APlain (SCopy 1 0); APlain (SReplaceExtension 0 0); AConcatElement 0 0; APlain (SCopy 2 0);
   AAppendElement 0 0; AConcat 2 2; APlain (SText 3 (lit "b")); APlain (SMove 3 3)].
Example C14_aliased_example : forall E, forallb (usable E) aliased_history = true /\
  match exec_alias_all Posix E start aliased_history with
  | Ok st => map (fun x => native (st x)) [0; 1; 2; 3] = 
      [lit "a.x/a.a.x/a.a.x/a.a.x"; lit "a.x/a.x"; lit "a.x/a.a.x/a.a.xa.x/a.a.x/a.a.x"; []]
  | _ => False
  end.
Proof. intros [[] [] []]; split; vm_compute; reflexivity. Qed.

Print Assumptions C14_aliased_partial.
Print Assumptions C14_aliased_plain.
