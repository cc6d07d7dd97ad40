(** What a program does, with a record of the calls made before. *)
From Coq Require Import Ascii String Bool Arith NArith ZArith Lia.
From Verif Require Import Str PathModel PathSpec StrProofs PathProofs PathOps PathOps2 PathReach PathLaws
  FlagsModel TimeModel Prog DirModel OpsModel OpsProps FS FSProofs FSSpec FSOps FSPlace FSProps IterProps FSIter FSRemove RaceProps.
From Coq Require Import List.
Import ListNotations.

(** * Vocabulary *)

(** What was done: the call made, in which state, and the answer. *)
Inductive deed (S : Type) := Deed (s : S) (c : call) (r : answer c).
Arguments Deed {S}.

(** A system with a record of the calls, the oldest first. *)
Definition chronicled {S} (h : kernel S) : kernel (S * list (deed S)) := fun c st =>
  let (s, l) := st in let (a, s') := h c s in (a, (s', l ++ [Deed s c a])).

(** The text of the entry [n] of the directory [t]. *)
Definition entry_of (t n : str) : str := t ++ (if is_nil t || ends_slash t then [] else [slash]) ++ n.

(** What is reached from [t] by the names [ns]. *)
Definition down (t : str) (ns : list str) : str := fold_left entry_of ns t.

(** Every call of the record was allowed by [OK] when it was made. *)
Definition heeds {S} (OK : list (deed S) -> call -> Prop) (l : list (deed S)) : Prop := forall a s c r b, l = a ++ Deed s c r :: b -> OK a c.

(** Names in directories have no slash in them. *)
Definition honest (c : call) : answer c -> Prop :=
  match c with c_readdir _ => fun r => forall n t, r = Val (Some (n, t)) -> noslash n | _ => fun _ => True end.
Definition honest_from {S} (h : kernel S) (s : S) : Prop := exists I : S -> Prop, I s /\ forall c u, I u -> honest c (fst (h c u)) /\ I (snd (h c u)).

(** * Proof *)

Lemma unchronicled : forall S (h : kernel S) A (p : prog A) s l, fst (state_of (run (chronicled h) p (s, l))) = state_of (run h p s).
Proof. intros S h A. induction p as [a|e|c k IH]; intros s l; auto. cbn [run]. unfold chronicled at 1. destruct (h c s) as [a s1]. apply IH. Qed.

Section Bounds.
Context {S : Type} (OK : list (deed S) -> call -> Prop).

Fixpoint bounded {A} (l : list (deed S)) (p : prog A) (Q : A -> list (deed S) -> Prop) : Prop :=
  match p with
  | Ret a => Q a l
  | Stop _ => True
  | Sys c f => OK l c /\ forall s a, honest c a -> bounded (l ++ [Deed s c a]) (f a) Q
  end.

Lemma bounded_bind : forall A B (p : prog A) (f : A -> prog B) l Q, bounded l p (fun a l1 => bounded l1 (f a) Q) -> bounded l (pbind p f) Q.
Proof. induction p as [a|e|c k IH]; cbn; intros f l Q H; auto. destruct H as [H1 H2]. split; auto. Qed.
Lemma bounded_weaken : forall A (p : prog A) l (Q R : A -> list (deed S) -> Prop), (forall a l1, Q a l1 -> R a l1) -> bounded l p Q -> bounded l p R.
Proof. induction p as [a|e|c k IH]; cbn; intros l Q R H1 H2; auto. destruct H2 as [H2 H3]. split; auto. intros s a Ha. eapply IH; eauto. Qed.
Lemma bounded_unwinding : forall A (p : prog A) c l Q, bounded l p Q -> (forall l1, bounded l1 c (fun _ _ => True)) -> bounded l (unwinding p c) Q.
Proof.
  induction p as [a|e|q k IH]; cbn; intros c l Q H Hc; auto.
  - destruct (unwinds e); cbn; auto. apply bounded_bind. eapply bounded_weaken; [|apply Hc]. cbn. auto.
  - destruct H as [H1 H2]. split; auto.
Qed.

Lemma kept_snoc : forall l s c r, heeds OK l -> OK l c -> heeds OK (l ++ [Deed s c r]).
Proof.
  intros l s c r Hl Hc a s' c' r' b H. destruct b as [|x b] using rev_ind.
  - apply app_inj_tail in H as [-> H]. inversion H; subst. auto.
  - clear IHb. rewrite app_comm_cons, app_assoc in H. apply app_inj_tail in H as [H _]. eapply Hl; eauto.
Qed.

Lemma bounded_run : forall A (p : prog A) (h : kernel S) (J : S -> list (deed S) -> Prop) s l Q,
  (forall s l c, J s l -> OK l c -> honest c (fst (h c s)) /\ J (snd (h c s)) (l ++ [Deed s c (fst (h c s))])) -> J s l -> bounded l p Q ->
  J (fst (state_of (run (chronicled h) p (s, l)))) (snd (state_of (run (chronicled h) p (s, l)))).
Proof.
  induction p as [a|e|c k IH]; intros h J s l Q Hh Hl Hb; auto. cbn in Hb. destruct Hb as [H1 H2]. destruct (Hh s l c Hl H1) as [H3 H4].
  assert (E : chronicled h c (s, l) = (fst (h c s), (snd (h c s), l ++ [Deed s c (fst (h c s))]))) by (unfold chronicled; destruct (h c s); reflexivity).
  cbn [run]. rewrite E. eapply IH; eauto.
Qed.

Definition grown (l l1 : list (deed S)) : Prop := incl l l1.
Lemma grown_refl : forall l, grown l l.
Proof. intros l x Hx. exact Hx. Qed.
Lemma grown_snoc : forall l d, grown l (l ++ [d]).
Proof. intros l d x Hx. apply in_or_app. auto. Qed.
Lemma grown_trans : forall a b c, grown a b -> grown b c -> grown a c.
Proof. intros a b c H1 H2 x Hx. auto. Qed.

Lemma entry_append : forall t n, noslash n -> append_text t n = entry_of t n.
Proof.
  intros t n Hn. unfold append_text, entry_of. assert (Hs : starts_slash n = false) by (destruct n as [|c n]; [reflexivity|]; unfold noslash in Hn; cbn in Hn |- *; destruct (is_slash c); [discriminate Hn|reflexivity]).
  rewrite Hs. f_equal. f_equal. destruct (after_last_slash t) as [|c r] eqn:E; cbn [is_nil].
  - apply after_last_nil in E as [->|E]; [reflexivity|]. rewrite E, orb_true_r. reflexivity.
  - destruct t; [discriminate|]. cbn [is_nil orb]. destruct (ends_slash _) eqn:Ee; [|reflexivity]. rewrite (ends_after _ Ee) in E. discriminate.
Qed.
Lemma good_from : forall n, noslash n -> n <> [] -> str_eqb n (lit ".") = false -> str_eqb n (lit "..") = false -> good_name n = true.
Proof. intros n H1 H2 D1 D2. unfold good_name, plain. rewrite D1, D2. destruct n; [congruence|]. exact H1. Qed.

Context (Hrd : forall l d, OK l (c_readdir d)) (Hcl : forall l d, OK l (c_closedir d)).

(** The entry an iterator shows is an entry of the directory it was opened for. *)
Definition shows_entry (st : dstream) : Prop :=
  canon (ds_root st) /\ canon (de_path (ds_entry st)) /\ exists n, good_name n = true /\ native (de_path (ds_entry st)) = entry_of (native (ds_root st)) n.

Lemma bounded_advance : forall cf n st (l : list (deed S)), canon (ds_root st) ->
  bounded l (advance cf n st) (fun r l1 => grown l l1 /\ ds_root (snd r) = ds_root st /\ (fst (fst r) = true -> shows_entry (snd r)) /\ (fst (fst r) = false -> good (snd r) = false)).
Proof.
  intros cf. induction n as [|n IH]; intros st l Hr; [exact Logic.I|]. cbn [advance]. destruct (ds_handle st) as [d|]; [|exact Logic.I].
  unfold posix_readdir. cbn [pbind bounded]. split; [apply Hrd|]. intros s a Ha. cbn [honest] in Ha. destruct a as [e|[[name t]|]].
  - cbn [pbind failed orb]. change (str_eqb [] (lit ".") || str_eqb [] (lit "..")) with false. cbn iota. cbn [failed orb bounded]. split; [apply Hcl|].
    intros s2 a2 _. cbn. repeat split; auto; try discriminate. eapply grown_trans; apply grown_snoc.
  - specialize (Ha name t eq_refl). apply bounded_bind. apply bounded_bind.
    assert (Hgo : forall ft, bounded (l ++ [Deed s (c_readdir d) (Val (Some (name, t)))])
      (if str_eqb name (lit ".") || str_eqb name (lit "..") then advance cf n st
       else if failed None || is_nil name then Sys (c_closedir d) (fun _ => Ret (false, None : ecode, Stream None (ds_root st) (ds_entry st)))
       else let! p := lift (path_div Posix (cf_el cf) (ds_root st) (split_components Posix name)) in
            Ret (true, None : ecode, Stream (Some d) (ds_root st) (Entry p (iter_data (de_data (ds_entry st)) ft))))
      (fun r l1 => grown l l1 /\ ds_root (snd r) = ds_root st /\ (fst (fst r) = true -> shows_entry (snd r)) /\ (fst (fst r) = false -> good (snd r) = false))).
    { intros ft. destruct (str_eqb name (lit ".") || str_eqb name (lit "..")) eqn:Dn.
      - eapply bounded_weaken; [|apply IH; auto]. intros r l1 (G & R). split; auto. eapply grown_trans; [apply grown_snoc|exact G].
      - cbn [failed orb]. destruct (is_nil name) eqn:En.
        + cbn. split; [apply Hcl|]. intros s2 a2 _. repeat split; auto; try discriminate. eapply grown_trans; apply grown_snoc.
        + change (split_components Posix name) with (mkpath name). destruct (gives_div (cf_el cf) (ds_root st) (mkpath name) Hr (canon_mkpath name)) as (p & Hp & Hc & Hnp).
          rewrite Hp. cbn. split; [apply grown_snoc|]. split; auto. split; [|discriminate]. intros _. split; [exact Hr|]. split; [exact Hc|].
          apply orb_false_iff in Dn as [D1 D2]. assert (Hne : name <> []) by (intros ->; discriminate).
          exists name. split; [apply good_from; auto|]. cbn [de_path ds_entry ds_root]. rewrite native_is_text in Hnp by (apply noslash_text; auto). rewrite Hnp, <- native_mkpath.
          rewrite native_is_text by (apply append_text_text; [apply canon_native; auto|apply noslash_text; auto]). apply entry_append. auto. }
    destruct t; try exact (Hgo _). exact Logic.I.
  - cbn [pbind failed orb]. change (str_eqb [] (lit ".") || str_eqb [] (lit "..")) with false. cbn iota. cbn [failed orb is_nil bounded]. split; [apply Hcl|].
    intros s2 a2 _. cbn. repeat split; auto; try discriminate. eapply grown_trans; apply grown_snoc.
Qed.

Definition iter_entry (p : path) (it : dir_iter) : Prop := match it with Some st => ds_root st = p /\ shows_entry st | None => True end.

Lemma bounded_ctor : forall cf n has (l : list (deed S)) p, canon p -> OK l (c_opendir (native p)) ->
  bounded l (dir_iter_ctor cf n has p 0) (fun r l1 => grown l l1 /\ iter_entry p (fst r)).
Proof.
  intros cf n has l p Cp Hp. unfold dir_iter_ctor, stream_ctor. apply bounded_bind. cbn [bounded]. split; [exact Hp|]. intros s a _. destruct a as [e|d].
  - cbn. change (has_dopt do_skip_permission_denied 0) with false. unfold report. destruct has; cbn; [split; [apply grown_snoc|exact Logic.I]|exact Logic.I].
  - apply bounded_bind. eapply bounded_weaken; [|apply bounded_advance; exact Cp]. intros [[b ec] st] l1 (G & R & H1 & H2). cbn [fst snd ds_root] in *. cbn [bounded].
    assert (G2 : grown l l1) by (eapply grown_trans; [apply grown_snoc|exact G]). destruct (good st) eqn:Eg.
    + cbn. split; auto. split; auto. destruct b; auto. specialize (H2 eq_refl). congruence.
    + destruct (failed ec); [unfold report; destruct has; cbn; auto|cbn; auto].
Qed.

Lemma bounded_increment : forall cf n (l : list (deed S)) p it, iter_entry p it -> bounded l (dir_iter_increment cf n true it) (fun r l1 => grown l l1 /\ iter_entry p (fst r)).
Proof.
  intros cf n l p [st|] Hi; cbn [dir_iter_increment].
  - destruct Hi as [Hr Hs]. apply bounded_bind. eapply bounded_weaken; [|apply bounded_advance; apply Hs]. intros [[b ec] st1] l1 (G & R & H1 & H2). cbn [fst snd] in *. destruct b.
    + cbn. split; auto. split; [congruence|auto].
    + destruct (failed ec); cbn; auto.
  - cbn. split; [apply grown_refl|exact Logic.I].
Qed.

Lemma bounded_destroy : forall it l (Q : unit -> list (deed S) -> Prop), (forall l1, grown l l1 -> Q tt l1) -> bounded l (dir_iter_destroy it) Q.
Proof.
  intros [st|] l Q H; cbn; [unfold stream_destroy; destruct (ds_handle st); cbn; auto using grown_refl|auto using grown_refl].
  split; [apply Hcl|]. intros s a _. apply H. apply grown_snoc.
Qed.

End Bounds.
