(** C96: no operation on paths cuts a character: paths made of well-formed UTF-8 stay well-formed, and so do all their parts. *)
From Coq Require Import Ascii String Bool Arith NArith ZArith Lia List.
From Verif Require Import Str PathModel PathSpec StrProofs PathProofs PathOps PathOps2 PathNormal PathNormal2 PathMisc PathReach PathLaws PathProps
  WinPathProps WinPlace WinAppend WinParts WinGeneric Utf8.
Import ListNotations.

(** The texts a program puts into paths. *)
Definition given_text (c : stmt) : Prop :=
  match c with SText _ s | SConcat _ s | SRead _ s => well_formed s | _ => True end.

(** * Proofs *)

Lemma wf_slash : well_formed [slash].
Proof. apply wf_ascii. reflexivity. Qed.
Lemma wf_backslash : well_formed [backslash].
Proof. apply wf_ascii. reflexivity. Qed.

Lemma wf_head : forall c s, well_formed (c :: s) -> continuation c = false.
Proof.
  intros c s (cs & Hcs & He). destruct cs as [|x cs]; [discriminate|]. inversion Hcs as [|? ? Hx _]; subst.
  change (utf8 (x :: cs)) with (map ascii_of_N (utf8_char x) ++ utf8 cs) in He. destruct (char_shape x Hx) as (l & k & Hk & Hl & _). rewrite Hk in He.
  cbn [app] in He. injection He as -> _. exact Hl.
Qed.

(** What stands in front of a well-formed end is well-formed. *)
Lemma wf_front : forall a b, well_formed (a ++ b) -> well_formed b -> well_formed a.
Proof. intros a b H Hb. apply (wf_cut a b H). destruct b as [|c b]; [exact Logic.I|]. apply (wf_head c b Hb). Qed.

Lemma wf_tail : forall c s, is_ascii c = true -> well_formed (c :: s) -> well_formed s.
Proof. intros c s Hc H. apply (wf_split [] c s Hc H). Qed.

Lemma wf_cons : forall c s, is_ascii c = true -> well_formed s -> well_formed (c :: s).
Proof. intros c s Hc H. change (c :: s) with ([c] ++ s). apply wf_app; [apply wf_ascii; cbn; rewrite Hc; reflexivity|exact H]. Qed.

Section Cuts.
(** Cutting a text at ASCII separators. *)
Variable sep : ascii -> bool.
Hypothesis sep_ascii : forall c, sep c = true -> is_ascii c = true.

Fixpoint cuts (s : str) : list str :=
  match s with
  | [] => [[]]
  | c :: r => if sep c then [] :: cuts r else match cuts r with h :: t => (c :: h) :: t | [] => [[c]] end
  end.

Lemma cuts_first : forall s, (forallb (fun c => negb (sep c)) s = true /\ cuts s = [s]) \/
  exists a c b, s = a ++ c :: b /\ sep c = true /\ cuts s = a :: cuts b.
Proof.
  induction s as [|x s IH]; [left; auto|]. cbn [cuts forallb]. destruct (sep x) eqn:Hx.
  - right. exists [], x, s. auto.
  - destruct IH as [[H1 H2]|(a & c & b & -> & Hc & H2)].
    + left. rewrite H1, H2. auto.
    + right. exists (x :: a), c, b. split; [reflexivity|]. split; [exact Hc|]. rewrite H2. reflexivity.
Qed.

Lemma wf_cuts : forall s, well_formed s -> Forall well_formed (cuts s).
Proof.
  intros s. remember (length s) as n. assert (Hn : length s <= n) by lia. clear Heqn. revert s Hn. induction n as [|n IH]; intros s Hn H.
  - destruct s; [|cbn in Hn; lia]. constructor; [apply wf_nil|constructor].
  - destruct (cuts_first s) as [[_ ->]|(a & c & b & -> & Hc & ->)]; [constructor; [exact H|constructor]|].
    destruct (wf_split a c b (sep_ascii c Hc) H) as [Ha Hb]. constructor; [exact Ha|]. apply IH; [|exact Hb].
    rewrite app_length in Hn. cbn [length] in Hn. lia.
Qed.
End Cuts.

Lemma pieces_cuts : forall s, pieces s = cuts is_slash s.
Proof. induction s as [|c s IH]; [reflexivity|]. cbn [pieces cuts]. rewrite IH. reflexivity. Qed.

Lemma wpieces_cuts : forall s, wpieces s = cuts is_wsep s.
Proof. induction s as [|c s IH]; [reflexivity|]. cbn [wpieces cuts]. rewrite IH. reflexivity. Qed.

Lemma slash_ascii : forall c, is_slash c = true -> is_ascii c = true.
Proof. intros c H. apply Ascii.eqb_eq in H. subst c. reflexivity. Qed.

Lemma wsep_ascii : forall c, is_wsep c = true -> is_ascii c = true.
Proof. intros c H. unfold is_wsep in H. apply orb_prop in H. destruct H as [H|H]; apply Ascii.eqb_eq in H; subst c; reflexivity. Qed.

Lemma wf_pieces : forall s, well_formed s -> Forall well_formed (pieces s).
Proof. intros s H. rewrite pieces_cuts. apply wf_cuts; [exact slash_ascii|exact H]. Qed.

Lemma Forall_filter : forall A (P : A -> Prop) f l, Forall P l -> Forall P (filter f l).
Proof. intros A P f l H. rewrite Forall_forall in *. intros x Hx. apply filter_In in Hx. apply H. tauto. Qed.

Lemma wf_names : forall s, well_formed s -> Forall well_formed (names s).
Proof. intros s H. apply Forall_filter, wf_pieces, H. Qed.

Lemma wf_elements : forall s, well_formed s -> Forall well_formed (elements s).
Proof.
  intros s H. unfold elements. apply Forall_app. split; [|apply Forall_app; split; [apply wf_names, H|]].
  - destruct (starts_slash s); repeat constructor. apply wf_slash.
  - destruct (_ && _); repeat constructor. apply wf_nil.
Qed.

Lemma wf_reported : forall s, well_formed s -> well_formed (reported_text s).
Proof. intros s H. unfold reported_text. destruct (_ && _); [apply wf_slash|exact H]. Qed.

Lemma wf_last : forall l, Forall well_formed l -> well_formed (last l []).
Proof. induction l as [|x [|y l] IH]; intros H; [apply wf_nil|inversion H; auto|]. inversion H; subst. apply IH. assumption. Qed.

Lemma wf_after : forall s, well_formed s -> well_formed (after_last_slash s).
Proof. intros s H. apply wf_last, wf_pieces, H. Qed.

Lemma wf_upto : forall s, well_formed s -> well_formed (upto_last_slash s).
Proof. intros s H. apply (wf_front _ (after_last_slash s)); [rewrite upto_after; exact H|apply wf_after, H]. Qed.

Lemma wf_drop : forall s, well_formed s -> well_formed (drop_slashes s).
Proof.
  induction s as [|c s IH]; intros H; [exact H|]. cbn [drop_slashes]. destruct (is_slash c) eqn:Hc; [|exact H].
  apply IH, (wf_tail c); [apply slash_ascii, Hc|exact H].
Qed.

Lemma wf_stem_ext : forall f st ex, is_stem_ext f st ex -> well_formed f -> well_formed st /\ well_formed ex.
Proof.
  intros f st ex [He H] Hf. subst f. destruct H as [[-> _]|(x & -> & _)]; [rewrite app_nil_r in Hf; split; [exact Hf|apply wf_nil]|].
  destruct (wf_cut st (dot :: x) Hf eq_refl) as [H1 H2]. auto.
Qed.

Lemma wf_stem : forall f, well_formed f -> well_formed (stem_text f).
Proof. intros f H. apply (wf_stem_ext f _ _ (stem_ext_ok f) H). Qed.
Lemma wf_ext : forall f, well_formed f -> well_formed (ext_text f).
Proof. intros f H. apply (wf_stem_ext f _ _ (stem_ext_ok f) H). Qed.

Lemma wf_join : forall l, Forall well_formed l -> well_formed (join l).
Proof.
  induction l as [|x [|y l] IH]; intros H; [apply wf_nil|inversion H; auto|]. inversion H as [|? ? Hx Hl]; subst.
  change (join (x :: y :: l)) with (x ++ slash :: join (y :: l)). apply wf_app; [exact Hx|]. apply wf_cons; [reflexivity|]. apply IH. exact Hl.
Qed.

Lemma wf_root : forall s, well_formed (PathOps2.root_text s).
Proof. intros s. unfold PathOps2.root_text. destruct (starts_slash s); [apply wf_slash|apply wf_nil]. Qed.

Lemma Forall_removelast : forall A (P : A -> Prop) l, Forall P l -> Forall P (removelast l).
Proof. induction l as [|x [|y l] IH]; intros H; [constructor|constructor|]. inversion H; subst. constructor; auto. Qed.

Lemma wf_parent : forall s, well_formed s -> well_formed (PathOps2.parent_text s).
Proof.
  intros s H. unfold PathOps2.parent_text. destruct (is_nil (names s)); [exact H|]. apply wf_app; [apply wf_root|]. apply wf_join, Forall_removelast, wf_names, H.
Qed.

Lemma wf_append : forall a b, well_formed a -> well_formed b -> well_formed (PathOps.append_text a b).
Proof.
  intros a b Ha Hb. unfold PathOps.append_text. destruct (starts_slash b); [exact Hb|]. apply wf_app; [exact Ha|]. apply wf_app; [|exact Hb].
  destruct (is_nil _); [apply wf_nil|apply wf_slash].
Qed.

Lemma wf_dotted : forall r, well_formed r -> well_formed (dotted r).
Proof. intros [|c r] H; [exact H|]. unfold dotted. destruct (Ascii.eqb c dot); [exact H|]. apply wf_cons; [reflexivity|exact H]. Qed.

Lemma wf_reduce : forall a ns stk, Forall well_formed stk -> Forall well_formed ns -> Forall well_formed (fold_left (reduce1 a) ns stk).
Proof.
  intros a. induction ns as [|n ns IH]; intros stk Hs Hn; [exact Hs|]. inversion Hn as [|? ? H1 H2]; subst. cbn [fold_left]. apply IH; [|exact H2].
  unfold reduce1. destruct (str_eqb n (lit ".")); [exact Hs|]. destruct (str_eqb n (lit "..")); [|constructor; assumption].
  destruct stk as [|x r]; [destruct a; [constructor|constructor; [exact H1|constructor]]|]. destruct (str_eqb x (lit "..")); [constructor; assumption|].
  inversion Hs; assumption.
Qed.

Lemma wf_normal : forall s, well_formed s -> well_formed (normal_text s).
Proof.
  intros s H. unfold normal_text, final_text. pose proof (wf_reduce (starts_slash s) (names s) [] (Forall_nil _) (wf_names s H)) as Hs. fold (norm_stk s) in Hs.
  destruct (norm_stk s) as [|x r]; [destruct (starts_slash s); apply wf_ascii; reflexivity|]. unfold nf_text.
  apply wf_app; [destruct (starts_slash s); [apply wf_slash|apply wf_nil]|]. apply wf_app; [apply wf_join, Forall_rev, Hs|].
  destruct (_ && _); [apply wf_slash|apply wf_nil].
Qed.

Lemma strip_suffix : forall P a b, Forall P a -> Forall P (fst (strip_common a b)).
Proof.
  intros P. induction a as [|x a IH]; intros [|y b] H; [constructor|constructor|exact H|]. cbn [strip_common]. destruct (str_eqb x y); [|exact H].
  inversion H; subst. apply IH. assumption.
Qed.

Lemma wf_relative : forall s t, well_formed s -> well_formed (relative_text s t).
Proof.
  intros s t H. unfold relative_text. destruct (negb _); [apply wf_nil|]. destruct (_ && _); [apply wf_ascii; reflexivity|]. destruct (_ <? 0)%Z; [apply wf_nil|].
  apply wf_app; [|destruct (_ && _); [apply wf_slash|apply wf_nil]]. apply wf_join, Forall_app. split.
  - apply Forall_forall. intros x Hx. apply repeat_spec in Hx. subst x. apply wf_ascii. reflexivity.
  - apply Forall_filter, strip_suffix, wf_elements, H.
Qed.

(** Reading a path from a stream. *)
Lemma space_ascii : forall c, is_space c = true -> is_ascii c = true.
Proof. intros c H. unfold is_space, is_ascii in *. apply N.ltb_lt. destruct (N_of_ascii c) as [|p]; [lia|]. repeat (destruct p as [p|p|]; try discriminate; try lia). Qed.

Lemma wf_skip : forall s, well_formed s -> well_formed (skip_ws s).
Proof. induction s as [|c s IH]; intros H; [exact H|]. cbn [skip_ws]. destruct (is_space c) eqn:Hc; [|exact H]. apply IH, (wf_tail c); [apply space_ascii, Hc|exact H]. Qed.

Lemma wf_take : forall s acc, well_formed (acc ++ s) -> well_formed (fst (take_word s acc)).
Proof.
  induction s as [|c s IH]; intros acc H; cbn [take_word]; [rewrite app_nil_r in H; exact H|]. destruct (is_space c) eqn:Hc; cbn [fst].
  - apply (wf_split acc c s (space_ascii c Hc) H).
  - apply IH. rewrite <- app_assoc. exact H.
Qed.

Lemma wf_unquote : forall n s acc, length s <= n -> well_formed (acc ++ s) -> snd (unquote s acc) = true -> well_formed (fst (fst (unquote s acc))).
Proof.
  induction n as [|n IH]; intros [|c s] acc Hn H; cbn [unquote]; try (cbn; congruence); [cbn in Hn; lia|].
  cbn [length] in Hn. destruct (Ascii.eqb_spec c backslash) as [->|Hb].
  - destruct s as [|d s]; [cbn; congruence|]. apply IH; [cbn in Hn; lia|]. rewrite <- app_assoc. cbn [app].
    destruct (wf_split acc backslash (d :: s) eq_refl H) as [Ha Hd]. apply wf_app; assumption.
  - destruct (Ascii.eqb_spec c quote) as [->|Hq].
    + intros _. cbn [fst]. apply (wf_split acc quote s eq_refl H).
    + apply IH; [lia|]. rewrite <- app_assoc. exact H.
Qed.

Lemma native_assign : forall p t, native (assign_str Posix p t) = reported_text t.
Proof. intros. rewrite assign_str_eq. apply native_mkpath. Qed.

Lemma wf_stream : forall p s, well_formed (native p) -> well_formed s -> well_formed (native (fst (stream_in Posix p s))).
Proof.
  intros p s Hp Hs. unfold stream_in. pose proof (wf_skip s Hs) as Hk. destruct (skip_ws s) as [|c r]; [exact Hp|].
  destruct (Ascii.eqb_spec c quote) as [->|Hq].
  - pose proof (wf_unquote (length r) r [] (le_n _) (wf_tail quote r eq_refl Hk)) as Hu. destruct (unquote r []) as [[t rest] []]; cbn [fst snd] in *; [|exact Hp].
    rewrite native_assign. apply wf_reported, Hu. reflexivity.
  - pose proof (wf_take (c :: r) [] Hk) as Ht. destruct (take_word (c :: r) []) as [t rest]. cbn [fst] in *. rewrite native_assign. apply wf_reported, Ht.
Qed.

Lemma wf_elem : forall p n d, canon p -> well_formed (native p) -> well_formed (native d) -> well_formed (native (nth n (elems p) d)).
Proof.
  intros p n d Hc Hp Hd. destruct (nth_in_or_default n (elems p) d) as [H| ->]; [|exact Hd].
  apply (in_map native) in H. destruct (shows_canon p Hc) as [He _]. rewrite He in H. pose proof (wf_elements _ Hp) as Hf. rewrite Forall_forall in Hf. apply Hf. exact H.
Qed.

Lemma exec_wf : forall E st c st', el_parent E = false -> el_normal E = false -> given_text c ->
  (forall x, canon (st x)) -> (forall x, well_formed (native (st x))) -> exec Posix E st c = Ok st' -> forall x, well_formed (native (st' x)).
Proof.
  intros E st c st' HP HN Hg Hst Hw.
  assert (G : forall x r t, gives r t -> well_formed t -> (do p <- r ;; Ok (upd st x p)) = Ok st' -> forall y, well_formed (native (st' y))).
  { intros x r t (q & -> & _ & <-) Ht H y. cbn [bind] in H. injection H as <-. unfold upd. destruct (y =? x); auto. }
  assert (D : forall p, canon p -> gives (Ok p) (native p)) by (intros p Hp; exists p; auto).
  assert (U2 : forall a b x y, well_formed (native a) -> well_formed (native b) -> Ok (upd (upd st y b) x a) = Ok st' -> forall z, well_formed (native (st' z))).
  { intros a b x y Ha Hb H z. injection H as <-. unfold upd. destruct (z =? x); auto. destruct (z =? y); auto. }
  destruct c; cbn [exec]; cbn [given_text] in Hg.
  - eapply G; [apply D, canon_default|apply wf_nil].
  - eapply G; [apply D; rewrite assign_str_eq; apply canon_mkpath|]. rewrite native_assign. apply wf_reported, Hg.
  - eapply G; [apply D, Hst|apply Hw].
  - unfold move_assign. rewrite path_eta. apply U2; [apply Hw|apply wf_nil].
  - unfold move_ctor. apply U2; [|apply wf_nil]. fold (native (st y)). fold (mkpath (native (st y))). rewrite native_mkpath. apply wf_reported, Hw.
  - unfold swap. rewrite !path_eta. apply U2; auto.
  - eapply G; [apply D, canon_mkpath|apply wf_nil].
  - eapply G; [apply gives_preferred, Hst|apply Hw].
  - eapply G; [apply gives_append; apply Hst|]. apply wf_reported, wf_append; apply Hw.
  - eapply G; [apply gives_div; apply Hst|]. apply wf_reported, wf_append; apply Hw.
  - eapply G; [apply gives_concat|]. apply wf_reported, wf_app; [apply Hw|exact Hg].
  - eapply G; [apply gives_remove_filename; apply Hst|]. apply wf_reported, wf_upto, Hw.
  - eapply G; [apply gives_replace_filename; apply Hst|]. apply wf_reported, wf_append; [apply wf_reported, wf_upto, Hw|apply Hw].
  - eapply G; [apply gives_replace_extension; apply Hst|]. apply wf_reported, wf_app; [apply wf_upto, Hw|]. apply wf_app; [apply wf_stem, wf_after, Hw|apply wf_dotted, Hw].
  - eapply G; [apply gives_root_name; apply Hst|apply wf_nil].
  - eapply G; [apply gives_root_directory; apply Hst|apply wf_root].
  - eapply G; [apply gives_root_path; apply Hst|apply wf_root].
  - eapply G; [apply gives_relative_path; apply Hst|apply wf_drop, Hw].
  - eapply G; [apply gives_parent_path; auto|apply wf_parent, Hw].
  - eapply G; [apply gives_filename; auto|apply wf_after, Hw].
  - eapply G; [apply gives_stem; auto|apply wf_stem, wf_after, Hw].
  - eapply G; [apply gives_extension; auto|apply wf_ext, wf_after, Hw].
  - eapply G; [apply gives_normal; auto|]. destruct (is_nil (native (st y))); [apply wf_nil|apply wf_normal, Hw].
  - eapply G; [apply gives_relative; auto|apply wf_relative, Hw].
  - eapply G; [apply gives_proximate; auto|]. destruct (is_nil _); [apply Hw|apply wf_relative, Hw].
  - eapply G; [apply D, canon_elem; auto|apply wf_elem; auto].
  - eapply G; [apply D, canon_stream_in; auto|apply wf_stream; auto].
Qed.

Lemma body_first : forall s, quoted_body s = s \/
  exists a c b, s = a ++ c :: b /\ is_ascii c = true /\ quoted_body s = a ++ backslash :: c :: quoted_body b.
Proof.
  induction s as [|x s IH]; [left; reflexivity|]. cbn [quoted_body]. destruct (Ascii.eqb x quote || Ascii.eqb x backslash) eqn:Hx.
  - right. exists [], x, s. split; [reflexivity|]. split; [|reflexivity]. apply orb_prop in Hx. destruct Hx as [Hx|Hx]; apply Ascii.eqb_eq in Hx; subst x; reflexivity.
  - destruct IH as [->|(a & c & b & -> & Hc & ->)]; [left; reflexivity|right]. exists (x :: a), c, b. auto.
Qed.

Lemma wf_body : forall n s, length s <= n -> well_formed s -> well_formed (quoted_body s).
Proof.
  induction n as [|n IH]; intros s Hn H; destruct (body_first s) as [->|(a & c & b & -> & Hc & ->)]; try exact H.
  - rewrite app_length in Hn. cbn [length] in Hn. lia.
  - destruct (wf_split a c b Hc H) as [Ha Hb]. apply wf_app; [exact Ha|]. apply wf_cons; [reflexivity|]. apply wf_cons; [exact Hc|]. apply IH; [|exact Hb].
    rewrite app_length in Hn. cbn [length] in Hn. lia.
Qed.

(** * C96 *)

(** Whatever a program does with paths on POSIX: as long as the texts it puts in are well-formed UTF-8, so are the text, the generic
    text and the elements of every path it has. Stated for compilers that do not elide the copies that C14 shows harmful. *)
Theorem C96_histories_partial : forall E l st, el_parent E = false -> el_normal E = false -> Forall given_text l ->
  exec_all Posix E start l = Ok st -> forall x,
  well_formed (native (st x)) /\ well_formed (generic_string (st x)) /\ Forall well_formed (map native (elems (st x))).
Proof.
  intros E l st HP HN Hl H x.
  assert (K : forall l st0, Forall given_text l -> (forall x, canon (st0 x)) -> (forall x, well_formed (native (st0 x))) -> exec_all Posix E st0 l = Ok st ->
              (forall x, canon (st x)) /\ forall x, well_formed (native (st x))).
  { clear l Hl H. induction l as [|c l IH]; intros st0 Hl Hc Hw H; cbn [exec_all] in H; [injection H as <-; auto|]. inversion Hl; subst.
    destruct (exec_canon E st0 c HP HN Hc) as (st1 & E1 & Hc1). rewrite E1 in H. cbn [bind] in H.
    apply (IH st1); auto. apply (exec_wf E st0 c st1 HP HN); auto. }
  destruct (K l start Hl (fun _ => canon_default) (fun _ => wf_nil) H) as [Hc Hw]. split; [apply Hw|].
  destruct (shows_canon (st x) (Hc x)) as [He _]. split; [|rewrite He; apply wf_elements, Hw].
  destruct (proj1 (canon_cases (st x) (Hc x))) as [->|Hm]; [apply wf_nil|]. rewrite Hm, (proj1 (C19_generic _)). unfold squeezed.
  apply wf_app; [destruct (starts_slash _); [apply wf_slash|apply wf_nil]|]. apply wf_app; [apply wf_join, wf_names, Hw|]. destruct (_ && _); [apply wf_slash|apply wf_nil].
Qed.

(** One operation on freshly made paths, for every compiler. *)
Theorem C96_parts : forall E s t, well_formed s -> well_formed t ->
  (forall r, In r [parent_path Posix E (mkpath s); filename Posix (mkpath s); Ok (stem Posix (mkpath s)); Ok (extension Posix (mkpath s));
                   relative_path Posix E (mkpath s); Ok (root_path Posix E (mkpath s)); lexically_normal Posix E (mkpath s);
                   lexically_relative Posix E (mkpath s) (mkpath t); lexically_proximate Posix E (mkpath s) (mkpath t);
                   path_div Posix E (mkpath s) (mkpath t); Ok (path_concat Posix (mkpath s) t);
                   remove_filename Posix (mkpath s); replace_filename Posix E (mkpath s) (mkpath t); replace_extension Posix (mkpath s) (mkpath t)] ->
   exists q, r = Ok q /\ well_formed (native q)) /\ well_formed (stream_out (mkpath s)).
Proof.
  intros E s t Hs Ht. assert (Hn : well_formed (native (mkpath s))) by (rewrite native_mkpath; apply wf_reported, Hs).
  assert (Hm : well_formed (native (mkpath t))) by (rewrite native_mkpath; apply wf_reported, Ht).
  assert (G : forall r x, gives r x -> well_formed x -> exists q, r = Ok q /\ well_formed (native q)) by (intros r x (q & -> & _ & <-) Hx; exists q; auto).
  pose proof (canon_mkpath s) as Cs. pose proof (canon_mkpath t) as Ct. split.
  - intros r Hr. repeat (destruct Hr as [<-|Hr]); [..|destruct Hr].
    + destruct (parent_path_mkpath E s) as (q & Hq & Hp & _). exists q. split; [exact Hq|]. rewrite Hp. apply wf_parent, wf_reported, Hs.
    + eapply G; [apply gives_filename, Cs|apply wf_after, Hn].
    + eapply G; [apply gives_stem, Cs|apply wf_stem, wf_after, Hn].
    + eapply G; [apply gives_extension, Cs|apply wf_ext, wf_after, Hn].
    + eapply G; [apply gives_relative_path, Cs|apply wf_drop, Hn].
    + eapply G; [apply gives_root_path, Cs|apply wf_root].
    + destruct s as [|c s]; [eexists; split; [reflexivity|]; destruct (fin_canon (el_normal E) path_default canon_default) as [_ ->]; apply wf_nil|].
      destruct (lexically_normal_mkpath E (c :: s)) as (q & Hq & Hp & _); [congruence|]. exists q. split; [exact Hq|]. rewrite Hp. apply wf_normal, Hs.
    + eapply G; [apply gives_relative; assumption|apply wf_relative, Hn].
    + eapply G; [apply gives_proximate; assumption|]. destruct (is_nil _); [exact Hn|apply wf_relative, Hn].
    + eapply G; [apply gives_div; assumption|]. apply wf_reported, wf_append; assumption.
    + eapply G; [apply gives_concat|]. apply wf_reported, wf_app; assumption.
    + eapply G; [apply gives_remove_filename, Cs|]. apply wf_reported, wf_upto, Hn.
    + eapply G; [apply gives_replace_filename; assumption|]. apply wf_reported, wf_append; [apply wf_reported, wf_upto, Hn|exact Hm].
    + eapply G; [apply gives_replace_extension, Cs|]. apply wf_reported, wf_app; [apply wf_upto, Hn|]. apply wf_app; [apply wf_stem, wf_after, Hn|apply wf_dotted, Hm].
  - unfold stream_out. apply wf_cons; [reflexivity|]. apply wf_app; [|apply wf_ascii; reflexivity]. apply (wf_body (length (native (mkpath s)))); [apply le_n|exact Hn].
Qed.

(** ** Windows *)

Lemma wf_wnames : forall s, well_formed s -> Forall well_formed (wnames s).
Proof. intros s H. apply Forall_filter. rewrite wpieces_cuts. apply wf_cuts; [exact wsep_ascii|exact H]. Qed.

Lemma wf_map_ascii : forall f, (forall c, is_ascii c = false -> f c = c) -> (forall c, is_ascii c = true -> is_ascii (f c) = true) ->
  forall s, well_formed s -> well_formed (map f s).
Proof.
  intros f Hf Ha s (cs & Hcs & ->). induction cs as [|c cs IH]; [apply wf_nil|]. inversion Hcs as [|? ? Hc Hcs']; subst.
  change (utf8 (c :: cs)) with (map ascii_of_N (utf8_char c) ++ utf8 cs). rewrite map_app. apply wf_app; [|auto].
  destruct (N.ltb_spec c 128) as [Hs|Hb].
  - unfold utf8_char. destruct (N.ltb_spec c 128); [|lia]. cbn [map]. apply wf_ascii. cbn [forallb]. rewrite Ha; [reflexivity|]. unfold is_ascii. apply N.ltb_lt. rewrite n_of; lia.
  - assert (Hid : map f (map ascii_of_N (utf8_char c)) = map ascii_of_N (utf8_char c)).
    { rewrite map_map. apply map_ext_in. intros n Hn. apply Hf. unfold is_ascii. apply N.ltb_ge.
      pose proof (bytes_small c Hc) as Hsm. rewrite Forall_forall in Hsm. rewrite n_of by (apply Hsm; exact Hn). unfold utf8_char in Hn.
      destruct (N.ltb_spec c 128); [lia|]. destruct (N.ltb_spec c 2048); [|destruct (N.ltb_spec c 65536)]; cbn [In] in Hn;
        repeat (destruct Hn as [<-|Hn]; [nlia|]); destruct Hn. }
    rewrite Hid. exists [c]. split; [constructor; [exact Hc|constructor]|]. unfold utf8. cbn [flat_map]. rewrite app_nil_r. reflexivity.
Qed.

Lemma wf_preferred : forall s, well_formed s -> well_formed (preferred s).
Proof.
  apply wf_map_ascii; intros c Hc; destruct (Ascii.eqb_spec c slash) as [->|]; auto; discriminate.
Qed.

Lemma wf_forward : forall s, well_formed s -> well_formed (forward s).
Proof.
  apply wf_map_ascii; intros c Hc; destruct (Ascii.eqb_spec c backslash) as [->|]; auto; discriminate.
Qed.

Lemma wf_root_split : forall s rn rest, well_formed s -> split_root no_wsep s = (rn, rest) -> well_formed rn /\ well_formed rest.
Proof.
  intros s rn rest H Hr. destruct s as [|a s0]; [cbn in Hr; injection Hr as <- <-; split; apply wf_nil|].
  assert (Hs : a :: s0 <> []) by discriminate. destruct (wsplit _ _ _ Hs Hr) as [He _]. rewrite He in H.
  assert (Hcut : match rest with [] => True | c :: _ => continuation c = false end \/ exists x, rn = [x; colon]).
  { cbn [split_root] in Hr. destruct s0 as [|b r]; [injection Hr as <- <-; left; apply (wf_head a []); cbn in H; exact H|].
    destruct (is_wsep a && Ascii.eqb a b && negb (is_nil (word r))).
    - injection Hr as <- <-. left. pose proof (after_word_starts r) as Hst. destruct (after_word r) as [|c t]; [exact Logic.I|].
      cbn [wstarts] in Hst. apply ascii_lead, wsep_ascii. exact Hst.
    - destruct (no_wsep a && Ascii.eqb b colon) eqn:Hd.
      + apply andb_prop in Hd. destruct Hd as [_ Hd]. apply Ascii.eqb_eq in Hd. subst b. injection Hr as <- <-. right. exists a. reflexivity.
      + injection Hr as <- <-. left. cbn [app] in H. apply (wf_head a (b :: r) H). }
  destruct Hcut as [Hcut|(x & ->)]; [apply wf_cut; assumption|].
  cbn [app] in H. destruct (wf_split [x] colon rest eq_refl H) as [Hx Hre]. split; [|exact Hre].
  change [x; colon] with ([x] ++ [colon]). apply wf_app; [exact Hx|apply wf_ascii; reflexivity].
Qed.

Lemma wf_win_elements : forall s, well_formed s -> Forall well_formed (win_elements no_wsep s).
Proof.
  intros s H. unfold win_elements. destruct (split_root no_wsep s) as [rn rest] eqn:Hr. destruct (wf_root_split s rn rest H Hr) as [H1 H2].
  apply Forall_app. split; [destruct (is_nil rn); repeat constructor; apply wf_preferred, H1|].
  apply Forall_app. split; [destruct (wstarts rest); repeat constructor; apply wf_backslash|].
  apply Forall_app. split; [apply wf_wnames, H2|]. destruct (_ && _); repeat constructor; apply wf_nil.
Qed.

Lemma wf_gjoin : forall l, Forall well_formed l -> well_formed (gjoin l).
Proof.
  induction l as [|x [|y l] IH]; intros H; [apply wf_nil|inversion H; auto|]. inversion H as [|? ? Hx Hl]; subst.
  rewrite gjoin_cons by discriminate. apply wf_app; [exact Hx|]. apply wf_cons; [reflexivity|]. apply IH. exact Hl.
Qed.

Lemma wf_parts_elements : forall r d ns t, well_formed r -> Forall well_formed ns -> Forall well_formed (parts_elements r d ns t).
Proof.
  intros r d ns t Hr Hn. unfold parts_elements. apply Forall_app. split; [destruct (is_nil r); repeat constructor; exact Hr|].
  apply Forall_app. split; [destruct d; repeat constructor; apply wf_backslash|]. apply Forall_app. split; [exact Hn|]. destruct (_ && _); repeat constructor; apply wf_nil.
Qed.

(** On Windows, for every compiler: the text, the elements, the parts and the generic text of a path, and the elements of two paths joined. *)
Theorem C96_windows : forall E s t, well_formed s -> well_formed t -> let p := split_components Windows s in
  well_formed (native p) /\ Forall well_formed (map native (elems p)) /\ well_formed (generic_string p) /\
  well_formed (native (root_name Windows E p)) /\ well_formed (native (root_directory Windows E p)) /\
  (exists q, relative_path Windows E p = Ok q /\ well_formed (native q)) /\
  (exists q, filename Windows p = Ok q /\ well_formed (native q)) /\
  well_formed (native (stem Windows p)) /\ well_formed (native (extension Windows p)) /\
  (exists q, path_div Windows E p (split_components Windows t) = Ok q /\ Forall well_formed (map native (elems q))).
Proof.
  intros E s t Hs Ht p.
  assert (He : Forall well_formed (win_elements no_wsep s)) by (apply wf_win_elements, Hs).
  split. { unfold p. rewrite win_native. unfold win_text. destruct (win_elements no_wsep s) as [|x [|y l]]; try exact Hs. inversion He; assumption. }
  split. { unfold p. rewrite win_elems. exact He. }
  destruct (split_root no_wsep s) as [rn rest] eqn:Hr. destruct (wf_root_split s rn rest Hs Hr) as [H1 H2].
  split. { unfold p. rewrite C76_generic. unfold generic_text. rewrite Hr. apply wf_app; [apply wf_forward, H1|].
    apply wf_app; [destruct (wstarts rest); [apply wf_slash|apply wf_nil]|]. apply wf_app; [|destruct (_ && _); [apply wf_slash|apply wf_nil]].
    apply wf_gjoin, wf_wnames, H2. }
  destruct (C58_parts E s) as (rn' & seps & q & Hcat & Hrn & Hseps & _ & Hname & Hdir & Hrel). change (fun c => negb (is_wsep c)) with no_wsep in Hrn. rewrite Hr in Hrn. cbn [fst] in Hrn. subst rn'.
  fold p in Hname, Hdir, Hrel. split. { rewrite Hname. apply wf_preferred, H1. }
  split. { rewrite Hdir. destruct (is_nil seps); [apply wf_nil|apply wf_backslash]. }
  split. { exists q. split; [exact Hrel|]. assert (Hrest : well_formed (seps ++ native q)).
    { destruct s as [|a s0]; [|]. - symmetry in Hcat. apply app_eq_nil in Hcat. destruct Hcat as [_ ->]. apply wf_nil.
      - destruct (wsplit (a :: s0) rn rest ltac:(discriminate) Hr) as [Hc _]. rewrite Hc in Hcat. apply app_inv_head in Hcat. rewrite <- Hcat. exact H2. }
    clear - Hseps Hrest. induction seps as [|c seps IH]; [exact Hrest|]. cbn [forallb] in Hseps. apply andb_prop in Hseps. destruct Hseps as [Hc Hs]. apply IH; [exact Hs|].
    apply (wf_tail c); [apply wsep_ascii, Hc|exact Hrest]. }
  destruct (C86_filename_stem_extension s) as (rn' & dirs & f & x & (Hcut & Hd & Hf) & Hx & Hnx & _ & Hse & _). fold p in Hx, Hse. rewrite Hr in Hcut. injection Hcut as <- Hrest.
  assert (Hwf : well_formed f).
  { rewrite Hrest in H2. destruct dirs as [|d dirs] using rev_ind; [exact H2|]. destruct Hd as [Hd|Hd]; [destruct dirs; discriminate|].
    unfold wends in Hd. rewrite rev_app_distr in Hd. cbn [rev app wstarts] in Hd. rewrite <- app_assoc in H2. cbn [app] in H2.
    apply (wf_split dirs d f); [apply wsep_ascii, Hd|exact H2]. }
  split; [exists x; split; [exact Hx|rewrite Hnx; exact Hwf]|]. destruct (wf_stem_ext f _ _ Hse Hwf) as [H3 H4]. split; [exact H3|]. split; [exact H4|].
  destruct (C75_operator_slash E s t) as (r & Hdiv & _ & Hel). exists r. split; [exact Hdiv|]. rewrite Hel. unfold appended. rewrite Hr.
  destruct (split_root no_wsep t) as [rn2 r2] eqn:Hr2. destruct (wf_root_split t rn2 r2 Ht Hr2) as [H5 H6].
  destruct (_ || _); [apply wf_win_elements, Ht|]. destruct (wstarts r2).
  - apply wf_parts_elements; [apply wf_preferred, H1|apply wf_wnames, H6].
  - apply wf_parts_elements; [apply wf_preferred, H1|]. apply Forall_app. split; [apply wf_wnames, H2|apply wf_wnames, H6].
Qed.

(** * Examples *)

(** A directory named by one accented letter, and a name of an ideograph, a dot and the letter. *)
Definition accent : str := utf8 [47; 233; 47]%N.
Definition kanji : str := utf8 [26085; 46; 233]%N.

Example C96_example : well_formed accent /\ well_formed kanji /\
  given_text (SText 0 accent) /\ given_text (SConcat 0 kanji) /\
  (exists st, exec_all Posix (Elision false false false) start [SText 0 accent; SConcat 0 kanji; SStem 1 0; SParentPath 2 0; SReplaceExtension 0 1] = Ok st /\
     native (st 1) = utf8 [26085]%N /\ native (st 2) = utf8 [47; 233]%N /\ native (st 0) = utf8 [47; 233; 47; 26085; 46; 26085]%N) /\
  ~ well_formed (map ascii_of_N [195; 47]%N).
Proof.
  assert (H1 : well_formed accent) by (exists [47; 233; 47]%N; split; [repeat constructor; unfold scalar; lia|reflexivity]).
  assert (H2 : well_formed kanji) by (exists [26085; 46; 233]%N; split; [repeat constructor; unfold scalar; lia|reflexivity]).
  split; [exact H1|]. split; [exact H2|]. split; [exact H1|]. split; [exact H2|]. split.
  - eexists. split; [reflexivity|]. split; [vm_compute; reflexivity|]. split; vm_compute; reflexivity.
  - intros H. destruct (wf_cut [ascii_of_N 195] [slash] H eq_refl) as [(cs & Hcs & He) _]. destruct cs as [|c cs]; [discriminate|].
    inversion Hcs as [|? ? Hc _]; subst. apply scalar_small in Hc. change (utf8 (c :: cs)) with (map ascii_of_N (utf8_char c) ++ utf8 cs) in He. unfold utf8_char in He.
    destruct (N.ltb_spec c 128) as [Hs|]; [|destruct (N.ltb_spec c 2048); [|destruct (N.ltb_spec c 65536)]]; cbn [map app] in He; try discriminate.
    apply cons_inv in He. destruct He as [He _]. apply (f_equal N_of_ascii) in He. rewrite !n_of in He by lia. lia.
Qed.

(** An accented letter and a colon are no drive on Windows: the colon is not the second byte. *)
Example C96_example_windows : well_formed (utf8 [233; 58; 92; 26085]%N) /\
  map native (elems (split_components Windows (utf8 [233; 58; 92; 26085]%N))) = [utf8 [233; 58]%N; utf8 [26085]%N].
Proof. split; [exists [233; 58; 92; 26085]%N; split; [repeat constructor; unfold scalar; lia|reflexivity]|vm_compute; reflexivity]. Qed.
Print Assumptions C96_histories_partial.
Print Assumptions C96_parts.
Print Assumptions C96_windows.
