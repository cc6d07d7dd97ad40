(** Histories of operations on path variables (property C14). *)
From Coq Require Import Ascii String Bool Arith NArith ZArith Lia List.
From Verif Require Import Str PathModel PathSpec StrProofs PathProofs PathOps PathOps2 PathNormal PathNormal2 PathMisc.
Import ListNotations.

(** Statements a user program may perform on path variables numbered by [nat]; every
    non-static member of class path that makes or changes a path, fs_path.h:60-250. *)
Inductive stmt :=
| SDefault (x : nat)                 (* x = path() *)
| SText (x : nat) (s : str)          (* x = s; x.assign(s); x = path(s) *)
| SCopy (x y : nat)                  (* x = y *)
| SMove (x y : nat)                  (* x = std::move(y) *)
| SMoveNew (x y : nat)               (* x made by path(std::move(y)) *)
| SSwap (x y : nat)
| SClear (x : nat)
| SPreferred (x : nat)
| SAppend (x y : nat)                (* x /= y *)
| SDiv (x y z : nat)                 (* x = y / z *)
| SConcat (x : nat) (s : str)        (* x += s *)
| SRemoveFilename (x : nat)
| SReplaceFilename (x y : nat)
| SReplaceExtension (x y : nat)
| SRootName (x y : nat)              (* x = y.root_name() *)
| SRootDirectory (x y : nat)
| SRootPath (x y : nat)
| SRelativePath (x y : nat)
| SParentPath (x y : nat)
| SFilename (x y : nat)
| SStem (x y : nat)
| SExtension (x y : nat)
| SNormal (x y : nat)                (* x = y.lexically_normal() *)
| SRelative (x y z : nat)            (* x = y.lexically_relative(z) *)
| SProximate (x y z : nat)
| SElement (x y n : nat)             (* x = the element std::next(y.begin(), n), nothing when y is shorter *)
| SRead (x : nat) (s : str).         (* std::istringstream(s) >> x *)

(** The values of the variables; a variable never written holds [path()]. *)
Definition store := nat -> path.
Definition start : store := fun _ => path_default.
Definition upd (st : store) (x : nat) (p : path) : store := fun y => if y =? x then p else st y.

(** Arguments naming the changed object itself have their own meaning (AliasModel.v, AliasReach.v). *)
Definition no_alias (c : stmt) : bool :=
  match c with
  | SMove x y | SMoveNew x y | SSwap x y | SAppend x y | SReplaceFilename x y | SReplaceExtension x y =>
      negb (x =? y)
  | _ => true
  end.

Section Run.
Variable w : platform.
Variable E : elision.

Definition exec (st : store) (c : stmt) : out store :=
  let set x r := do p <- r ;; Ok (upd st x p) in
  match c with
  | SDefault x => set x (Ok path_default)
  | SText x s => set x (Ok (assign_str w (st x) s))
  | SCopy x y => set x (Ok (st y))
  | SMove x y => let '(a, b) := move_assign w (st x) (st y) in Ok (upd (upd st y b) x a)
  | SMoveNew x y => let '(a, b) := move_ctor w (st y) in Ok (upd (upd st y b) x a)
  | SSwap x y => let '(a, b) := swap (st x) (st y) in Ok (upd (upd st y b) x a)
  | SClear x => set x (Ok (clear w (st x)))
  | SPreferred x => set x (Ok (make_preferred w (st x)))
  | SAppend x y => set x (path_append w E true (st x) (st y))
  | SDiv x y z => set x (path_div w E (st y) (st z))
  | SConcat x s => set x (Ok (path_concat w (st x) s))
  | SRemoveFilename x => set x (remove_filename w (st x))
  | SReplaceFilename x y => set x (replace_filename w E (st x) (st y))
  | SReplaceExtension x y => set x (replace_extension w (st x) (st y))
  | SRootName x y => set x (Ok (root_name w E (st y)))
  | SRootDirectory x y => set x (Ok (root_directory w E (st y)))
  | SRootPath x y => set x (Ok (root_path w E (st y)))
  | SRelativePath x y => set x (relative_path w E (st y))
  | SParentPath x y => set x (parent_path w E (st y))
  | SFilename x y => set x (filename w (st y))
  | SStem x y => set x (Ok (stem w (st y)))
  | SExtension x y => set x (Ok (extension w (st y)))
  | SNormal x y => set x (lexically_normal w E (st y))
  | SRelative x y z => set x (lexically_relative w E (st y) (st z))
  | SProximate x y z => set x (lexically_proximate w E (st y) (st z))
  | SElement x y n => set x (Ok (nth n (elems (st y)) (st x)))
  | SRead x s => set x (Ok (fst (stream_in w (st x) s)))
  end.

Fixpoint exec_all (st : store) (l : list stmt) : out store :=
  match l with [] => Ok st | c :: r => do st' <- exec st c ;; exec_all st' r end.
End Run.

(** Everything const members tell about a path; texts stand for returned paths, whose own
    behaviour is again a function of their text. *)
Record view := View {
  v_native : str; v_generic : str; v_elements : list str; v_hash : (str -> N) -> N;
  v_root_name : str; v_root_directory : str; v_root_path : str; v_relative_path : out str;
  v_parent_path : out str; v_filename : out str; v_stem : str; v_extension : str;
  v_has_root_name : bool; v_has_root_directory : bool; v_has_root_path : bool;
  v_has_relative_path : out bool; v_has_parent_path : out bool; v_has_filename : out bool;
  v_has_stem : bool; v_has_extension : bool; v_is_absolute : bool; v_empty : bool;
  v_normal : out str; v_remove_filename : out str;
  v_compare : str -> Z;                (* sign of compare with path(s) *)
  v_append : str -> out str;           (* p / path(s) *)
  v_append_to : str -> out str;        (* path(s) / p *)
  v_concat : str -> str;
  v_replace_filename : str -> out str;
  v_replace_extension : str -> out str;
  v_relative : str -> out str;         (* lexically_relative(path(s)) *)
  v_base : str -> out str;             (* path(s).lexically_relative(p) *)
  v_stream : str }.

Definition text_of (x : out path) : out str := do p <- x ;; Ok (native p).

Definition view_of (w : platform) (E : elision) (p : path) : view :=
  let mk := split_components w in
  View (native p) (generic_string p) (map native (elems p)) (fun h => hash_value h p)
    (native (root_name w E p)) (native (root_directory w E p)) (native (root_path w E p))
    (text_of (relative_path w E p)) (text_of (parent_path w E p)) (text_of (filename w p))
    (native (stem w p)) (native (extension w p))
    (has_root_name p) (has_root_directory w E p) (has_root_path w E p)
    (has_relative_path w E p) (has_parent_path w E p) (has_filename w p)
    (has_stem p) (has_extension p) (is_absolute w E p) (empty p)
    (text_of (lexically_normal w E p)) (text_of (remove_filename w p))
    (fun s => Z.sgn (compare p (mk s)))
    (fun s => text_of (path_div w E p (mk s)))
    (fun s => text_of (path_div w E (mk s) p))
    (fun s => native (path_concat w p s))
    (fun s => text_of (replace_filename w E p (mk s)))
    (fun s => text_of (replace_extension w p (mk s)))
    (fun s => text_of (lexically_relative w E p (mk s)))
    (fun s => text_of (lexically_relative w E (mk s) p))
    (stream_out p).

(** Two views that agree on every question. *)
Definition same_view (a b : view) : Prop :=
  v_native a = v_native b /\ v_generic a = v_generic b /\ v_elements a = v_elements b /\
  (forall h, v_hash a h = v_hash b h) /\
  v_root_name a = v_root_name b /\ v_root_directory a = v_root_directory b /\
  v_root_path a = v_root_path b /\ v_relative_path a = v_relative_path b /\
  v_parent_path a = v_parent_path b /\ v_filename a = v_filename b /\
  v_stem a = v_stem b /\ v_extension a = v_extension b /\
  v_has_root_name a = v_has_root_name b /\ v_has_root_directory a = v_has_root_directory b /\
  v_has_root_path a = v_has_root_path b /\ v_has_relative_path a = v_has_relative_path b /\
  v_has_parent_path a = v_has_parent_path b /\ v_has_filename a = v_has_filename b /\
  v_has_stem a = v_has_stem b /\ v_has_extension a = v_has_extension b /\
  v_is_absolute a = v_is_absolute b /\ v_empty a = v_empty b /\
  v_normal a = v_normal b /\ v_remove_filename a = v_remove_filename b /\
  (forall s, v_compare a s = v_compare b s) /\
  (forall s, v_append a s = v_append b s) /\ (forall s, v_append_to a s = v_append_to b s) /\
  (forall s, v_concat a s = v_concat b s) /\
  (forall s, v_replace_filename a s = v_replace_filename b s) /\
  (forall s, v_replace_extension a s = v_replace_extension b s) /\
  (forall s, v_relative a s = v_relative b s) /\ (forall s, v_base a s = v_base b s) /\
  v_stream a = v_stream b.

(** * Results on canonical representations *)

Definition gives (r : out path) (t : str) : Prop := exists q, r = Ok q /\ canon q /\ native q = t.

Lemma gives_text : forall r t, gives r t -> text_of r = Ok t.
Proof. intros r t (q & -> & _ & <-). reflexivity. Qed.

Ltac defcase := let E := fresh in
  match goal with E : elision |- _ => destruct E as [[] [] []];
    (eexists; split; [reflexivity|]; split;
    [first [left; reflexivity|right; exists []; reflexivity]|reflexivity]) end.

Lemma gives_relative_path : forall E p, canon p -> gives (relative_path Posix E p) (drop_slashes (native p)).
Proof.
  intros E p [->|[s ->]]; [defcase|].
  rewrite native_mkpath, drop_slashes_reported. destruct (relative_path_mkpath E s) as (q & H1 & H2 & H3).
  exists q. auto.
Qed.

Lemma gives_parent_path : forall E p, el_parent E = false -> canon p ->
  gives (parent_path Posix E p) (parent_text (native p)).
Proof.
  intros E p HE [->|[s ->]]; [defcase|].
  rewrite native_mkpath. destruct (parent_path_mkpath E s) as (q & H1 & H2 & _ & H3).
  exists q. auto.
Qed.

Lemma gives_filename : forall p, canon p -> gives (filename Posix p) (after_last_slash (native p)).
Proof.
  intros p [->|[s ->]]; [eexists; split; [reflexivity|]; split; [left|]; reflexivity|].
  rewrite native_mkpath, after_last_reported, filename_mkpath. eexists. split; [reflexivity|].
  destruct (after_last_slash s) eqn:Ha; [split; [left|]; reflexivity|]. rewrite <- Ha.
  split; [apply canon_mkpath|]. apply native_is_text, noslash_text, noslash_after.
Qed.

Lemma gives_stem : forall p, canon p -> gives (Ok (stem Posix p)) (stem_text (after_last_slash (native p))).
Proof.
  intros p [->|[s ->]]; [eexists; split; [reflexivity|]; split; [left|]; reflexivity|].
  rewrite native_mkpath, after_last_reported. destruct (stem_mkpath s). eexists. split; [reflexivity|]. auto.
Qed.

Lemma gives_extension : forall p, canon p -> gives (Ok (extension Posix p)) (ext_text (after_last_slash (native p))).
Proof.
  intros p [->|[s ->]]; [eexists; split; [reflexivity|]; split; [left|]; reflexivity|].
  rewrite native_mkpath, after_last_reported. destruct (extension_mkpath s). eexists. split; [reflexivity|]. auto.
Qed.

Lemma gives_root_name : forall E p, canon p -> gives (Ok (root_name Posix E p)) [].
Proof.
  intros E p [->|[s ->]]; [defcase|]. rewrite root_name_mkpath.
  destruct (fin_canon (el_other E) path_default canon_default). eexists. split; [reflexivity|]. auto.
Qed.

Lemma gives_root_directory : forall E p, canon p -> gives (Ok (root_directory Posix E p)) (root_text (native p)).
Proof.
  intros E p [->|[s ->]]; [defcase|]. eexists. split; [reflexivity|].
  rewrite native_root_directory, native_mkpath. unfold root_text. rewrite starts_reported. split; auto.
  rewrite root_directory_mkpath. apply fin_canon. destruct (starts_slash s); [apply canon_mkpath|].
  destruct (is_nil s); apply canon_default.
Qed.

Lemma gives_root_path : forall E p, canon p -> gives (Ok (root_path Posix E p)) (root_text (native p)).
Proof.
  intros E p [->|[s ->]]; [defcase|]. destruct (root_path_mkpath E s) as [H1 H2].
  eexists. split; [reflexivity|]. rewrite native_mkpath. unfold root_text. rewrite starts_reported. auto.
Qed.

Lemma gives_append : forall E g p q, canon p -> canon q ->
  gives (path_append Posix E g p q) (reported_text (append_text (native p) (native q))).
Proof.
  intros. rewrite path_append_canon by auto. eexists. split; [reflexivity|]. split; [apply canon_mkpath|].
  apply native_mkpath.
Qed.

Lemma gives_div : forall E p q, canon p -> canon q ->
  gives (path_div Posix E p q) (reported_text (append_text (native p) (native q))).
Proof.
  intros. unfold path_div. rewrite path_append_canon by auto. cbn [bind]. rewrite fin_mkpath.
  eexists. split; [reflexivity|]. split; [apply canon_mkpath|]. apply native_mkpath.
Qed.

Lemma gives_concat : forall p s, gives (Ok (path_concat Posix p s)) (reported_text (native p ++ s)).
Proof. intros. eexists. split; [reflexivity|]. split; [apply canon_mkpath|]. apply native_mkpath. Qed.

Lemma upto_reported_canon : forall s, is_text s -> native (mkpath (upto_last_slash s)) = reported_text (upto_last_slash s).
Proof. intros. apply native_mkpath. Qed.

Lemma gives_remove_filename : forall p, canon p ->
  gives (remove_filename Posix p) (reported_text (upto_last_slash (native p))).
Proof.
  intros p [->|[s ->]]; [eexists; split; [reflexivity|]; split; [left|]; reflexivity|].
  rewrite <- (mkpath_native s) at 1. rewrite remove_filename_mkpath.
  eexists. split; [reflexivity|]. split; [apply canon_mkpath|]. rewrite native_mkpath. reflexivity.
Qed.

Lemma gives_replace_filename : forall E p r, canon p -> canon r ->
  gives (replace_filename Posix E p r)
    (reported_text (append_text (reported_text (upto_last_slash (native p))) (native r))).
Proof.
  intros E p r Hp Hr. unfold replace_filename. destruct (gives_remove_filename p Hp) as (q & -> & Hq & Hn).
  cbn [bind]. rewrite <- Hn. apply gives_append; auto.
Qed.

Lemma gives_replace_extension : forall p r, canon p ->
  gives (replace_extension Posix p r)
    (reported_text (upto_last_slash (native p) ++ stem_text (after_last_slash (native p)) ++ dotted (native r))).
Proof.
  intros p r [->|[s ->]].
  - unfold replace_extension. cbn [find_extension path_default ptyp comps map last bind].
    eexists. split; [reflexivity|]. split; [apply canon_mkpath|]. rewrite native_mkpath. f_equal.
    unfold dotted, native. cbn [path_default pathname]. destruct (pathname r) as [|c t]; [reflexivity|].
    destruct (Ascii.eqb c dot); reflexivity.
  - rewrite <- (mkpath_native s) at 1. rewrite replace_extension_canon by apply canon_native, canon_mkpath.
    eexists. split; [reflexivity|]. split; [apply canon_mkpath|]. apply native_mkpath.
Qed.

Lemma gives_normal : forall E p, el_normal E = false -> canon p ->
  gives (lexically_normal Posix E p) (if is_nil (native p) then [] else normal_text (native p)).
Proof.
  intros E p HE Hp. destruct (native p) as [|c s] eqn:Hn.
  - unfold lexically_normal, empty. unfold native in Hn. rewrite Hn. cbn [is_nil].
    destruct (fin_canon (el_normal E) path_default canon_default). eexists. split; [reflexivity|]. auto.
  - destruct (proj1 (canon_cases p Hp)) as [->|Hm]; [discriminate|]. rewrite Hm, Hn. cbn [is_nil].
    destruct (lexically_normal_mkpath E (c :: s)) as (r & H1 & H2 & _ & H3); [congruence|].
    exists r. auto.
Qed.

Lemma relative_default_l : forall E q,
  lexically_relative Posix E path_default q = lexically_relative Posix E (mkpath []) q.
Proof. intros. unfold lexically_relative. destruct E as [[] [] []]; reflexivity. Qed.

Lemma relative_default_r : forall E p,
  lexically_relative Posix E p path_default = lexically_relative Posix E p (mkpath []).
Proof. intros. unfold lexically_relative. destruct E as [[] [] []]; reflexivity. Qed.

Lemma gives_relative : forall E p q, canon p -> canon q ->
  gives (lexically_relative Posix E p q) (relative_text (native p) (native q)).
Proof.
  intros E p q Hp Hq.
  assert (H : forall s t, gives (lexically_relative Posix E (mkpath s) (mkpath t)) (relative_text s t)).
  { intros. destruct (lexically_relative_mkpath E s t) as (r & H1 & H2 & H3). exists r. auto. }
  destruct (proj1 (canon_cases p Hp)) as [->|Hm].
  - rewrite relative_default_l. destruct (proj1 (canon_cases q Hq)) as [->|Hm'].
    + rewrite relative_default_r. apply (H [] []).
    + rewrite Hm' at 1. apply (H [] (native q)).
  - rewrite Hm at 1. destruct (proj1 (canon_cases q Hq)) as [->|Hm'].
    + rewrite relative_default_r. apply (H (native p) []).
    + rewrite Hm' at 1. apply H.
Qed.

Lemma gives_proximate : forall E p q, canon p -> canon q ->
  gives (lexically_proximate Posix E p q)
    (if is_nil (relative_text (native p) (native q)) then native p else relative_text (native p) (native q)).
Proof.
  intros E p q Hp Hq. unfold lexically_proximate. destruct (gives_relative E p q Hp Hq) as (r & -> & Hr & Hn).
  cbn [bind]. rewrite Hn. destruct (is_nil _).
  - exists p. auto.
  - destruct (fin_canon (el_other E) r Hr). eexists. split; [reflexivity|]. split; auto. congruence.
Qed.

Lemma to_preferred_posix : forall s, to_preferred Posix s = s.
Proof. reflexivity. Qed.

Lemma gives_preferred : forall p, canon p -> gives (Ok (make_preferred Posix p)) (native p).
Proof. intros. exists p. unfold make_preferred. rewrite to_preferred_posix, path_eta. auto. Qed.

Lemma assign_str_eq : forall p s, assign_str Posix p s = mkpath s.
Proof. intros. unfold assign_str, move_assign. cbn [fst]. apply path_eta. Qed.

Lemma canon_stream_in : forall p s, canon p -> canon (fst (stream_in Posix p s)).
Proof.
  intros. unfold stream_in. destruct (skip_ws s) as [|c r]; auto.
  destruct (Ascii.eqb c quote).
  - destruct (unquote r []) as [[t rest] []]; cbn [fst]; auto. rewrite assign_str_eq. apply canon_mkpath.
  - destruct (take_word (c :: r) []) as [t rest]. cbn [fst]. rewrite assign_str_eq. apply canon_mkpath.
Qed.

Lemma canon_elem : forall p n d, canon p -> canon d -> canon (nth n (elems p) d).
Proof.
  intros p n d Hp Hd. destruct (nth_in_or_default n (elems p) d) as [H| ->]; auto.
  destruct Hp as [->|[s ->]]; [destruct H|]. rewrite elems_paths in *.
  apply in_map_iff in H as (x & <- & _). apply canon_mkpath.
Qed.

(** * Histories *)

Lemma exec_canon : forall E st c, el_parent E = false -> el_normal E = false ->
  (forall x, canon (st x)) -> exists st', exec Posix E st c = Ok st' /\ forall x, canon (st' x).
Proof.
  intros E st c HP HN Hst.
  assert (G : forall x r t, gives r t -> exists st', (do p <- r ;; Ok (upd st x p)) = Ok st' /\ forall y, canon (st' y)).
  { intros x r t (q & -> & Hq & _). cbn [bind]. eexists. split; [reflexivity|]. intros y. unfold upd.
    destruct (y =? x); auto. }
  assert (D : forall p, canon p -> gives (Ok p) (native p)) by (intros p Hp; exists p; auto).
  assert (U2 : forall a b x y, canon a -> canon b ->
     exists st', Ok (upd (upd st y b) x a) = Ok st' /\ forall z, canon (st' z)).
  { intros. eexists. split; [reflexivity|]. intros z. unfold upd. destruct (z =? x); auto. destruct (z =? y); auto. }
  destruct c; cbn [exec].
  - eapply G, D, canon_default.
  - eapply G, D. rewrite assign_str_eq. apply canon_mkpath.
  - eapply G, D, Hst.
  - unfold move_assign. rewrite path_eta. apply U2; auto. apply canon_mkpath.
  - unfold move_ctor. apply U2; apply canon_mkpath.
  - unfold swap. rewrite !path_eta. apply U2; auto.
  - eapply G, D, canon_mkpath.
  - eapply G, gives_preferred, Hst.
  - eapply G, gives_append; apply Hst.
  - eapply G, gives_div; apply Hst.
  - eapply G, gives_concat.
  - eapply G, gives_remove_filename; apply Hst.
  - eapply G, gives_replace_filename; apply Hst.
  - eapply G, gives_replace_extension; apply Hst.
  - eapply G, gives_root_name; apply Hst.
  - eapply G, gives_root_directory; apply Hst.
  - eapply G, gives_root_path; apply Hst.
  - eapply G, gives_relative_path; apply Hst.
  - eapply G, gives_parent_path; auto.
  - eapply G, gives_filename; auto.
  - eapply G, gives_stem; auto.
  - eapply G, gives_extension; auto.
  - eapply G, gives_normal; auto.
  - eapply G, gives_relative; auto.
  - eapply G, gives_proximate; auto.
  - eapply G, D, canon_elem; auto.
  - eapply G, D, canon_stream_in; auto.
Qed.

Lemma exec_all_canon : forall E l st, el_parent E = false -> el_normal E = false ->
  (forall x, canon (st x)) -> exists st', exec_all Posix E st l = Ok st' /\ forall x, canon (st' x).
Proof.
  induction l as [|c l IH]; intros st HP HN Hst; cbn [exec_all]; eauto.
  destruct (exec_canon E st c HP HN Hst) as (st1 & -> & H1). cbn [bind]. apply IH; auto.
Qed.

Lemma canon_same : forall p q, canon p -> canon q -> native p = native q ->
  p = q \/ (p = path_default /\ q = mkpath []) \/ (p = mkpath [] /\ q = path_default).
Proof.
  intros p q Hp Hq H.
  destruct (proj1 (canon_cases p Hp)) as [H1|H1], (proj1 (canon_cases q Hq)) as [H2|H2].
  - left. congruence.
  - right. left. split; auto. rewrite H2, <- H, H1. reflexivity.
  - right. right. split; auto. rewrite H1, H, H2. reflexivity.
  - left. rewrite H1, H2, H. reflexivity.
Qed.

(** Equal texts, equal behaviour. *)
Lemma canon_views : forall E p q, el_parent E = false -> el_normal E = false ->
  canon p -> canon q -> native p = native q -> same_view (view_of Posix E p) (view_of Posix E q).
Proof.
  intros E p q HP HN Hp Hq Hpq.
  destruct (shows_canon p Hp) as [Sp _], (shows_canon q Hq) as [Sq _].
  assert (Hel : map native (elems p) = map native (elems q)) by congruence.
  assert (Hgen : generic_string p = generic_string q).
  { destruct (canon_same p q Hp Hq Hpq) as [->|[[-> ->]|[-> ->]]]; reflexivity. }
  assert (V : forall r r' t t', gives r t -> gives r' t' -> t = t' -> text_of r = text_of r').
  { intros r r' t t' H1 H2 ->. rewrite (gives_text _ _ H1), (gives_text _ _ H2). reflexivity. }
  assert (V1 : forall r r' t t', gives (Ok r) t -> gives (Ok r') t' -> t = t' -> native r = native r').
  { intros r r' t t' (a & Ea & _ & <-) (b & Eb & _ & <-) Ht. injection Ea as ->. injection Eb as ->. exact Ht. }
  assert (Vb : forall r r' t t', gives r t -> gives r' t' -> t = t' ->
     (do x <- r ;; Ok (negb (empty x))) = (do x <- r' ;; Ok (negb (empty x)))).
  { intros r r' t t' (a & -> & _ & <-) (b & -> & _ & <-) Ht. cbn [bind]. unfold empty, native in *. rewrite Ht. reflexivity. }
  assert (Vb1 : forall r r' t t', gives (Ok r) t -> gives (Ok r') t' -> t = t' -> empty r = empty r').
  { intros r r' t t' H1 H2 H. unfold empty. fold (native r) (native r'). erewrite V1; eauto. }
  assert (Hemp : empty p = empty q) by (unfold empty; fold (native p) (native q); rewrite Hpq; reflexivity).
  assert (Hrd : has_root_directory Posix E p = has_root_directory Posix E q).
  { unfold has_root_directory. f_equal. eapply Vb1; [apply gives_root_directory; auto..|]. congruence. }
  assert (Hrn : forall r, canon r -> has_root_name r = false).
  { intros r [->|[s ->]]; [reflexivity|apply has_root_name_mkpath]. }
  unfold same_view, view_of; cbn [v_native v_generic v_elements v_hash v_root_name v_root_directory v_root_path
    v_relative_path v_parent_path v_filename v_stem v_extension v_has_root_name v_has_root_directory v_has_root_path
    v_has_relative_path v_has_parent_path v_has_filename v_has_stem v_has_extension v_is_absolute v_empty v_normal
    v_remove_filename v_compare v_append v_append_to v_concat v_replace_filename v_replace_extension v_relative
    v_base v_stream].
  repeat match goal with |- _ /\ _ => split end; auto.
  - intros h. rewrite (hash_shows h p _ eq_refl), (hash_shows h q _ eq_refl), Hel. reflexivity.
  - eapply V1; [apply gives_root_name; auto..|]. reflexivity.
  - eapply V1; [apply gives_root_directory; auto..|]. congruence.
  - eapply V1; [apply gives_root_path; auto..|]. congruence.
  - eapply V; [apply gives_relative_path; auto..|]. congruence.
  - eapply V; [apply gives_parent_path; auto..|]. congruence.
  - eapply V; [apply gives_filename; auto..|]. congruence.
  - eapply V1; [apply gives_stem; auto..|]. congruence.
  - eapply V1; [apply gives_extension; auto..|]. congruence.
  - rewrite !Hrn by auto. reflexivity.
  - unfold has_root_path. f_equal. eapply Vb1; [apply gives_root_path; auto..|]. congruence.
  - eapply Vb; [apply gives_relative_path; auto..|]. congruence.
  - eapply Vb; [apply gives_parent_path; auto..|]. congruence.
  - eapply Vb; [apply gives_filename; auto..|]. congruence.
  - destruct (canon_same p q Hp Hq Hpq) as [->|[[-> ->]|[-> ->]]]; reflexivity.
  - destruct (canon_same p q Hp Hq Hpq) as [->|[[-> ->]|[-> ->]]]; reflexivity.
  - unfold is_absolute. rewrite Hrd, !Hrn by auto. reflexivity.
  - eapply V; [apply gives_normal; auto..|]. rewrite Hpq. reflexivity.
  - eapply V; [apply gives_remove_filename; auto..|]. congruence.
  - intros s. erewrite !compare_shows; [|apply shows_canon; auto|apply shows_mkpath|apply shows_canon; auto|apply shows_mkpath].
    rewrite Hpq. reflexivity.
  - intros s. eapply V; [apply gives_div; auto using canon_mkpath..|]. rewrite Hpq. reflexivity.
  - intros s. eapply V; [apply gives_div; auto using canon_mkpath..|]. rewrite Hpq. reflexivity.
  - intros s. eapply V1; [apply gives_concat..|]. rewrite Hpq. reflexivity.
  - intros s. eapply V; [apply gives_replace_filename; auto using canon_mkpath..|]. rewrite Hpq. reflexivity.
  - intros s. eapply V; [apply gives_replace_extension; auto using canon_mkpath..|]. rewrite Hpq. reflexivity.
  - intros s. eapply V; [apply gives_relative; auto using canon_mkpath..|]. rewrite Hpq. reflexivity.
  - intros s. eapply V; [apply gives_relative; auto using canon_mkpath..|]. rewrite Hpq. reflexivity.
  - unfold stream_out. fold (native p) (native q). rewrite Hpq. reflexivity.
Qed.
