(** C60: file descriptors and directory streams. Every operation closes what it opens, closes nothing twice and
    uses nothing it does not hold, on every path including exceptions. Library model: [OpsModel.v]
    and [DirModel.v]; this file adds the bookkeeping only. *)
From Coq Require Import Ascii String Bool Arith NArith ZArith Lia Permutation List.
From Verif Require Import Str PathModel FlagsModel TimeModel Prog DirModel OpsModel OpsProofs OpsProps.
Import ListNotations.

(** * Specification: handles along a trace of calls *)

Inductive handle := HFd (fd : N) | HDir (d : N).
Definition handle_eq_dec : forall a b : handle, {a = b} + {a <> b}.
Proof. decide equality; apply N.eq_dec. Defined.
Arguments handle_eq_dec : simpl never.

Inductive event := Ev (c : call) (r : answer c).

(** The handle a call creates. *)
Definition opens (e : event) : list handle :=
  match e with
  | Ev (c_open _ _ _) (Val fd) => [HFd fd]
  | Ev (c_opendir _) (Val d) => [HDir d]
  | _ => []
  end.
(** The handle it ends. *)
Definition ends (c : call) : list handle :=
  match c with c_close fd => [HFd fd] | c_closedir d => [HDir d] | _ => [] end.
(** The handles it works on, including the one it ends. *)
Definition uses (c : call) : list handle :=
  match c with
  | c_close fd | c_ftruncate fd _ | c_fchmod fd _ | c_read fd _ | c_write fd _ => [HFd fd]
  | c_sendfile a b _ => [HFd a; HFd b]
  | c_readdir d | c_closedir d => [HDir d]
  | _ => []
  end.

Fixpoint remove_one (x : handle) (l : list handle) : list handle :=
  match l with [] => [] | y :: r => if handle_eq_dec x y then r else y :: remove_one x r end.

(** The handles held after a trace, [None] if one is used while not held. *)
Definition step (held : list handle) (e : event) : option (list handle) :=
  match e with
  | Ev c r =>
      if forallb (fun x => if in_dec handle_eq_dec x held then true else false) (uses c)
      then Some (opens e ++ fold_right remove_one held (ends c)) else None
  end.
Fixpoint held_after (held : list handle) (l : list event) : option (list handle) :=
  match l with
  | [] => Some held
  | e :: r => match step held e with Some h => held_after h r | None => None end
  end.

(** A kernel that also records the calls it answers. *)
Definition traced {S} (h : kernel S) : kernel (S * list event) :=
  fun c sl => let '(r, s') := h c (fst sl) in (r, (s', snd sl ++ [Ev c r])).

(** [p] is started with the handles [before]. It uses only handles it holds at that time; when it returns
    [a] it holds [after a] and when it throws it holds [thrown], up to order. *)
Definition handles_safe {A} (p : prog A) (before : list handle) (after : A -> list handle) (thrown : list handle) : Prop :=
  forall S (h : kernel S) s,
  match run (traced h) p (s, []) with
  | Done a (_, l) => exists held, held_after before l = Some held /\ Permutation held (after a)
  | Failed (FThrow _ _) (_, l) | Failed (FPath _) (_, l) => exists held, held_after before l = Some held /\ Permutation held thrown
  | Failed _ (_, l) => exists held, held_after before l = Some held
  end.

(** * Proof *)

Fixpoint wp {A} (p : prog A) (held : list handle) (post : A -> list handle -> Prop) (ex : list handle -> Prop) : Prop :=
  match p with
  | Ret a => post a held
  | Stop f => if unwinds f then ex held else True
  | Sys c k => forall r, exists held', step held (Ev c r) = Some held' /\ wp (k r) held' post ex
  end.



Lemma held_after_app : forall l l' held, held_after held (l ++ l') = match held_after held l with Some x => held_after x l' | None => None end.
Proof. induction l; intros; cbn; auto. destruct (step held a); auto. Qed.

Lemma wp_run : forall A (p : prog A) held post ex, wp p held post ex ->
  forall S (h : kernel S) s l0 before, held_after before l0 = Some held ->
  match run (traced h) p (s, l0) with
  | Done a (_, l) => exists x, held_after before l = Some x /\ post a x
  | Failed (FThrow _ _) (_, l) | Failed (FPath _) (_, l) => exists x, held_after before l = Some x /\ ex x
  | Failed _ (_, l) => exists x, held_after before l = Some x
  end.
Proof.
  intros A p. induction p as [a|f|c k IH]; intros held post ex H S h s l0 before Hl; cbn in H.
  - cbn. eauto.
  - cbn. destruct f; cbn in H; exists held; auto.
  - cbn [run]. unfold traced at 1. cbn [fst snd]. destruct (h c s) as [r s1]. destruct (H r) as (x & Hx & Hw).
    apply (IH r x post ex Hw S h s1). rewrite held_after_app, Hl. cbn. cbn in Hx. rewrite Hx. reflexivity.
Qed.

Lemma wp_mono : forall A (p : prog A) held (post post' : A -> list handle -> Prop) (ex ex' : list handle -> Prop),
  wp p held post ex -> (forall a l, post a l -> post' a l) -> (forall l, ex l -> ex' l) -> wp p held post' ex'.
Proof.
  intros A p. induction p as [a|f|c k IH]; intros held post post' ex ex' H Hp He; cbn in *; auto.
  - destruct (unwinds f); auto.
  - intros r. destruct (H r) as (x & Hx & Hw). exists x. split; eauto.
Qed.

Lemma wp_safe : forall A (p : prog A) before after thrown,
  wp p before (fun a l => Permutation l (after a)) (fun l => Permutation l thrown) -> handles_safe p before after thrown.
Proof.
  intros A p before after thrown H S h s.
  pose proof (wp_run _ p before _ _ H S h s [] before eq_refl) as Hr. exact Hr.
Qed.

Lemma wp_bind : forall A B (p : prog A) (f : A -> prog B) held post ex,
  wp p held (fun a l => wp (f a) l post ex) ex -> wp (pbind p f) held post ex.
Proof.
  intros A B p f. induction p as [a|x|c k IH]; intros held post ex H; cbn in *; auto.
  intros r. destruct (H r) as (y & Hy & Hw). exists y. auto.
Qed.

Lemma wp_scoped : forall A (p : prog A) c held post ex,
  wp p held (fun a l => wp c l (fun _ => post a) ex) (fun l => wp c l (fun _ => ex) ex) ->
  wp (scoped p c) held post ex.
Proof.
  intros A p c. induction p as [a|x|q k IH]; intros held post ex H; cbn in *.
  - apply wp_bind. exact H.
  - destruct (unwinds x) eqn:Hx; cbn; [|rewrite Hx; auto]. apply wp_bind. eapply wp_mono; [exact H| |auto].
    intros u l Hl. cbn. rewrite Hx. exact Hl.
  - intros r. destruct (H r) as (y & Hy & Hw). exists y. auto.
Qed.

Lemma wp_unwinding : forall A (p : prog A) c held post ex,
  wp p held post (fun l => wp c l (fun _ => ex) ex) -> wp (unwinding p c) held post ex.
Proof.
  intros A p c. induction p as [a|x|q k IH]; intros held post ex H; cbn in *; auto.
  - destruct (unwinds x) eqn:Hx; cbn; [|rewrite Hx; auto]. apply wp_bind. eapply wp_mono; [exact H| |auto].
    intros u l Hl. cbn. rewrite Hx. exact Hl.
  - intros r. destruct (H r) as (y & Hy & Hw). exists y. auto.
Qed.

(** Programs that touch no handle. *)
Definition untouching (c : call) : bool :=
  match c with c_open _ _ _ | c_opendir _ => false | _ => is_nil (uses c) end.
Fixpoint clean {A} (p : prog A) : Prop :=
  match p with Ret _ => True | Stop _ => True | Sys c k => untouching c = true /\ forall r, clean (k r) end.

Lemma step_clean : forall c r held, untouching c = true -> step held (Ev c r) = Some held.
Proof. intros c r held H. destruct c; cbn in *; try discriminate; reflexivity. Qed.

Lemma wp_clean : forall A (p : prog A) held (post : A -> list handle -> Prop) (ex : list handle -> Prop),
  clean p -> (forall a, post a held) -> ex held -> wp p held post ex.
Proof.
  intros A p. induction p as [a|f|c k IH]; intros held post ex Hc Hp He; cbn in *; auto.
  - destruct (unwinds f); auto.
  - destruct Hc as [Hc Hk]. intros r. exists held. split; auto. exact (step_clean c r held Hc).
Qed.

Lemma clean_bind : forall A B (p : prog A) (f : A -> prog B), clean p -> (forall a, clean (f a)) -> clean (pbind p f).
Proof. intros A B p f Hp Hf. induction p as [a|x|c k IH]; cbn in *; auto. destruct Hp. auto. Qed.
Lemma clean_lift : forall A (x : out A), clean (lift x).
Proof. intros A []; exact I. Qed.
Lemma clean_assert : forall d c, clean (asap_assert d c).
Proof. intros. unfold asap_assert. destruct (d && negb c); exact I. Qed.
Lemma clean_report : forall A h ps (v : A) e, clean (report h ps v e).
Proof. intros. unfold report. destruct h; exact I. Qed.

Create HintDb clean.
#[export] Hint Resolve clean_lift clean_assert clean_report : clean.
Ltac cl1 :=
  match goal with
  | |- clean (pbind _ _) => apply clean_bind; [|intros]
  | |- clean (Ret _) => exact I
  | |- clean (Stop _) => exact I
  | |- clean (Sys _ _) => split; [reflexivity|intros]
  | |- clean (let '(_, _) := ?x in _) => destruct x
  | |- clean (match ?x with _ => _ end) => destruct x
  | |- clean _ => solve [auto with clean]
  end.
Ltac cl := repeat cl1.

Section Ops.
Variable cf : config.

Lemma clean_get_status : forall h p, clean (GetFileStatus h p).
Proof. intros. unfold GetFileStatus, CreateFileStatus. cl. Qed.
Lemma clean_get_link_status : forall h p, clean (GetLinkStatus h p).
Proof. intros. unfold GetLinkStatus, CreateFileStatus. cl. Qed.
Hint Resolve clean_get_status clean_get_link_status : clean.
Lemma clean_status : forall h p, clean (status_impl h p).
Proof. intros. unfold status_impl. cl. Qed.
Lemma clean_symlink_status : forall h p, clean (symlink_status_impl h p).
Proof. intros. unfold symlink_status_impl. cl. Qed.
Lemma clean_extract : forall h p st, clean (ExtractLastWriteTime cf h p st).
Proof. intros. unfold ExtractLastWriteTime. cl. Qed.
Hint Resolve clean_status clean_symlink_status clean_extract : clean.
Lemma clean_basic : forall h f e, clean (UpdateBasicFileInformation cf h f e).
Proof. intros. unfold UpdateBasicFileInformation. cl. Qed.
Hint Resolve clean_basic : clean.
Lemma clean_handle : forall h p c a, clean (HandleError h p c a).
Proof. intros. unfold HandleError. cl. Qed.
Hint Resolve clean_handle : clean.
Lemma clean_symlink_type : forall h e, clean (GetSymLinkFileType cf h e).
Proof. intros. unfold GetSymLinkFileType. cl. Qed.
Lemma clean_file_type : forall h e, clean (GetFileType cf h e).
Proof. intros. unfold GetFileType. cl. Qed.
Hint Resolve clean_symlink_type clean_file_type : clean.

(** Programs that throw nothing and touch no handle. *)
Fixpoint calm {A} (p : prog A) : Prop :=
  match p with Ret _ => True | Stop f => unwinds f = false | Sys c k => untouching c = true /\ forall r, calm (k r) end.
Lemma wp_calm : forall A (p : prog A) held (post : A -> list handle -> Prop) (ex : list handle -> Prop),
  calm p -> (forall a, post a held) -> wp p held post ex.
Proof.
  intros A p. induction p as [a|f|c k IH]; intros held post ex Hc Hp; cbn in *; auto.
  - rewrite Hc. exact I.
  - destruct Hc as [Hc Hk]. intros r. exists held. split; auto. exact (step_clean c r held Hc).
Qed.
Lemma calm_bind : forall A B (p : prog A) (f : A -> prog B), calm p -> (forall a, calm (f a)) -> calm (pbind p f).
Proof. intros A B p f Hp Hf. induction p as [a|x|c k IH]; cbn in *; auto. destruct Hp. auto. Qed.
Definition no_throw {A} (x : out A) : Prop := match x with Throw _ => False | _ => True end.
Lemma no_throw_bind : forall A B (x : out A) (f : A -> out B), no_throw x -> (forall a, no_throw (f a)) -> no_throw (bind x f).
Proof. intros A B [] f H Hf; cbn in *; auto. Qed.
Lemma no_throw_sint : forall m z, no_throw (sint m z).
Proof. intros. unfold sint. destruct (in_i64 z); [exact I|]. destruct m; exact I. Qed.
Lemma no_throw_calm : forall A (x : out A), no_throw x -> calm (lift x).
Proof. intros A [] H; cbn in *; auto. destruct H. Qed.
Lemma calm_extract : forall p st, calm (ExtractLastWriteTime cf true p st).
Proof.
  intros. unfold ExtractLastWriteTime. apply calm_bind; [|intros []; exact I]. apply no_throw_calm.
  unfold extract_last_write_time. apply no_throw_bind.
  - unfold FileTimeIsRepresentable. destruct (0 <=? _)%Z; [exact I|]. apply no_throw_bind; [apply no_throw_sint|].
    intros b. destruct (_ =? _)%Z; exact I.
  - intros []; [|exact I]. apply no_throw_bind; [|intros; exact I]. unfold FileTimeTypeFromPosixTimeSpec, to_ns.
    destruct (_ || _); repeat (apply no_throw_bind; [apply no_throw_sint|intros]); apply no_throw_sint.
Qed.
Create HintDb calm.
Lemma calm_basic : forall f e, calm (UpdateBasicFileInformation cf true f e).
Proof.
  intros. unfold UpdateBasicFileInformation. apply calm_bind.
  { unfold GetFileStatus. split; [reflexivity|]. intros r. apply calm_bind; [|intros; exact I].
    unfold CreateFileStatus. destruct r; [|exact I]. destruct (_ || _); exact I. }
  intros [[a b] c]. cbn [fst snd]. destruct (_ && _); [exact I|]. apply calm_bind; [|intros; exact I].
  destruct (st_exists a); [|exact I]. apply calm_bind; [apply calm_extract|intros; exact I].
Qed.
Lemma calm_symlink_type : forall e, calm (GetSymLinkFileType cf true e).
Proof.
  intros. unfold GetSymLinkFileType. apply calm_bind.
  { destruct (cache_eqb _ _); [|exact I]. apply calm_bind; [apply calm_basic|intros; exact I]. }
  intros [[[] ec] e1]; [exact I|]. destruct (cd_symlink _); [exact I|]. destruct (negb _); exact I.
Qed.
Lemma calm_file_type : forall e, calm (GetFileType cf true e).
Proof.
  intros. unfold GetFileType. apply calm_bind; [|intros [? ?]; exact I].
  destruct (cd_cache _); try exact I; try apply calm_basic. destruct (negb _); [apply calm_basic|exact I].
Qed.
Hint Resolve calm_symlink_type calm_file_type : calm.

(** ** copy_file *)

Lemma step_use : forall c r held, ends c = [] -> opens (Ev c r) = [] -> (forall x, In x (uses c) -> In x held) ->
  step held (Ev c r) = Some held.
Proof.
  intros c r held He Ho Hu. unfold step. rewrite He, Ho. cbn.
  replace (forallb _ (uses c)) with true; auto. symmetry. apply forallb_forall. intros x Hx.
  destruct (in_dec handle_eq_dec x held) as [|n]; [reflexivity|destruct (n (Hu x Hx))].
Qed.

Lemma step_close_fd : forall fd r l, step (HFd fd :: l) (Ev (c_close fd) r) = Some l.
Proof.
  intros. unfold step. cbn -[in_dec handle_eq_dec]. destruct (in_dec handle_eq_dec (HFd fd) (HFd fd :: l)) as [|n]; [|exfalso; apply n; left; auto].
  cbn -[handle_eq_dec]. destruct (handle_eq_dec (HFd fd) (HFd fd)); [reflexivity|congruence].
Qed.
Lemma step_closedir : forall d r l, step (HDir d :: l) (Ev (c_closedir d) r) = Some l.
Proof.
  intros. unfold step. cbn -[in_dec handle_eq_dec]. destruct (in_dec handle_eq_dec (HDir d) (HDir d :: l)) as [|n]; [|exfalso; apply n; left; auto].
  cbn -[handle_eq_dec]. destruct (handle_eq_dec (HDir d) (HDir d)); [reflexivity|congruence].
Qed.

Lemma wp_close_fd : forall fd l (post : unit -> list handle -> Prop) ex, post tt l -> wp (close_fd fd) (HFd fd :: l) post ex.
Proof. intros. cbn -[step]. intros r. exists l. split; auto using step_close_fd. Qed.

Lemma wp_sendfile : forall n r w c held (post : bool * ecode -> list handle -> Prop) ex,
  In (HFd r) held -> In (HFd w) held -> (forall a, post a held) -> wp (sendfile_loop n r w c) held post ex.
Proof.
  induction n; intros r w c held post ex Hr Hw Hp; cbn -[step]; auto.
  intros a. exists held. split; [apply step_use; auto; cbn; intros x [<-|[<-|[]]]; auto|].
  destruct a; cbn; auto. destruct (0 <? c - a)%Z; cbn; auto.
Qed.
Lemma wp_default : forall n r w held (post : bool * ecode -> list handle -> Prop) ex,
  In (HFd r) held -> In (HFd w) held -> (forall a, post a held) -> wp (do_copy_file_default n r w) held post ex.
Proof.
  induction n; intros r w held post ex Hr Hw Hp; cbn -[step]; auto.
  intros a. exists held. split; [apply step_use; auto; cbn; intros x [<-|[]]; auto|].
  destruct a as [e|[|x d]]; cbn -[step]; auto.
  intros b. exists held. split; [apply step_use; auto; cbn; intros y [<-|[]]; auto|]. destruct b; cbn; auto.
Qed.
Lemma wp_do_copy_file : forall n r w z held (post : bool * ecode -> list handle -> Prop) ex,
  In (HFd r) held -> In (HFd w) held -> (forall a, post a held) -> wp (do_copy_file cf n r w z) held post ex.
Proof.
  intros. unfold do_copy_file, do_copy_file_sendfile. destruct (cf_sendfile cf); [|apply wp_default; auto].
  apply wp_bind. assert (Hn : forall a : bool * ecode, wp (if fst a then Ret (true, snd a) else do_copy_file_default n r w) held post ex).
  { intros [[] e]; cbn; auto. apply wp_default; auto. }
  destruct (_ || _); [apply (Hn (false, None))|]. apply wp_sendfile; auto.
Qed.

Ltac wclean := apply wp_clean; [cl| |]; auto.

Lemma wp_copy_body : forall n has p q r w a b x base (post : bool * ecode -> list handle -> Prop) (ex : list handle -> Prop),
  let held := HFd w :: HFd r :: base in
  (forall v, post v held) -> ex held -> wp (copy_file_body cf n has p q r w a b x) held post ex.
Proof.
  intros n has p q r w a b x base post ex held Hp Hx. unfold copy_file_body, refresh_status.
  assert (Hc : wp (let! c := do_copy_file cf n r w (st_size a) in if fst c then Ret (true, None) else report has [q; p] false (snd c)) held post ex).
  { apply wp_bind. apply wp_do_copy_file; [right; left; auto|left; auto|]. intros [[] e]; cbn; auto. wclean. }
  assert (Hb : forall e, wp (report has [q; p] false e) held post ex) by (intros; wclean).
  apply wp_bind. apply wp_clean; [cl| |auto]. intros [[f s] e]. cbn [fst snd].
  destruct (failed e); [apply Hb|]. destruct x; [|exact Hc]. destruct (negb _); [apply Hb|].
  cbn -[step]. intros r1. exists held. split; [apply step_use; auto; intros y [<-|[]]; left; auto|]. destruct r1; [apply Hb|].
  cbn -[step]. intros r2. exists held. split; [apply step_use; auto; intros y [<-|[]]; left; auto|]. destruct r2; [apply Hb|]. exact Hc.
Qed.

Lemma wp_copy_from : forall n has p q o r base (post : bool * ecode -> list handle -> Prop) (ex : list handle -> Prop),
  let held := HFd r :: base in
  (forall v, post v held) -> ex held -> wp (copy_file_from cf n has p q o r) held post ex.
Proof.
  intros n has p q o r base post ex held Hp Hx. unfold copy_file_from, refresh_status.
  assert (Hb : forall e, wp (report has [q; p] false e) held post ex) by (intros; wclean).
  apply wp_bind. apply wp_clean; [cl| |auto]. intros [[f s] e].
  destruct (failed e); [apply Hb|]. destruct (negb _); [apply Hb|].
  apply wp_bind. apply wp_clean; [cl| |auto]. intros [[f0 s0] e0].
  destruct (negb _); [apply Hb|]. destruct (_ && _); [apply Hb|]. destruct (_ && _); [apply Hb|].
  destruct (_ && _); [cbn; auto|]. apply wp_bind. apply wp_clean; [cl| |auto].
  intros [b e1]. cbn [fst snd]. destruct (negb b); [cbn; auto|].
  cbn -[step copy_file_body]. intros r1. destruct r1 as [e2|w].
  - exists held. split; [reflexivity|apply Hb].
  - exists (HFd w :: held). split; [reflexivity|]. apply wp_scoped. apply wp_copy_body.
    + intros v. apply wp_close_fd. apply Hp.
    + apply wp_close_fd. exact Hx.
Qed.

Lemma wp_copy_file : forall n has p q o held (post : bool * ecode -> list handle -> Prop) (ex : list handle -> Prop),
  (forall v, post v held) -> ex held -> wp (copy_file_impl cf n has p q o) held post ex.
Proof.
  intros n has p q o held post ex Hp Hx. unfold copy_file_impl. cbn -[step copy_file_from].
  intros r1. destruct r1 as [e2|w].
  - exists held. split; [reflexivity|]. wclean.
  - exists (HFd w :: held). split; [reflexivity|]. apply wp_scoped. apply wp_copy_from.
    + intros v. apply wp_close_fd. apply Hp.
    + apply wp_close_fd. exact Hx.
Qed.

(** ** Iterators *)

Definition stream_handles (s : dstream) : list handle := match ds_handle s with Some d => [HDir d] | None => [] end.
Definition iter_handles (it : dir_iter) : list handle := match it with Some s => stream_handles s | None => [] end.

Lemma div_no_throw : forall E a b e, path_div Posix E a b <> Throw e.
Proof.
  intros E a b e. unfold path_div, path_append, has_filename, filename.
  repeat match goal with |- context [if ?x then _ else _] => destruct x; cbn; try discriminate
                       | |- context [match ?x with _ => _ end] => destruct x; cbn; try discriminate end.
Qed.

Lemma wp_div : forall E a b held (post : path -> list handle -> Prop) ex, (forall q, post q held) -> wp (lift (path_div Posix E a b)) held post ex.
Proof.
  intros. pose proof (div_no_throw E a b) as Hn. destruct (path_div Posix E a b); cbn; auto. exfalso. eapply Hn; eauto.
Qed.

Lemma wp_advance : forall n s d base (post : bool * ecode * dstream -> list handle -> Prop) (ex : list handle -> Prop),
  ds_handle s = Some d ->
  (forall e, post (true, None, Stream (Some d) (ds_root s) e) (HDir d :: base)) ->
  (forall ec, post (false, ec, Stream None (ds_root s) (ds_entry s)) base) ->
  wp (advance cf n s) (HDir d :: base) post ex.
Proof.
  induction n; intros s d base post ex Hs Ht Hf; cbn [advance]; [exact I|]. rewrite Hs.
  apply wp_bind. unfold posix_readdir. intros r.
  exists (HDir d :: base). split; [apply step_use; auto; intros y [<-|[]]; left; auto|].
  set (k := fun (x : str * file_type * ecode) (l : list handle) => _).
  assert (Hk : forall nm t ec, k (nm, t, ec) (HDir d :: base)).
  { intros nm t ec. unfold k. destruct (str_eqb nm (lit ".") || str_eqb nm (lit "..")); [apply IHn; auto|].
    destruct (failed ec || is_nil nm) eqn:Hfa.
    - cbn -[step]. intros r0. exists base. split; [apply step_closedir|apply Hf].
    - destruct ec; [discriminate|]. apply wp_bind. apply wp_div. intros q. cbn. apply Ht. }
  destruct r as [e|[[nm t]|]]; cbn [wp]; try apply Hk.
  apply wp_bind. destruct t; first [exact I|apply Hk].
Qed.

Lemma wp_stream_ctor : forall n p o base (post : ecode * dstream -> list handle -> Prop) (ex : list handle -> Prop),
  (forall ec s, (good s = true -> ec = None) -> post (ec, s) (stream_handles s ++ base)) -> wp (stream_ctor cf n p o) base post ex.
Proof.
  intros n p o base post ex H. unfold stream_ctor. cbn -[step advance]. intros r. destruct r as [e|d].
  - exists base. split; [reflexivity|]. cbn. apply (H _ (Stream None p entry_default)). discriminate.
  - exists (HDir d :: base). split; [reflexivity|]. apply wp_bind. apply wp_advance; [reflexivity| |].
    + intros e. cbn. apply (H None (Stream (Some d) p e)). reflexivity.
    + intros ec. cbn. apply (H ec (Stream None p entry_default)). discriminate.
Qed.

Lemma wp_iter_ctor : forall n has p o base (post : dir_iter * ecode -> list handle -> Prop) (ex : list handle -> Prop),
  (forall s, good s = true -> post (Some s, None) (stream_handles s ++ base)) -> (forall ec, post (None, ec) base) -> ex base ->
  wp (dir_iter_ctor cf n has p o) base post ex.
Proof.
  intros n has p o base post ex H Hn He. unfold dir_iter_ctor. apply wp_bind. apply wp_stream_ctor. intros ec s Hg.
  unfold stream_handles, good in *. destruct (ds_handle s) as [d|] eqn:Hd; cbn [app].
  - rewrite Hg by reflexivity. specialize (H s). unfold good, stream_handles in H. rewrite Hd in H. cbn. destruct has; apply H; reflexivity.
  - destruct (failed ec); cbn; auto. unfold report. destruct has; cbn; auto.
Qed.

Lemma wp_iter_increment : forall n has s base (post : dir_iter * ecode -> list handle -> Prop) (ex : list handle -> Prop),
  good s = true ->
  (forall s1, good s1 = true -> post (Some s1, None) (stream_handles s1 ++ base)) -> (forall ec, post (None, ec) base) -> ex base ->
  wp (dir_iter_increment cf n has (Some s)) (stream_handles s ++ base) post ex.
Proof.
  intros n has s base post ex Hg H Hn He. unfold dir_iter_increment, stream_handles, good in *. destruct (ds_handle s) as [d|] eqn:Hd; [|discriminate].
  apply wp_bind. apply wp_advance; auto.
  - intros e. cbn. apply (H (Stream (Some d) (ds_root s) e)). reflexivity.
  - intros ec. cbn. destruct (failed ec); cbn; auto. unfold report. destruct has; cbn; auto.
Qed.

Lemma wp_destroy : forall s base (post : unit -> list handle -> Prop) (ex : list handle -> Prop),
  post tt base -> wp (stream_destroy s) (stream_handles s ++ base) post ex.
Proof.
  intros. unfold stream_destroy, stream_handles. destruct (ds_handle s); cbn [app]; [|exact H].
  cbn -[step]. intros r. exists base. split; [apply step_closedir|auto].
Qed.

(** ** is_empty, copy, remove_all *)

Lemma wp_is_empty : forall n has p held (post : bool * ecode -> list handle -> Prop) (ex : list handle -> Prop),
  (forall v, post v held) -> ex held -> wp (is_empty_impl cf n has p) held post ex.
Proof.
  intros n has p held post ex Hp Hx. unfold is_empty_impl. apply wp_bind. apply wp_clean; [cl| |auto]. intros [[f s] e].
  destruct (failed e); [wclean|]. destruct (_ && _); [wclean|]. destruct (st_is_directory f); [|cbn; auto].
  unfold is_empty_directory. apply wp_bind. apply wp_iter_ctor; auto.
  - intros s0 Hg. cbn [fst snd failed]. apply wp_bind. apply wp_destroy. cbn. auto.
  - intros ec. cbn [fst snd]. destruct ec; cbn; auto.
Qed.

Lemma clean_create_symlink : forall h p q, clean (create_symlink_impl h p q).
Proof. intros. unfold create_symlink_impl, simple. cl. Qed.
Lemma clean_create_hard_link : forall h p q, clean (create_hard_link_impl h p q).
Proof. intros. unfold create_hard_link_impl, simple. cl. Qed.
Lemma clean_create_directory_like : forall h p q, clean (create_directory_like_impl h p q).
Proof. intros. unfold create_directory_like_impl. cl. Qed.
Lemma clean_read_symlink : forall h p, clean (read_symlink_impl cf h p).
Proof. intros. unfold read_symlink_impl. cl. Qed.
Hint Resolve clean_create_symlink clean_create_hard_link clean_create_directory_like clean_read_symlink : clean.
Lemma clean_copy_symlink : forall h p q, clean (copy_symlink_impl cf h p q).
Proof. intros. unfold copy_symlink_impl. cl. Qed.
Lemma clean_remove : forall h p, clean (remove_impl h p).
Proof. intros. unfold remove_impl. cl. Qed.
Hint Resolve clean_copy_symlink clean_remove : clean.

Lemma wp_copy_loop : forall (rec : path -> path -> prog (unit * ecode)) n has p q k it m base (post : unit * ecode -> list handle -> Prop) (ex : list handle -> Prop),
  (forall a b held (po : unit * ecode -> list handle -> Prop) (e : list handle -> Prop), (forall v, po v held) -> e held -> wp (rec a b) held po e) ->
  (forall v, post v base) -> ex base ->
  match it with Some s => good s = true | None => True end ->
  wp (copy_loop cf rec n has p q k it m) (iter_handles it ++ base) post ex.
Proof.
  intros rec n has p q k. induction k as [|k IH]; intros it m base post ex Hrec Hp He Hg; cbn [copy_loop]; [exact I|].
  destruct it as [s|]; cbn [is_end iter_handles dir_iter_destroy]; [|cbn; auto].
  destruct (failed m).
  - apply wp_scoped. apply wp_clean; [cl| |]; intros; apply wp_destroy; auto.
  - apply wp_bind. apply wp_unwinding.
    assert (Hd : forall (po : unit -> list handle -> Prop) e, po tt base -> wp (stream_destroy s) (stream_handles s ++ base) po e).
    { intros. apply wp_destroy; auto. }
    apply wp_bind. apply wp_clean; [unfold dir_iter_deref; cl| |apply Hd; auto]. intros e.
    apply wp_bind. apply wp_clean; [cl| |apply Hd; auto]. intros fn.
    apply wp_bind. apply wp_clean; [cl| |apply Hd; auto]. intros to2.
    apply Hrec; [|apply Hd; auto]. intros [u ec]. cbn [snd]. destruct (failed ec).
    + apply wp_bind. apply wp_destroy. cbn. auto.
    + apply wp_bind. apply wp_iter_increment; auto.
      * intros s1 Hs1. cbn [fst snd]. apply (IH (Some s1)); auto.
      * intros ec1. cbn [fst snd]. apply (IH None); auto.
Qed.

Lemma wp_copy : forall n has p q o held (post : unit * ecode -> list handle -> Prop) (ex : list handle -> Prop),
  (forall v, post v held) -> ex held -> wp (copy_impl cf n has p q o) held post ex.
Proof.
  induction n as [|n IH]; intros has p q o held post ex Hp He; cbn [copy_impl]; [exact I|].
  apply wp_bind. apply wp_clean; [cl| |auto]. intros [[f fs] e1]. destruct (failed e1); [wclean|].
  apply wp_bind. apply wp_clean; [cl| |auto]. intros [[t ts] e2]. destruct (negb _); [wclean|].
  destruct (_ || _ || _ || _ || _); [wclean|]. destruct (st_is_symlink f); [wclean|].
  destruct (st_is_regular_file f).
  { destruct (co_set _ _); [cbn; auto|]. destruct (co_set _ _); [wclean|]. destruct (co_set _ _); [wclean|].
    destruct (st_is_directory t).
    - do 2 (apply wp_bind; apply wp_clean; [cl| |auto]; intros ?). apply wp_bind. apply wp_copy_file; auto. intros; cbn; auto.
    - apply wp_bind. apply wp_copy_file; auto. intros; cbn; auto. }
  destruct (_ && _); [wclean|]. destruct (_ && _); [|cbn; auto].
  apply wp_bind. apply wp_clean; [cl| |auto]. intros [b e3]. cbn [snd]. destruct (failed e3); [cbn; auto|].
  apply wp_bind. apply wp_iter_ctor; auto.
  - intros s Hg. cbn [fst snd failed]. apply (wp_copy_loop (fun a b => copy_impl cf n has a b o) n has p q n (Some s)); auto.
  - intros ec. cbn [fst snd]. destruct ec; cbn [failed]; [cbn; auto|].
    apply (wp_copy_loop (fun a b => copy_impl cf n has a b o) n has p q n None); auto.
Qed.

Lemma wp_remove_loop : forall (rec : path -> prog (Z * ecode)) n k it ec c base (post : Z * ecode -> list handle -> Prop) (ex : list handle -> Prop),
  (forall a held (po : Z * ecode -> list handle -> Prop) (e : list handle -> Prop), (forall v, po v held) -> e held -> wp (rec a) held po e) ->
  (forall v, post v base) -> ex base ->
  match it with Some s => good s = true /\ ec = None | None => True end ->
  wp (remove_loop cf rec n k it ec c) (iter_handles it ++ base) post ex.
Proof.
  intros rec n k. induction k as [|k IH]; intros it ec c base post ex Hrec Hp He Hg; cbn [remove_loop]; [exact I|].
  destruct it as [s|]; cbn [is_end iter_handles dir_iter_destroy]; [|rewrite orb_true_r; cbn; auto].
  destruct Hg as [Hg ->]. cbn [failed orb].
  apply wp_bind. apply wp_unwinding.
  assert (Hd : forall (po : unit -> list handle -> Prop) e, po tt base -> wp (stream_destroy s) (stream_handles s ++ base) po e).
  { intros. apply wp_destroy; auto. }
  apply wp_bind. apply wp_clean; [unfold dir_iter_deref; cl| |apply Hd; auto]. intros e.
  apply Hrec; [|apply Hd; auto]. intros [u ec]. cbn [fst snd]. destruct (failed ec).
  + apply wp_bind. apply wp_destroy. cbn. auto.
  + apply wp_bind. apply wp_iter_increment; auto.
    * intros s1 Hs1. cbn [fst snd]. apply (IH (Some s1)); auto.
    * intros ec1. cbn [fst snd]. apply (IH None); auto.
Qed.

Lemma wp_do_remove_all : forall n p held (post : Z * ecode -> list handle -> Prop) (ex : list handle -> Prop),
  (forall v, post v held) -> ex held -> wp (do_remove_all_impl cf n p) held post ex.
Proof.
  induction n as [|n IH]; intros p held post ex Hp He; cbn [do_remove_all_impl]; [exact I|].
  apply wp_bind. apply wp_clean; [cl| |auto]. intros [f e1]. cbn [fst snd]. destruct (failed e1); [cbn; auto|].
  assert (Ht : forall v : Z * ecode, wp (if failed (snd v) then Ret (u64_max, snd v)
     else let! r := remove_impl true p in if fst r then Ret (fst v, None) else Ret (u64_max, snd r)) held post ex).
  { intros [c e]. cbn [fst snd]. destruct (failed e); [cbn; auto|]. wclean. }
  apply wp_bind. destruct (st_is_directory f); [|cbn; apply (Ht (1%Z, None))].
  apply wp_bind. apply wp_iter_ctor; auto.
  - intros s Hg. cbn [fst snd]. apply (wp_remove_loop (do_remove_all_impl cf n) n n (Some s)); auto.
  - intros ec. cbn [fst snd]. apply (wp_remove_loop (do_remove_all_impl cf n) n n None); auto.
Qed.

Lemma wp_remove_all : forall n has p held (post : Z * ecode -> list handle -> Prop) (ex : list handle -> Prop),
  (forall v, post v held) -> ex held -> wp (remove_all_impl cf n has p) held post ex.
Proof.
  intros n has p held post ex Hp He. unfold remove_all_impl. destruct (empty p); [cbn; auto|].
  apply wp_bind. apply wp_do_remove_all; auto. intros [c [e|]]; cbn [fst snd]; [|cbn; auto].
  destruct (errno_eqb e ENOENT); [cbn; auto|]. wclean.
Qed.

(** ** Recursive iterators: the handles of a stack, up to order *)

Definition stack_handles (st : list dstream) : list handle := flat_map stream_handles st.
Definition rdir_handles (it : rdir_iter) : list handle :=
  match r_impl it with Some (st, _) => stack_handles st | None => [] end.

Lemma step_closedir_in : forall d r l, In (HDir d) l -> exists l', step l (Ev (c_closedir d) r) = Some l' /\ Permutation l (HDir d :: l').
Proof.
  intros d r l H. unfold step. cbn -[in_dec handle_eq_dec]. destruct (in_dec handle_eq_dec (HDir d) l) as [_|n]; [|contradiction].
  eexists. split; [reflexivity|]. cbn. clear r. induction l as [|x l IH]; [destruct H|].
  cbn. destruct (handle_eq_dec (HDir d) x) as [->|n]; [reflexivity|].
  destruct H as [->|H]; [congruence|]. rewrite perm_swap. constructor. auto.
Qed.

Lemma wp_close_all : forall st l base (post : unit -> list handle -> Prop) (ex : list handle -> Prop),
  Permutation l (stack_handles st ++ base) -> (forall l', Permutation l' base -> post tt l') ->
  wp (close_all st) l post ex.
Proof.
  induction st as [|s st IH]; intros l base post ex Hl Hp; cbn [close_all]; [cbn; apply Hp, Hl|].
  apply wp_bind. unfold stream_destroy. unfold stack_handles in Hl. cbn [flat_map] in Hl. fold (stack_handles st) in Hl.
  unfold stream_handles in Hl. destruct (ds_handle s) as [d|]; cbn [app] in Hl.
  - cbn -[step]. intros r. destruct (step_closedir_in d r l) as (l' & Hs & Hp').
    { eapply Permutation_in; [symmetry; exact Hl|left; auto]. }
    exists l'. split; auto. apply (IH l' base); auto. eapply Permutation_cons_inv. etransitivity; [symmetry; exact Hp'|exact Hl].
  - cbn. apply (IH l base); auto.
Qed.

Lemma stack_handles_rev : forall st, Permutation (stack_handles (rev st)) (stack_handles st).
Proof. intros. unfold stack_handles. apply Permutation_flat_map. symmetry. apply Permutation_rev. Qed.

Lemma wp_impl_reset : forall st l base (post : unit -> list handle -> Prop) (ex : list handle -> Prop),
  Permutation l (stack_handles st ++ base) -> (forall l', Permutation l' base -> post tt l') ->
  wp (impl_reset st) l post ex.
Proof.
  intros st l base post ex Hl Hp. unfold impl_reset. apply (wp_close_all (rev st) l base); auto.
  rewrite stack_handles_rev. exact Hl.
Qed.

(** [advance] when the handle is somewhere in the list. *)
Lemma wp_advance_in : forall n s d l (post : bool * ecode * dstream -> list handle -> Prop) (ex : list handle -> Prop),
  ds_handle s = Some d -> In (HDir d) l ->
  (forall e, post (true, None, Stream (Some d) (ds_root s) e) l) ->
  (forall ec l', Permutation l (HDir d :: l') -> post (false, ec, Stream None (ds_root s) (ds_entry s)) l') ->
  wp (advance cf n s) l post ex.
Proof.
  induction n; intros s d l post ex Hs Hin Ht Hf; cbn [advance]; [exact I|]. rewrite Hs.
  apply wp_bind. unfold posix_readdir. intros r.
  exists l. split; [apply step_use; auto; intros y [<-|[]]; auto|].
  set (k := fun (x : str * file_type * ecode) (l : list handle) => _).
  assert (Hk : forall nm t ec, k (nm, t, ec) l).
  { intros nm t ec. unfold k. destruct (str_eqb nm (lit ".") || str_eqb nm (lit "..")); [apply (IHn s d); auto|].
    destruct (failed ec || is_nil nm) eqn:Hfa.
    - cbn -[step]. intros r0. destruct (step_closedir_in d r0 l Hin) as (l' & H1 & H2). exists l'. split; auto.
    - destruct ec; [discriminate|]. apply wp_bind. apply wp_div. intros q. cbn. apply Ht. }
  destruct r as [e|[[nm t]|]]; cbn [wp]; try apply Hk.
  apply wp_bind. destruct t; first [exact I|apply Hk].
Qed.

(** Every stream of a stack in use has its handle. *)
Definition open_stack (st : list dstream) : Prop := Forall (fun s => good s = true) st.
Definition open_rdir (it : rdir_iter) : Prop :=
  match r_impl it with Some (st, _) => st <> [] /\ open_stack st | None => True end.

Lemma wp_advance_stack : forall st n l base (post : option (list dstream) * ecode * list dstream -> list handle -> Prop) (ex : list handle -> Prop),
  open_stack st -> Permutation l (stack_handles st ++ base) ->
  (forall st' l', st' <> [] -> open_stack st' -> Permutation l' (stack_handles st' ++ base) -> post (Some st', None, []) l') ->
  (forall ec st' l', Permutation l' (stack_handles st' ++ base) -> post (None, ec, st') l') ->
  wp (advance_stack cf n st) l post ex.
Proof.
  induction st as [|s st IH]; intros n l base post ex Ho Hl Hs Hn; cbn [advance_stack].
  - cbn. apply (Hn None []). exact Hl.
  - inversion Ho as [|? ? Hg Ho']; subst. unfold good in Hg. destruct (ds_handle s) as [d|] eqn:Hd; [|discriminate].
    unfold stack_handles in Hl. cbn [flat_map] in Hl. unfold stream_handles in Hl at 1. rewrite Hd in Hl. cbn [app] in Hl. fold (stack_handles st) in Hl.
    apply wp_bind. apply (wp_advance_in n s d); auto.
    + eapply Permutation_in; [symmetry; exact Hl|left; auto].
    + intros e. cbn. apply Hs; [discriminate|constructor; auto|]. exact Hl.
    + intros ec l' Hl'. assert (Hp : Permutation l' (stack_handles st ++ base)).
      { eapply Permutation_cons_inv. etransitivity; [symmetry; exact Hl'|exact Hl]. }
      destruct (failed ec); [cbn; apply Hn; exact Hp|]. apply (IH n l' base); auto.
Qed.

Lemma wp_rdir_advance : forall n has it l base (post : rdir_iter * ecode -> list handle -> Prop) (ex : list handle -> Prop),
  open_rdir it -> Permutation l (rdir_handles it ++ base) ->
  (forall it' ec l', open_rdir it' -> Permutation l' (rdir_handles it' ++ base) -> post (it', ec) l') ->
  (forall l', Permutation l' base -> ex l') ->
  wp (rdir_advance cf n has it) l post ex.
Proof.
  intros n has it l base post ex Ho Hl Hp He. unfold rdir_advance. unfold open_rdir, rdir_handles in Ho, Hl.
  destruct (r_impl it) as [[st o]|] eqn:Hi.
  - apply wp_bind. apply (wp_advance_stack st n l base); [apply Ho|exact Hl| |].
    + intros st' l' Hn Hos Hl'. cbn. apply Hp; [split; auto|exact Hl'].
    + intros ec st' l' Hl'. apply wp_bind. apply (wp_impl_reset st' l' base); auto. intros l2 Hl2.
      destruct (failed ec); [|cbn; apply Hp; [exact I|exact Hl2]]. unfold report. destruct has; cbn; [apply Hp; [exact I|exact Hl2]|auto].
  - unfold report. destruct has; cbn; [|apply He; exact Hl]. apply Hp; [unfold open_rdir; rewrite Hi; exact I|].
    unfold rdir_handles. rewrite Hi. exact Hl.
Qed.

Lemma wp_rdir_pop : forall n has it l base (post : rdir_iter * ecode -> list handle -> Prop) (ex : list handle -> Prop),
  open_rdir it -> Permutation l (rdir_handles it ++ base) ->
  (forall it' ec l', open_rdir it' -> Permutation l' (rdir_handles it' ++ base) -> post (it', ec) l') ->
  (forall l', Permutation l' base -> ex l') ->
  wp (rdir_pop cf n has it) l post ex.
Proof.
  intros n has it l base post ex Ho Hl Hp He. unfold rdir_pop. unfold open_rdir, rdir_handles in Ho, Hl.
  destruct (r_impl it) as [[[|s st] o]|] eqn:Hi.
  - cbn. auto.
  - destruct Ho as [_ Ho]. inversion Ho as [|? ? Hg Ho']; subst.
    apply wp_bind. replace (stream_destroy s) with (let! _ := stream_destroy s in Ret tt)
      by (unfold stream_destroy; destruct (ds_handle s); reflexivity).
    apply (wp_close_all [s] l (stack_handles st ++ base)); [cbn; rewrite app_nil_r, app_assoc; exact Hl|].
    intros l' Hl'. destruct st as [|s2 st]; cbn [is_nil].
    + cbn. apply Hp; [exact I|exact Hl'].
    + apply (wp_rdir_advance n has _ l' base); auto. split; [discriminate|exact Ho'].
  - unfold report. destruct has; cbn; [|apply He; exact Hl]. apply Hp; [unfold open_rdir; rewrite Hi; exact I|unfold rdir_handles; rewrite Hi; exact Hl].
Qed.

Lemma wp_rdir_ctor : forall n has p o base (post : rdir_iter * ecode -> list handle -> Prop) (ex : list handle -> Prop),
  (forall it' ec l', open_rdir it' -> Permutation l' (rdir_handles it' ++ base) -> post (it', ec) l') ->
  (forall l', Permutation l' base -> ex l') ->
  wp (rdir_ctor cf n has p o) base post ex.
Proof.
  intros n has p o base post ex Hp He. unfold rdir_ctor. apply wp_bind. apply wp_stream_ctor. intros ec s Hg.
  unfold stream_handles, good in *. destruct (ds_handle s) as [d|] eqn:Hd.
  - rewrite Hg by reflexivity. cbn [failed negb]. cbn. apply Hp.
    + split; [discriminate|]. constructor; auto. unfold good. rewrite Hd. reflexivity.
    + cbn. unfold stream_handles. rewrite Hd. reflexivity.
  - cbn [app]. destruct (failed ec); [|cbn; apply Hp; [exact I|reflexivity]].
    unfold report, stream_destroy. rewrite Hd. destruct has; cbn; [apply Hp; [exact I|reflexivity]|apply He; reflexivity].
Qed.

Lemma wp_rdir_increment : forall n has it l base (post : rdir_iter * ecode -> list handle -> Prop) (ex : list handle -> Prop),
  open_rdir it -> Permutation l (rdir_handles it ++ base) ->
  (forall it' ec l', open_rdir it' -> Permutation l' (rdir_handles it' ++ base) -> post (it', ec) l') ->
  (forall l', Permutation l' base -> ex l') ->
  wp (rdir_increment cf n has it) l post ex.
Proof.
  intros n has it l base post ex Ho Hl Hp He. unfold rdir_increment.
  assert (Ha : forall x b l', open_rdir (RIter x b) -> Permutation l' (rdir_handles (RIter x b) ++ base) ->
     wp (rdir_advance cf n has (RIter x true)) l' post ex).
  { intros x b l' H1 H2. apply (wp_rdir_advance n has _ l' base); auto. }
  destruct (r_recursion it) eqn:Hrec; [|cbn; apply (Ha _ (r_recursion it)); destruct it; auto].
  apply wp_bind. unfold rdir_try. destruct (r_impl it) as [[[|s st] o]|] eqn:Hi.
  - cbn. auto.
  - unfold open_rdir in Ho. unfold rdir_handles in Hl. rewrite Hi in Ho, Hl. destruct Ho as [_ Ho].
    inversion Ho as [|? ? Hg Ho']; subst.
    apply wp_bind.
    set (q := if has_dopt do_follow_directory_symlink o then _ else _).
    assert (Hq : calm q) by (subst q; destruct (has_dopt _ o); auto with calm).
    apply wp_calm; auto. intros [[t ec0] e1]. clear Hq. clearbody q.
    set (s1 := Stream (ds_handle s) (ds_root s) e1).
    assert (Ho1 : forall r, open_rdir (RIter (Some (s1 :: st, o)) r)).
    { intros r. split; [discriminate|]. constructor; auto. }
    assert (Hl1 : forall r, Permutation l (rdir_handles (RIter (Some (s1 :: st, o)) r) ++ base)) by (intros; exact Hl).
    set (m := if failed ec0 && status_known (status_of_type t) then None else ec0). clearbody m.
    set (sk := if has_dopt do_follow_directory_symlink o then _ else _). clearbody sk.
    assert (Hk : forall m2 l', Permutation l' (stack_handles (s1 :: st) ++ base) ->
      wp (match m2 with
          | Some x =>
              if errno_eqb x EACCES && has_dopt do_skip_permission_denied o
              then Ret (false, None, RIter (Some (s1 :: st, o)) (r_recursion it))
              else
                let! _ := impl_reset (s1 :: st) in
                let! y := report has [] false m2 in
                Ret (false, snd y, RIter None (r_recursion it))
          | None => Ret (false, None, RIter (Some (s1 :: st, o)) (r_recursion it))
          end) l' (fun a l0 => wp (let '(entered, ec, it1) := a in
             if entered || failed ec then Ret (it1, ec) else rdir_advance cf n has (RIter (r_impl it1) true)) l0 post ex) ex).
    { intros m2 l' Hl'. destruct m2 as [x|]; [|cbn -[rdir_advance]; apply (Ha _ true); auto; apply Ho1].
      destruct (_ && _); [cbn -[rdir_advance]; apply (Ha _ true); auto; apply Ho1|].
      apply wp_bind. apply (wp_impl_reset (s1 :: st) l' base); auto. intros l2 Hl2.
      unfold report. destruct has; cbn; [apply Hp; [exact I|exact Hl2]|auto]. }
    apply wp_bind. destruct sk; [cbn [wp]; apply Hk; exact Hl|].
    apply wp_bind. apply wp_stream_ctor. intros ec sn Hgn. cbn [fst snd wp]. unfold stream_handles. unfold good in *.
    destruct (ds_handle sn) as [d|] eqn:Hdn.
    + cbn. apply Hp.
      * split; [discriminate|]. constructor; [unfold good; rewrite Hdn; auto|]. constructor; auto.
      * unfold rdir_handles. cbn [r_impl]. unfold stack_handles. cbn [flat_map]. unfold stream_handles at 1. rewrite Hdn. cbn [app].
        constructor. exact Hl.
    + apply Hk. exact Hl.
  - unfold rdir_handles in Hl. rewrite Hi in Hl. unfold report. destruct has; cbn; [|apply He; exact Hl].
    apply Hp; [exact Ho|]. unfold rdir_handles. rewrite Hi. exact Hl.
Qed.

End Ops.

(** * C60 *)

(** Operations that return no iterator hold nothing extra afterwards, whether they return or throw. *)
Definition keeps_handles {A} (p : prog A) : Prop := forall before, handles_safe p before (fun _ => before) before.

Theorem C60_no_leak : forall (cf : config) n has p q o,
  keeps_handles (copy_file_impl cf n has p q o) /\
  keeps_handles (copy_impl cf n has p q o) /\
  keeps_handles (remove_all_impl cf n has p) /\
  keeps_handles (is_empty_impl cf n has p).
Proof.
  intros cf n has p q o. repeat split; intros before; apply wp_safe.
  - apply wp_copy_file; auto.
  - apply wp_copy; auto.
  - apply wp_remove_all; auto.
  - apply wp_is_empty; auto.
Qed.

(** Iterators: a constructor or increment that returns leaves exactly the streams of the iterator it leaves; one that
    throws leaves nothing open. Destroying an iterator closes its streams. [open_rdir] and [good] say that the iterator
    was produced by the library: the theorem gives them back. *)
Definition iter_ok (it : dir_iter) : Prop := match it with Some s => good s = true | None => True end.

Theorem C60_directory_iterator : forall (cf : config) n has p o it before,
  handles_safe (dir_iter_ctor cf n has p o) before (fun r => iter_handles (fst r) ++ before) before /\
  (iter_ok it ->
   handles_safe (dir_iter_increment cf n has it) (iter_handles it ++ before) (fun r => iter_handles (fst r) ++ before) before) /\
  handles_safe (dir_iter_destroy it) (iter_handles it ++ before) (fun _ => before) before.
Proof.
  intros cf n has p o it before. split; [|split].
  - apply wp_safe. apply wp_iter_ctor; auto.
  - intros Hi. apply wp_safe. destruct it as [s|].
    + apply wp_iter_increment; auto.
    + cbn. unfold report. destruct has; cbn; auto.
  - apply wp_safe. destruct it as [s|]; cbn [dir_iter_destroy iter_handles]; [apply wp_destroy; auto|cbn; auto].
Qed.

Theorem C60_recursive_directory_iterator : forall (cf : config) n has p o it before,
  handles_safe (rdir_ctor cf n has p o) before (fun r => rdir_handles (fst r) ++ before) before /\
  (open_rdir it ->
   handles_safe (rdir_increment cf n has it) (rdir_handles it ++ before) (fun r => rdir_handles (fst r) ++ before) before /\
   handles_safe (rdir_pop cf n has it) (rdir_handles it ++ before) (fun r => rdir_handles (fst r) ++ before) before) /\
  handles_safe (rdir_destroy it) (rdir_handles it ++ before) (fun _ => before) before.
Proof.
  intros cf n has p o it before. split; [|split].
  - apply wp_safe. apply wp_rdir_ctor; auto.
  - intros Hi. split; apply wp_safe.
    + apply (wp_rdir_increment cf n has it _ before); auto.
    + apply (wp_rdir_pop cf n has it _ before); auto.
  - apply wp_safe. unfold rdir_destroy, rdir_handles. destruct (r_impl it) as [[st o']|]; [|cbn; auto].
    apply (wp_impl_reset st _ before); auto.
Qed.

(** The iterators the library makes are of that kind. *)
Theorem C60_iterators_open : forall (cf : config) n has p o S (h : kernel S) s,
  (forall it e s', run h (dir_iter_ctor cf n has p o) s = Done (it, e) s' -> iter_ok it) /\
  (forall it0 it e s', iter_ok it0 -> run h (dir_iter_increment cf n has it0) s = Done (it, e) s' -> iter_ok it) /\
  (forall it e s', run h (rdir_ctor cf n has p o) s = Done (it, e) s' -> open_rdir it) /\
  (forall it0 it e s', open_rdir it0 -> run h (rdir_increment cf n has it0) s = Done (it, e) s' -> open_rdir it) /\
  (forall it0 it e s', open_rdir it0 -> run h (rdir_pop cf n has it0) s = Done (it, e) s' -> open_rdir it).
Proof.
  intros cf n has p o S h s.
  assert (Hw : forall A (q : prog A) held (P : A -> Prop) a s', wp q held (fun a _ => P a) (fun _ => True) -> run h q s = Done a s' -> P a).
  { intros A q. revert s. induction q as [a|f|c k IH]; intros s0 held P x s' H Hr; cbn in *.
    - injection Hr as <- <-. exact H.
    - discriminate.
    - destruct (h c s0) as [r s1]. destruct (H r) as (y & _ & Hy). exact (IH r s1 y P x s' Hy Hr). }
  repeat match goal with |- _ /\ _ => split end.
  - intros it e s' Hr. refine (Hw _ _ [] (fun x => iter_ok (fst x)) _ _ _ Hr). apply wp_iter_ctor; cbn; auto.
  - intros it0 it e s' Hi Hr. destruct it0 as [st|].
    + refine (Hw _ _ (stream_handles st ++ []) (fun x => iter_ok (fst x)) _ _ _ Hr). apply wp_iter_increment; cbn; auto.
    + cbn in Hr. unfold report in Hr. destruct has; cbn in Hr; [|discriminate]. injection Hr as <- _ _. exact I.
  - intros it e s' Hr. refine (Hw _ _ [] (fun x => open_rdir (fst x)) _ _ _ Hr). apply wp_rdir_ctor; cbn; auto.
  - intros it0 it e s' Hi Hr. refine (Hw _ _ (rdir_handles it0 ++ []) (fun x => open_rdir (fst x)) _ _ _ Hr).
    apply (wp_rdir_increment cf n has it0 _ []); auto.
  - intros it0 it e s' Hi Hr. refine (Hw _ _ (rdir_handles it0 ++ []) (fun x => open_rdir (fst x)) _ _ _ Hr).
    apply (wp_rdir_pop cf n has it0 _ []); auto.
Qed.

(** A run that opens two descriptors, fails in the middle of the transfer and closes both. *)
Example C60_example :
  let h : kernel unit := fun c s =>
    match c return answer c * unit with
    | c_open p _ _ => (Val (if str_eqb p (lit "a") then 3 else 4)%N, s)
    | c_lstat _ => (Val (Stat 1 2 33188 1 10 (TimeSpec 0 0) (TimeSpec 0 0)), s)
    | c_sendfile _ _ _ => (Err EINVAL, s)
    | c_read _ _ => (Val (lit "abc"), s)
    | c_write _ _ => (Err (EOther 28), s)
    | c' => failing ENOENT c' s
    end in
  exists l, run (traced h) (copy_file_impl plain_config 5 false (topath (lit "a")) (topath (lit "b")) 0) (tt, [])
              = Failed (FThrow (Some (EOther 28)) [topath (lit "b"); topath (lit "a")]) (tt, l) /\
            length l = 10 /\ held_after [] l = Some [].
Proof. eexists. split; [vm_compute; reflexivity|]. split; reflexivity. Qed.

Print Assumptions C60_no_leak.
Print Assumptions C60_directory_iterator.
Print Assumptions C60_recursive_directory_iterator.
Print Assumptions C60_iterators_open.
