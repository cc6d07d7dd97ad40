(** Where copy goes: the calls it makes, on any system. *)
From Coq Require Import Ascii String Bool Arith NArith ZArith Lia.
From Verif Require Import Str PathModel PathSpec StrProofs PathProofs PathOps PathOps2 PathReach PathLaws
  FlagsModel TimeModel Prog DirModel OpsModel OpsProps FS FSProofs FSSpec FSOps FSPlace FSProps IterProps FSIter FSRemove RaceProps Chronicle RaceRemove.
From Coq Require Import List.
Import ListNotations.

(** * Vocabulary *)

(** [t] is [f], or below it by way of entry names. *)
Definition below (f t : str) : Prop := exists ns, Forall (fun n => good_name n = true) ns /\ t = down f ns.

(** [a] is in the source [f] where [b] is in the target [g]. *)
Definition twin (f g a b : str) : Prop := exists ns, Forall (fun n => good_name n = true) ns /\ a = down f ns /\ b = down g ns.

(** The same for files, which may also go into a directory under their own name. *)
Definition twin_file (f g a b : str) : Prop := twin f g a b \/ exists r, twin f g a r /\ b = entry_of r (after_last_slash a).

(** open(2) was asked for [t] and answered [fd]: for reading, or for writing. *)
Definition reading {S} (l : list (deed S)) (t : str) (fd : N) : Prop := exists s m, In (Deed s (c_open t O_READ m) (Val fd)) l.
Definition writing {S} (l : list (deed S)) (t : str) (fd : N) : Prop := exists s fl m, fl <> O_READ /\ In (Deed s (c_open t fl m) (Val fd)) l.

(** The calls allowed to copy([f], [g]) when [l] has been done: the source is looked at, listed and opened for reading; what is made or opened for writing is in the target, at
    the place that goes with something in the source; what is changed has been opened there, and what is written was read from the file that goes with it. A symlink
    leads to what goes with it or has its text. Nothing is removed or renamed. *)
Definition copying {S} (f g : str) (l : list (deed S)) (c : call) : Prop :=
  match c with
  | c_stat t | c_lstat t => below f t \/ exists a, twin_file f g a t
  | c_open t O_READ _ => below f t
  | c_open t _ _ => exists a fd, twin_file f g a t /\ reading l a fd
  | c_readlink t _ | c_opendir t => below f t
  | c_mkdir t _ => below g t
  | c_symlink x t => exists a, twin f g a t /\ (x = a \/ exists s n y, In (Deed s (c_readlink a n) (Val y)) l /\ x = reported_text y)
  | c_link a b => twin f g a b
  | c_read fd _ => exists a, below f a /\ reading l a fd
  | c_fchmod fd _ | c_ftruncate fd _ => exists a b, twin_file f g a b /\ writing l b fd
  | c_write fd d => exists a b rfd s n, twin_file f g a b /\ reading l a rfd /\ writing l b fd /\ In (Deed s (c_read rfd n) (Val d)) l
  | c_sendfile wfd rfd _ => exists a b, twin_file f g a b /\ reading l a rfd /\ writing l b wfd
  | c_readdir _ | c_closedir _ | c_close _ | c_pathconf => True
  | _ => False
  end.

(** * Proof *)

Section Copy.
Context {S : Type} (f g : str).
Let OK := @copying S f g.

Lemma bounded_scoped : forall A (p : prog A) c l Q, bounded OK l p Q -> (forall l1, bounded OK l1 c (fun _ l2 => grown l1 l2)) -> (forall a l1 l2, Q a l1 -> grown l1 l2 -> Q a l2) ->
  bounded OK l (scoped p c) Q.
Proof.
  induction p as [a|e|q k IH]; cbn; intros c l Q H Hc HQ.
  - apply bounded_bind. eapply bounded_weaken; [|apply Hc]. cbn. intros _ l1 G. eapply HQ; eauto.
  - destruct (unwinds e); cbn; auto. apply bounded_bind. eapply bounded_weaken; [|apply Hc]. cbn. auto.
  - destruct H as [H1 H2]. split; auto.
Qed.

Lemma bounded_close : forall l fd, bounded OK l (close_fd fd) (fun _ l1 => grown l l1).
Proof. intros l fd. cbn. split; [exact Logic.I|]. intros s a _. apply grown_snoc. Qed.

Lemma reading_grown : forall (l l1 : list (deed S)) t fd, grown l l1 -> reading l t fd -> reading l1 t fd.
Proof. intros l l1 t fd G (s & m & H). exists s, m. auto. Qed.
Lemma writing_grown : forall (l l1 : list (deed S)) t fd, grown l l1 -> writing l t fd -> writing l1 t fd.
Proof. intros l l1 t fd G (s & fl & m & H1 & H2). exists s, fl, m. auto. Qed.

Lemma twin_self : twin f g f g.
Proof. exists []. split; [constructor|]. split; reflexivity. Qed.
Lemma twin_entry : forall a b n, twin f g a b -> good_name n = true -> twin f g (entry_of a n) (entry_of b n).
Proof. intros a b n (ns & H1 & -> & ->) Hn. exists (ns ++ [n]). split; [apply Forall_app; auto|]. unfold down. rewrite !fold_left_app. split; reflexivity. Qed.
Lemma twin_below : forall a b, twin f g a b -> below f a.
Proof. intros a b (ns & H1 & H2 & _). exists ns. auto. Qed.
Lemma twin_below_target : forall a b, twin f g a b -> below g b.
Proof. intros a b (ns & H1 & _ & H2). exists ns. auto. Qed.
Lemma twin_file_below : forall a b, twin_file f g a b -> below f a.
Proof. intros a b [H|(r & H & _)]; eapply twin_below; eauto. Qed.

Definition looked (t : str) : Prop := below f t \/ exists a, twin_file f g a t.

Lemma bounded_any_status : forall (l : list (deed S)) p b, looked (native p) ->
  bounded OK l (if b : bool then GetLinkStatus true p else GetFileStatus true p) (fun _ l1 => grown l l1).
Proof.
  intros l p b Hp. destruct b; cbn; (split; [exact Hp|]); intros s a _; unfold CreateFileStatus; (destruct a as [e|st]; [destruct (errno_eqb e ENOENT || errno_eqb e ENOTDIR)|]); cbn; apply grown_snoc.
Qed.
Lemma bounded_link_status : forall (l : list (deed S)) p, looked (native p) -> bounded OK l (GetLinkStatus true p) (fun _ l1 => grown l l1).
Proof. intros l p. apply (bounded_any_status l p true). Qed.
Lemma bounded_file_status : forall (l : list (deed S)) p, looked (native p) -> bounded OK l (GetFileStatus true p) (fun _ l1 => grown l l1).
Proof. intros l p. apply (bounded_any_status l p false). Qed.

Lemma bounded_report : forall A has ps (v : A) e l, bounded OK l (report has ps v e) (fun _ l1 => grown l l1).
Proof. intros. unfold report. destruct has; cbn; auto using grown_refl. Qed.
Lemma bounded_simple : forall has ps r l l0, grown l0 l -> bounded OK l (simple has ps r) (fun _ l1 => grown l0 l1).
Proof. intros. unfold simple. destruct r; cbn; auto. eapply bounded_weaken; [|apply bounded_report]. intros. eapply grown_trans; eauto. Qed.
Lemma bounded_after : forall A (p : prog A) l0 l, grown l0 l -> bounded OK l p (fun _ l1 => grown l l1) -> bounded OK l p (fun _ l1 => grown l0 l1).
Proof. intros A p l0 l G H. eapply bounded_weaken; [|exact H]. intros. eapply grown_trans; eauto. Qed.

Lemma bounded_sendfile : forall a b, twin_file f g a b -> forall n rfd wfd count l, reading l a rfd -> writing l b wfd -> bounded OK l (sendfile_loop n rfd wfd count) (fun _ l1 => grown l l1).
Proof.
  intros a b Ht. induction n as [|n IH]; intros rfd wfd count l Hr Hw; [exact Logic.I|]. cbn [sendfile_loop bounded]. split; [exists a, b; auto|]. intros s r _. destruct r as [e|k]; [apply grown_snoc|].
  destruct (0 <? count - k)%Z; [|apply grown_snoc]. apply (bounded_after _ _ l _ (grown_snoc _ _)). apply IH; [eapply reading_grown|eapply writing_grown]; eauto; apply grown_snoc.
Qed.
Lemma bounded_default : forall a b, twin_file f g a b -> forall n rfd wfd l, reading l a rfd -> writing l b wfd -> bounded OK l (do_copy_file_default n rfd wfd) (fun _ l1 => grown l l1).
Proof.
  intros a b Ht. induction n as [|n IH]; intros rfd wfd l Hr Hw; [exact Logic.I|]. cbn [do_copy_file_default bounded]. split; [exists a; split; [eapply twin_file_below; eauto|exact Hr]|].
  intros s r _. destruct r as [e|[|c d]]; [apply grown_snoc|apply grown_snoc|].
  set (l1 := l ++ _). assert (G : grown l l1) by apply grown_snoc. cbn [bounded]. split.
  { exists a, b, rfd, s, bufsiz. split; [exact Ht|]. split; [eapply reading_grown; eauto|]. split; [eapply writing_grown; eauto|]. apply in_or_app. right. left. reflexivity. }
  intros s2 r2 _. assert (G2 : forall d, grown l (l1 ++ [d])) by (intros; eapply grown_trans; [exact G|apply grown_snoc]).
  destruct r2 as [e|k]; [cbn; apply G2|]. apply (bounded_after _ _ l _ (G2 _)). apply IH; [eapply reading_grown|eapply writing_grown]; eauto; apply G2.
Qed.
Lemma bounded_do_copy : forall cf a b, twin_file f g a b -> forall n rfd wfd size l, reading l a rfd -> writing l b wfd -> bounded OK l (do_copy_file cf n rfd wfd size) (fun _ l1 => grown l l1).
Proof.
  intros cf a b Ht n rfd wfd size l Hr Hw. unfold do_copy_file. destruct (cf_sendfile cf); [|eapply bounded_default; eauto]. apply bounded_bind.
  unfold do_copy_file_sendfile. destruct ((size <? 0)%Z || (sendfile_max <? size)%Z); [cbn; eapply bounded_default; eauto|].
  eapply bounded_weaken; [|eapply bounded_sendfile; eauto]. intros [r e] l1 G. cbn [fst snd]. destruct r; cbn; auto.
  apply (bounded_after _ _ l _ G). eapply bounded_default; [exact Ht|eapply reading_grown; eauto|eapply writing_grown; eauto].
Qed.

Lemma bounded_body : forall cf n has from to rfd wfd fs ts ex l, twin_file f g (native from) (native to) -> reading l (native from) rfd -> writing l (native to) wfd ->
  bounded OK l (copy_file_body cf n has from to rfd wfd fs ts ex) (fun _ l1 => grown l l1).
Proof.
  intros cf n has from to rfd wfd fs ts ex l Ht Hr Hw. unfold copy_file_body, refresh_status. apply bounded_bind. eapply bounded_weaken; [|apply bounded_link_status; right; eauto].
  cbn beta. intros r l1 G. assert (Hbad : forall l2 e, grown l l2 -> bounded OK l2 (report has [to; from] false e) (fun _ l3 => grown l l3)) by (intros; eapply bounded_after; eauto; apply bounded_report).
  assert (Hcopy : forall l2, grown l l2 -> bounded OK l2 (let! c := do_copy_file cf n rfd wfd (st_size fs) in if fst c then Ret (true, None) else report has [to; from] false (snd c)) (fun _ l3 => grown l l3)).
  { intros l2 G2. apply bounded_bind. eapply bounded_weaken; [|eapply bounded_do_copy; [exact Ht|eapply reading_grown; eauto|eapply writing_grown; eauto]]. intros [b e] l3 G3. cbn [fst snd].
    assert (G4 : grown l l3) by (eapply grown_trans; eauto). destruct b; cbn; auto. }
  assert (Hch : forall l2, grown l l2 -> exists a b, twin_file f g a b /\ writing l2 b wfd) by (intros l2 G2; exists (native from), (native to); split; [exact Ht|eapply writing_grown; eauto]).
  destruct (failed (snd r)); [apply Hbad; auto|]. destruct ex; [|apply Hcopy; auto]. destruct (negb _); [apply Hbad; auto|].
  cbn [bounded]. split; [apply Hch; exact G|]. intros s a _. assert (G2 : forall d, grown l (l1 ++ [d])) by (intros; eapply grown_trans; [exact G|apply grown_snoc]).
  destruct a as [e|u]; [apply Hbad; auto|]. cbn [bounded]. split; [apply Hch; apply G2|]. intros s2 a2 _.
  assert (G3 : forall d d2, grown l ((l1 ++ [d]) ++ [d2])) by (intros; eapply grown_trans; [apply G2|apply grown_snoc]).
  destruct a2 as [e|u2]; [apply Hbad; auto|apply Hcopy; auto].
Qed.

Lemma bounded_from : forall cf n has from to opts rfd l, twin_file f g (native from) (native to) -> reading l (native from) rfd ->
  bounded OK l (copy_file_from cf n has from to opts rfd) (fun _ l1 => grown l l1).
Proof.
  intros cf n has from to opts rfd l Ht Hr. unfold copy_file_from, refresh_status. apply bounded_bind. eapply bounded_weaken; [|apply bounded_link_status; left; eapply twin_file_below; eauto].
  intros [[fst_ fs] e1] l1 G1. assert (Hbad : forall l2 e, grown l l2 -> bounded OK l2 (report has [to; from] false e) (fun _ l3 => grown l l3)) by (intros; eapply bounded_after; eauto; apply bounded_report).
  destruct (failed e1); [apply Hbad; auto|]. destruct (negb (st_is_regular_file fst_)); [apply Hbad; auto|]. apply bounded_bind. eapply bounded_weaken; [|apply bounded_file_status; right; eauto].
  intros [[tst ts] e2] l2 G. assert (G2 : grown l l2) by (eapply grown_trans; eauto). destruct (negb (status_known tst)); [apply Hbad; auto|].
  destruct (st_exists tst && negb (st_is_regular_file tst)); [apply Hbad; auto|]. destruct (st_exists tst && stat_equivalent fs ts); [apply Hbad; auto|].
  destruct (st_exists tst && co_set co_skip_existing opts); [exact G2|]. apply bounded_bind.
  assert (Hgo : forall (r : bool * ecode) l3, grown l l3 -> bounded OK l3 (if negb (fst r) then Ret (false, snd r) else
     sys o := c_open (native to) (if st_exists tst then O_WRITE else O_WRITE_CREAT) (st_mode fs) in
     match o with Err e => report has [to; from] false (Some e) | Val wfd => scoped (copy_file_body cf n has from to rfd wfd fs ts (st_exists tst)) (close_fd wfd) end) (fun _ l4 => grown l l4)).
  { intros r l3 G3. destruct (negb (fst r)); [exact G3|]. cbn [bounded]. split; [destruct (st_exists tst); exists (native from), rfd; (split; [exact Ht|eapply reading_grown; eauto])|]. intros s a _.
    assert (G4 : forall d, grown l (l3 ++ [d])) by (intros; eapply grown_trans; [exact G3|apply grown_snoc]). destruct a as [e|wfd]; [apply Hbad; auto|].
    apply bounded_scoped; [|intros; apply bounded_close|intros; eapply grown_trans; eauto]. apply (bounded_after _ _ l _ (G4 _)). apply bounded_body; [exact Ht|eapply reading_grown; [apply G4|exact Hr]|].
    exists s, (if st_exists tst then O_WRITE else O_WRITE_CREAT), (st_mode fs). split; [destruct (st_exists tst); discriminate|]. apply in_or_app; right; left; reflexivity. }
  destruct (st_exists tst && co_set co_update_existing opts); [apply (Hgo (_, _)); auto|]. destruct (negb (st_exists tst) || co_set co_overwrite_existing opts); [apply (Hgo (_, _)); auto|].
  eapply bounded_weaken; [|apply bounded_report]. intros r l3 G3. apply Hgo. eapply grown_trans; eauto.
Qed.

Lemma bounded_copy_file : forall cf n has from to opts l, twin_file f g (native from) (native to) ->
  bounded OK l (copy_file_impl cf n has from to opts) (fun _ l1 => grown l l1).
Proof.
  intros cf n has from to opts l Ht. unfold copy_file_impl. cbn [bounded]. split; [eapply twin_file_below; eauto|]. intros s a _.
  destruct a as [e|rfd]; [apply (bounded_after _ _ l _ (grown_snoc _ _)); apply bounded_report|].
  apply bounded_scoped; [|intros; apply bounded_close|intros; eapply grown_trans; eauto]. apply (bounded_after _ _ l _ (grown_snoc _ _)). apply bounded_from; auto.
  exists s, 0%N. apply in_or_app; right; left; reflexivity.
Qed.

Lemma bounded_assert : forall A b c (p : prog A) l Q, bounded OK l p Q -> bounded OK l (let! _ := asap_assert b c in p) Q.
Proof. intros. unfold asap_assert. destruct (b && negb c); [exact Logic.I|]. exact H. Qed.

Lemma bounded_copy_symlink : forall cf has from to l, twin f g (native from) (native to) ->
  bounded OK l (copy_symlink_impl cf has from to) (fun _ l1 => grown l l1).
Proof.
  intros cf has from to l Ht. assert (Hf : below f (native from)) by (eapply twin_below; eauto). unfold copy_symlink_impl, read_symlink_impl. apply bounded_bind. cbn [bounded]. split; [exact Logic.I|]. intros s size _. apply bounded_assert.
  destruct (size <? 0)%Z; [exact Logic.I|]. cbn [bounded]. split; [exact Hf|]. intros s2 a _. set (l1 := _ ++ _). assert (G : grown l l1) by (unfold l1; eapply grown_trans; apply grown_snoc).
  destruct a as [e|t].
  - cbn. apply (bounded_after _ _ l _ G). apply bounded_report.
  - cbn zeta. apply bounded_assert. apply bounded_assert. destruct (size <? _)%Z; [exact Logic.I|]. cbn [bounded fst snd failed]. unfold create_symlink_impl. cbn [bounded]. split.
    + exists (native from). split; [exact Ht|]. right. exists s2, size, t. split; [apply in_or_app; right; left; reflexivity|]. apply native_mkpath.
    + intros s3 a3 _. apply bounded_simple. eapply grown_trans; [exact G|apply grown_snoc].
Qed.

Lemma after_entry : forall t n, good_name n = true -> after_last_slash (entry_of t n) = n.
Proof.
  intros t n Hn. destruct (good_plain _ Hn) as (_ & Hs & _ & _). unfold entry_of. destruct (is_nil t || ends_slash t) eqn:E.
  - cbn [app]. apply orb_true_iff in E as [E|E]; [apply is_nil_true in E; subst; apply after_last_slash_noslash; auto|].
    apply ends_slash_spec in E as [a ->]. rewrite <- app_assoc. apply after_last_slash_app. auto.
  - apply after_last_slash_app. auto.
Qed.

Lemma bounded_mkdir_like : forall has to from l, twin f g (native from) (native to) -> bounded OK l (create_directory_like_impl has to from) (fun _ l1 => grown l l1).
Proof.
  intros has to from l Ht. unfold create_directory_like_impl. apply bounded_bind. eapply bounded_weaken; [|apply bounded_file_status; left; eapply twin_below; eauto]. intros [[st buf] e] l1 G.
  destruct (negb (status_known st)); [apply (bounded_after _ _ l _ G); apply bounded_report|]. destruct (negb (st_is_directory st)); [apply (bounded_after _ _ l _ G); apply bounded_report|].
  cbn [bounded]. split; [eapply twin_below_target; eauto|]. intros s a _. assert (G2 : forall d, grown l (l1 ++ [d])) by (intros; eapply grown_trans; [exact G|apply grown_snoc]).
  destruct a as [e2|u]; [destruct (errno_eqb e2 EEXIST)|]; cbn; auto. apply (bounded_after _ _ l _ (G2 _)). apply bounded_report.
Qed.

Lemma bounded_loop : forall cf rec n has from to, canon from -> canon to -> twin f g (native from) (native to) ->
  (forall l a b, canon a -> canon b -> twin f g (native a) (native b) -> bounded OK l (rec a b) (fun _ l1 => grown l l1)) ->
  forall k l it ec, iter_entry from it -> bounded OK l (copy_loop cf rec n has from to k it ec) (fun _ l1 => grown l l1).
Proof.
  intros cf rec n has from to Cf Ct Ht Hrec. induction k as [|k IH]; intros l it ec Hi; [exact Logic.I|]. cbn [copy_loop]. destruct (is_end it) eqn:E; [apply grown_refl|].
  destruct (failed ec).
  { apply bounded_scoped; [apply bounded_report|intros; apply bounded_destroy; [intros; exact Logic.I|auto]|intros; eapply grown_trans; eauto]. }
  apply bounded_bind. destruct it as [st|]; [|discriminate E]. pose proof Hi as [Hr (H1 & H2 & nm & H3 & H4)].
  apply bounded_unwinding; [|intros l1; apply bounded_destroy; [intros; exact Logic.I|auto]]. cbn [dir_iter_deref pbind].
  destruct (gives_filename (de_path (ds_entry st)) H2) as (fn & F1 & F2 & F3). rewrite F1. cbn [lift pbind].
  destruct (gives_div (cf_el cf) to fn Ct F2) as (to2 & D1 & D2 & D3). rewrite D1. cbn [lift pbind].
  rewrite F3, H4, after_entry in D3 by auto. destruct (good_plain _ H3) as (_ & Hns & _ & _).
  rewrite <- native_mkpath, native_is_text in D3 by (apply append_text_text; [apply canon_native; auto|apply noslash_text; auto]). rewrite entry_append in D3 by auto.
  eapply bounded_weaken; [|apply Hrec; auto].
  - intros [u e] l1 G. cbn [fst snd]. destruct (failed e).
    + apply bounded_bind. apply bounded_destroy; [intros; exact Logic.I|]. intros l2 G2. cbn. eapply grown_trans; eauto.
    + apply bounded_bind. eapply bounded_weaken; [|apply (bounded_increment OK ltac:(intros; exact Logic.I) ltac:(intros; exact Logic.I) cf n l1 from); exact Hi].
      intros [it1 ec1] l2 (G2 & Hi2). cbn [fst snd] in *. assert (G3 : grown l l2) by (eapply grown_trans; eauto). apply (bounded_after _ _ l _ G3). apply IH. exact Hi2.
  - rewrite H4, D3, Hr. apply twin_entry; auto.
Qed.

Lemma bounded_copy : forall cf n has from to opts l, canon from -> canon to -> twin f g (native from) (native to) ->
  bounded OK l (copy_impl cf n has from to opts) (fun _ l1 => grown l l1).
Proof.
  intros cf. induction n as [|n IH]; intros has from to opts l Cf Ct Ht; [exact Logic.I|]. cbn [copy_impl]. assert (Hf : below f (native from)) by (eapply twin_below; eauto). apply bounded_bind.
  eapply bounded_weaken; [|apply bounded_any_status; left; auto]. intros [[fst_ fs] e1] l1 G1.
  assert (Hbad : forall l2 e, grown l l2 -> bounded OK l2 (report has [from; to] tt e) (fun _ l3 => grown l l3)) by (intros; eapply bounded_after; eauto; apply bounded_report).
  destruct (failed e1); [apply Hbad; auto|]. apply bounded_bind. eapply bounded_weaken; [|apply bounded_any_status; right; exists (native from); left; auto]. intros [[tst ts] e2] l2 G.
  assert (G2 : grown l l2) by (eapply grown_trans; eauto). destruct (negb (status_known tst)); [apply Hbad; auto|].
  destruct (negb (st_exists fst_) || st_is_other fst_ || st_is_other tst || (st_is_directory fst_ && st_is_regular_file tst) || stat_equivalent fs ts); [apply Hbad; auto|].
  destruct (st_is_symlink fst_).
  { destruct (co_set co_skip_symlinks opts); [exact G2|]. destruct (negb (st_exists tst)); [|apply Hbad; auto]. apply (bounded_after _ _ l _ G2). apply bounded_copy_symlink; auto. }
  destruct (st_is_regular_file fst_).
  { destruct (co_set co_directories_only opts); [exact G2|]. destruct (co_set co_create_symlinks opts).
    { unfold create_symlink_impl. cbn [bounded]. split; [exists (native from); auto|]. intros s a _. apply bounded_simple. eapply grown_trans; [exact G2|apply grown_snoc]. }
    destruct (co_set co_create_hard_links opts).
    { unfold create_hard_link_impl. cbn [bounded]. split; [exact Ht|]. intros s a _. apply bounded_simple. eapply grown_trans; [exact G2|apply grown_snoc]. }
    apply (bounded_after _ _ l _ G2). destruct (st_is_directory tst).
    - destruct (gives_filename from Cf) as (fn & F1 & F2 & F3). rewrite F1. cbn [lift pbind].
      destruct (gives_div (cf_el cf) to fn Ct F2) as (to2 & D1 & D2 & D3). rewrite D1. cbn [lift pbind]. apply bounded_bind.
      eapply bounded_weaken; [|apply bounded_copy_file]; [intros r l3 G3; exact G3|].
      assert (Hns : noslash (native fn)) by (rewrite F3; apply noslash_after).
      rewrite <- native_mkpath, native_is_text in D3 by (apply append_text_text; [apply canon_native; auto|apply noslash_text; auto]). rewrite entry_append, F3 in D3 by auto.
      right. exists (native to). auto.
    - apply bounded_bind. eapply bounded_weaken; [|apply bounded_copy_file; left; exact Ht]. intros r l3 G3. exact G3. }
  destruct (st_is_directory fst_ && co_set co_create_symlinks opts); [apply Hbad; auto|].
  destruct (st_is_directory fst_ && (co_set co_recursive opts || N.eqb opts 0)); [|exact G2]. apply bounded_bind.
  assert (Hgo : forall (c : bool * ecode) l3, grown l l3 -> bounded OK l3 (if failed (snd c) then Ret (tt, snd c) else let! i := dir_iter_ctor cf n has from 0 in
     if failed (snd i) then Ret (tt, snd i) else copy_loop cf (fun a b => copy_impl cf n has a b opts) n has from to n (fst i) None) (fun _ l4 => grown l l4)).
  { intros c l3 G3. destruct (failed (snd c)); [exact G3|]. apply bounded_bind.
    eapply bounded_weaken; [|apply (bounded_ctor OK ltac:(intros; exact Logic.I) ltac:(intros; exact Logic.I) cf n has l3 from Cf Hf)].
    intros [it ec] l4 (G4 & Hi). cbn [fst snd] in *. assert (G5 : grown l l4) by (eapply grown_trans; eauto). destruct (failed ec); [exact G5|].
    apply (bounded_after _ _ l _ G5). apply bounded_loop; auto. }
  destruct (negb (st_exists tst)).
  - eapply bounded_weaken; [|apply bounded_mkdir_like; auto]. intros c l3 G3. apply Hgo. eapply grown_trans; eauto.
  - apply (Hgo (_, _)). exact G2.
Qed.
End Copy.

(** * C103 *)

(** Whatever the system answers, whatever other processes do and whatever the options are: copy(from, to) makes and changes things in the target only. *)
Theorem C103_copy : forall S (h : kernel S) cf n has from to opts s, honest_from h s -> canon from -> canon to ->
  heeds (copying (native from) (native to)) (snd (state_of (run (chronicled h) (copy_impl cf n has from to opts) (s, [])))).
Proof.
  intros S h cf n has from to opts s (I & Hi & Hh) Cf Ct. eapply (bounded_run (copying (native from) (native to)) _ _ h (fun u l => I u /\ heeds (copying (native from) (native to)) l) s []).
  - intros u l c [Hu Hl] Hc. destruct (Hh c u Hu) as [H1 H2]. split; [exact H1|]. split; [exact H2|]. apply kept_snoc; auto.
  - split; [exact Hi|]. intros a ? ? ? b H. destruct a; discriminate.
  - apply bounded_copy; auto. apply twin_self.
Qed.

(** A case: /a is copied to /c with everything below it while another process removes /a/f. *)
Example C103_copy_example :
  let others := repeat (fun u => u) 12 ++ [other_removes demo_choices (lit "/a/f")] in
  let record := snd (state_of (run (chronicled (interfered demo_choices)) (copy_impl plain_config 20 true (topath (lit "/a")) (topath (lit "/c")) (N.lor (copt_value co_recursive) (copt_value co_copy_symlinks))) ((demo, others), []))) in
  honest_from (interfered demo_choices) (demo, others) /\ canon (topath (lit "/a")) /\ canon (topath (lit "/c")) /\
  existsb (fun d => match d with Deed _ (c_mkdir t _) _ => str_eqb t (lit "/c/d") | _ => false end) record = true /\
  existsb (fun d => match d with Deed _ (c_open t O_WRITE_CREAT _) (Val _) => str_eqb t (lit "/c/d/g") | _ => false end) record = true.
Proof.
  cbv zeta. split; [|split; [right; eexists; reflexivity|split; [right; eexists; reflexivity|split; vm_compute; reflexivity]]].
  apply C102_honest; [apply demo_wf|intros h l []|]. intros f u Hf Hu. cbn [repeat app In] in Hf.
  assert (Hf2 : f = (fun u => u) \/ f = other_removes demo_choices (lit "/a/f")) by intuition auto. destruct Hf2 as [->| ->]; [auto|].
  exact (conj (wf_step demo_choices (c_remove (lit "/a/f")) u Hu) (dirs_step demo_choices (c_remove (lit "/a/f")) u Logic.I)).
Qed.

Print Assumptions C103_copy.
