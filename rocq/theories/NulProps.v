(** Properties of paths with a NUL character. *)
From Coq Require Import Ascii String Bool Arith NArith ZArith Lia.
From Verif Require Import Str PathModel PathSpec StrProofs PathProofs PathOps PathOps2 PathReach FlagsModel TimeModel Prog DirModel OpsModel
  OpsProps NulModel IterProps FS FSProofs FSSpec FSOps FSPlace FSProps FSIter FSRemove.
From Coq Require Import List.
Import ListNotations.

(** * Vocabulary *)

(** The text has a NUL character. *)
Definition has_nul (t : str) : Prop := In "000"%char t.

(** [a] is the text up to the first NUL character of [t], which is what a C function sees of it. *)
Definition before_nul (t a : str) : Prop := ~ has_nul a /\ (t = a \/ exists b, t = a ++ "000"%char :: b).

(** Two texts are the same up to the first NUL character. *)
Definition same_to_nul (t u : str) : Prop := exists a, before_nul t a /\ before_nul u a.

(** The same failure, not looking at the paths an exception carries. *)
Definition kin (f g : failure) : Prop :=
  match f, g with FThrow e _, FThrow e' _ => e = e' | _, _ => f = g end.

(** Two programs do the same to every system behind the C interface and give results related by [R]. *)
Definition alike {A B} (R : A -> B -> Prop) (p : prog A) (q : prog B) : Prop :=
  forall S (h : kernel S) s,
    match run (ckernel h) p s, run (ckernel h) q s with
    | Done a s1, Done b s2 => R a b /\ s1 = s2
    | Failed f s1, Failed g s2 => kin f g /\ s1 = s2
    | _, _ => False
    end.

(** * The C string *)

Lemma ctext_none : forall t, ~ has_nul t -> ctext t = t.
Proof.
  induction t as [|c t IH]; intros H; auto. cbn. destruct (Ascii.eqb_spec c "000"%char) as [->|Hc]; [exfalso; apply H; left; reflexivity|].
  f_equal. apply IH. intros Hi. apply H. right. auto.
Qed.
Lemma ctext_app : forall a b, ~ has_nul a -> ctext (a ++ b) = a ++ ctext b.
Proof.
  induction a as [|c a IH]; intros b H; auto. cbn. destruct (Ascii.eqb_spec c "000"%char) as [->|Hc]; [exfalso; apply H; left; reflexivity|].
  f_equal. apply IH. intros Hi. apply H. right. auto.
Qed.
Lemma ctext_app_nul : forall a b, has_nul a -> ctext (a ++ b) = ctext a.
Proof.
  induction a as [|c a IH]; intros b H; [destruct H|]. cbn. destruct (Ascii.eqb_spec c "000"%char) as [->|Hc]; auto.
  f_equal. apply IH. destruct H; auto. congruence.
Qed.
Lemma nul_dec : forall t, has_nul t \/ ~ has_nul t.
Proof. intros t. destruct (in_dec ascii_dec "000"%char t); auto. Qed.

Lemma ctext_before : forall t a, before_nul t a -> ctext t = a.
Proof.
  intros t a [Ha [->|[b ->]]]; [apply ctext_none; auto|]. rewrite ctext_app by auto. cbn. apply app_nil_r.
Qed.
Lemma ctext_clean : forall t, ~ has_nul (ctext t).
Proof.
  induction t as [|c t IH]; [intros []|]. cbn. destruct (Ascii.eqb_spec c "000"%char) as [->|Hc]; [intros []|].
  intros [H|H]; [congruence|auto].
Qed.
Lemma before_ctext : forall t, before_nul t (ctext t).
Proof.
  intros t. split; [apply ctext_clean|]. induction t as [|c t IH]; auto. cbn.
  destruct (Ascii.eqb_spec c "000"%char) as [->|Hc]; [right; exists t; reflexivity|].
  destruct IH as [IH|[b IH]]; [left; congruence|right; exists b; cbn; congruence].
Qed.
Lemma same_ctext : forall t u, same_to_nul t u -> ctext t = ctext u.
Proof. intros t u (a & H1 & H2). rewrite (ctext_before _ _ H1), (ctext_before _ _ H2). reflexivity. Qed.

(** * Programs that do the same *)

Lemma kin_refl : forall f, kin f f.
Proof. intros []; reflexivity. Qed.
Lemma kin_unwinds : forall f g, kin f g -> unwinds f = unwinds g.
Proof. intros [] [] H; cbn in *; auto; congruence. Qed.

Lemma alike_ret : forall A B (R : A -> B -> Prop) a b, R a b -> alike R (Ret a) (Ret b).
Proof. intros A B R a b H S h s. cbn. auto. Qed.
Lemma alike_stop : forall A B (R : A -> B -> Prop) f g, kin f g -> alike R (Stop f) (Stop g).
Proof. intros A B R f g H S h s. cbn. auto. Qed.
Lemma alike_refl : forall A (R : A -> A -> Prop) p, (forall a, R a a) -> alike R p p.
Proof. intros A R p H S h s. destruct (run (ckernel h) p s); auto using kin_refl. Qed.
Lemma alike_bind : forall A B C D (R : A -> B -> Prop) (Q : C -> D -> Prop) p q f g, alike R p q ->
  (forall a b, R a b -> alike Q (f a) (g b)) -> alike Q (pbind p f) (pbind q g).
Proof.
  intros A B C D R Q p q f g Hp Hf S h s. rewrite !run_bind. specialize (Hp S h s).
  destruct (run (ckernel h) p s), (run (ckernel h) q s); try contradiction; auto. destruct Hp as [Hr ->]. apply Hf. auto.
Qed.
Lemma alike_scoped : forall A B (R : A -> B -> Prop) p q c, alike R p q -> alike R (scoped p c) (scoped q c).
Proof.
  intros A B R p q c Hp S h s. rewrite !run_scoped. specialize (Hp S h s).
  destruct (run (ckernel h) p s) as [a s1|f s1], (run (ckernel h) q s) as [b s2|g s2]; try contradiction.
  - destruct Hp as [Hr ->]. destruct (run (ckernel h) c s2); auto using kin_refl.
  - destruct Hp as [Hr ->]. rewrite (kin_unwinds _ _ Hr). destruct (unwinds g); auto. destruct (run (ckernel h) c s2); auto using kin_refl.
Qed.
Lemma alike_report : forall A has ps qs (v : A) e, alike eq (report has ps v e) (report has qs v e).
Proof. intros A [] ps qs v e; [apply alike_ret|apply alike_stop]; reflexivity. Qed.

(** The same call as the system sees it. *)
Ltac same_c := intros; let S := fresh "S" in let h := fresh "h" in let s := fresh "s" in let r := fresh "r" in let s' := fresh "s'" in
  intros S h s; unfold ckernel; cbn [run ccall canswer];
  repeat match goal with H : ctext _ = ctext _ |- _ => rewrite !H; clear H end;
  match goal with |- context [h ?c s] => destruct (h c s) as [r s'] end;
  match goal with H : forall r, alike _ _ _ |- _ => exact (H r S h s') end.
Lemma alike_same : forall A B (R : A -> B -> Prop) c (k : answer c -> prog A) (k' : answer c -> prog B),
  (forall r, alike R (k r) (k' r)) -> alike R (Sys c k) (Sys c k').
Proof. intros A B R c k k' H S h s. cbn [run]. destruct (ckernel h c s) as [r s']. apply H. Qed.
Lemma alike_stat : forall A B (R : A -> B -> Prop) t u (k : answer (c_stat t) -> prog A) (k' : answer (c_stat u) -> prog B),
  ctext t = ctext u -> (forall r, alike R (k r) (k' r)) -> alike R (Sys (c_stat t) k) (Sys (c_stat u) k').
Proof. same_c. Qed.
Lemma alike_lstat : forall A B (R : A -> B -> Prop) t u (k : answer (c_lstat t) -> prog A) (k' : answer (c_lstat u) -> prog B),
  ctext t = ctext u -> (forall r, alike R (k r) (k' r)) -> alike R (Sys (c_lstat t) k) (Sys (c_lstat u) k').
Proof. same_c. Qed.
Lemma alike_open : forall A B (R : A -> B -> Prop) t u fl m (k : answer (c_open t fl m) -> prog A) (k' : answer (c_open u fl m) -> prog B),
  ctext t = ctext u -> (forall r, alike R (k r) (k' r)) -> alike R (Sys (c_open t fl m) k) (Sys (c_open u fl m) k').
Proof. same_c. Qed.
Lemma alike_mkdir : forall A B (R : A -> B -> Prop) t u m (k : answer (c_mkdir t m) -> prog A) (k' : answer (c_mkdir u m) -> prog B),
  ctext t = ctext u -> (forall r, alike R (k r) (k' r)) -> alike R (Sys (c_mkdir t m) k) (Sys (c_mkdir u m) k').
Proof. same_c. Qed.
Lemma alike_readlink : forall A B (R : A -> B -> Prop) t u z (k : answer (c_readlink t z) -> prog A) (k' : answer (c_readlink u z) -> prog B),
  ctext t = ctext u -> (forall r, alike R (k r) (k' r)) -> alike R (Sys (c_readlink t z) k) (Sys (c_readlink u z) k').
Proof. same_c. Qed.
Lemma alike_remove : forall A B (R : A -> B -> Prop) t u (k : answer (c_remove t) -> prog A) (k' : answer (c_remove u) -> prog B),
  ctext t = ctext u -> (forall r, alike R (k r) (k' r)) -> alike R (Sys (c_remove t) k) (Sys (c_remove u) k').
Proof. same_c. Qed.
Lemma alike_truncate : forall A B (R : A -> B -> Prop) t u z (k : answer (c_truncate t z) -> prog A) (k' : answer (c_truncate u z) -> prog B),
  ctext t = ctext u -> (forall r, alike R (k r) (k' r)) -> alike R (Sys (c_truncate t z) k) (Sys (c_truncate u z) k').
Proof. same_c. Qed.
Lemma alike_fchmodat : forall A B (R : A -> B -> Prop) t u m b (k : answer (c_fchmodat t m b) -> prog A) (k' : answer (c_fchmodat u m b) -> prog B),
  ctext t = ctext u -> (forall r, alike R (k r) (k' r)) -> alike R (Sys (c_fchmodat t m b) k) (Sys (c_fchmodat u m b) k').
Proof. same_c. Qed.
Lemma alike_utimensat : forall A B (R : A -> B -> Prop) t u z (k : answer (c_utimensat t z) -> prog A) (k' : answer (c_utimensat u z) -> prog B),
  ctext t = ctext u -> (forall r, alike R (k r) (k' r)) -> alike R (Sys (c_utimensat t z) k) (Sys (c_utimensat u z) k').
Proof. same_c. Qed.
Lemma alike_statvfs : forall A B (R : A -> B -> Prop) t u (k : answer (c_statvfs t) -> prog A) (k' : answer (c_statvfs u) -> prog B),
  ctext t = ctext u -> (forall r, alike R (k r) (k' r)) -> alike R (Sys (c_statvfs t) k) (Sys (c_statvfs u) k').
Proof. same_c. Qed.
Lemma alike_chdir : forall A B (R : A -> B -> Prop) t u (k : answer (c_chdir t) -> prog A) (k' : answer (c_chdir u) -> prog B),
  ctext t = ctext u -> (forall r, alike R (k r) (k' r)) -> alike R (Sys (c_chdir t) k) (Sys (c_chdir u) k').
Proof. same_c. Qed.
Lemma alike_realpath : forall A B (R : A -> B -> Prop) t u (k : answer (c_realpath t) -> prog A) (k' : answer (c_realpath u) -> prog B),
  ctext t = ctext u -> (forall r, alike R (k r) (k' r)) -> alike R (Sys (c_realpath t) k) (Sys (c_realpath u) k').
Proof. same_c. Qed.
Lemma alike_opendir : forall A B (R : A -> B -> Prop) t u (k : answer (c_opendir t) -> prog A) (k' : answer (c_opendir u) -> prog B),
  ctext t = ctext u -> (forall r, alike R (k r) (k' r)) -> alike R (Sys (c_opendir t) k) (Sys (c_opendir u) k').
Proof. same_c. Qed.
Lemma alike_symlink : forall A B (R : A -> B -> Prop) t u t2 u2 (k : answer (c_symlink t t2) -> prog A) (k' : answer (c_symlink u u2) -> prog B),
  ctext t = ctext u -> ctext t2 = ctext u2 -> (forall r, alike R (k r) (k' r)) -> alike R (Sys (c_symlink t t2) k) (Sys (c_symlink u u2) k').
Proof. same_c. Qed.
Lemma alike_link : forall A B (R : A -> B -> Prop) t u t2 u2 (k : answer (c_link t t2) -> prog A) (k' : answer (c_link u u2) -> prog B),
  ctext t = ctext u -> ctext t2 = ctext u2 -> (forall r, alike R (k r) (k' r)) -> alike R (Sys (c_link t t2) k) (Sys (c_link u u2) k').
Proof. same_c. Qed.
Lemma alike_rename : forall A B (R : A -> B -> Prop) t u t2 u2 (k : answer (c_rename t t2) -> prog A) (k' : answer (c_rename u u2) -> prog B),
  ctext t = ctext u -> ctext t2 = ctext u2 -> (forall r, alike R (k r) (k' r)) -> alike R (Sys (c_rename t t2) k) (Sys (c_rename u u2) k').
Proof. same_c. Qed.

Ltac ask :=
  first [ apply alike_stat; [assumption|] | apply alike_lstat; [assumption|] | apply alike_open; [assumption|] | apply alike_mkdir; [assumption|]
        | apply alike_readlink; [assumption|] | apply alike_remove; [assumption|] | apply alike_truncate; [assumption|]
        | apply alike_fchmodat; [assumption|] | apply alike_utimensat; [assumption|] | apply alike_statvfs; [assumption|]
        | apply alike_chdir; [assumption|] | apply alike_realpath; [assumption|] | apply alike_opendir; [assumption|]
        | apply alike_symlink; [assumption|assumption|] | apply alike_link; [assumption|assumption|] | apply alike_rename; [assumption|assumption|]
        | apply alike_same ]; intros.
Ltac walk1 :=
  match goal with
  | |- alike _ (Sys _ _) (Sys _ _) => ask
  | |- alike _ (report _ _ _ _) (report _ _ _ _) => apply alike_report
  | |- alike _ (Ret _) (Ret _) => apply alike_ret; reflexivity
  | |- alike _ (Stop _) (Stop _) => apply alike_stop; reflexivity
  | |- alike _ (pbind _ _) (pbind _ _) => eapply (alike_bind _ _ _ _ eq); [|intros ? ? <-]
  | |- alike _ (scoped _ _) (scoped _ _) => apply alike_scoped
  | |- alike _ ?p ?p => apply alike_refl; reflexivity
  | |- alike _ (match ?x with _ => _ end) (match ?x with _ => _ end) => destruct x
  end.
Ltac walks := repeat (first [walk1 | progress cbv beta zeta]).

Section Same.
Variables (cf : config) (p q : path) (p2 q2 : path).
Hypothesis H1 : ctext (native p) = ctext (native q).
Hypothesis H2 : ctext (native p2) = ctext (native q2).

Lemma same_create : forall p q has r, alike eq (CreateFileStatus has p r) (CreateFileStatus has q r).
Proof. intros p' q' has r. unfold CreateFileStatus. walks. Qed.
Lemma same_GetFileStatus : forall p q has, ctext (native p) = ctext (native q) -> alike eq (GetFileStatus has p) (GetFileStatus has q).
Proof. intros p' q' has H. unfold GetFileStatus. walks. apply same_create. Qed.
Lemma same_GetLinkStatus : forall p q has, ctext (native p) = ctext (native q) -> alike eq (GetLinkStatus has p) (GetLinkStatus has q).
Proof. intros p' q' has H. unfold GetLinkStatus. walks. apply same_create. Qed.
Lemma same_status : forall has, alike eq (status_impl has p) (status_impl has q).
Proof. intros has. unfold status_impl. walks. apply same_GetFileStatus; auto. Qed.
Lemma same_symlink_status : forall has, alike eq (symlink_status_impl has p) (symlink_status_impl has q).
Proof. intros has. unfold symlink_status_impl. walks. apply same_GetLinkStatus; auto. Qed.
Lemma same_exists : forall has, alike eq (exists_ has p) (exists_ has q).
Proof. intros has. unfold exists_. walks. apply same_status; auto. Qed.
Lemma same_is_type : forall t has, alike eq (is_type t has p) (is_type t has q).
Proof. intros t has. unfold is_type. walks. apply same_status; auto. Qed.
Lemma same_is_symlink : forall has, alike eq (is_symlink has p) (is_symlink has q).
Proof. intros has. unfold is_symlink. walks. apply same_symlink_status; auto. Qed.
Lemma same_is_other : forall has, alike eq (is_other has p) (is_other has q).
Proof. intros has. unfold is_other. walks. apply same_status; auto. Qed.
Lemma same_create_directory : forall has, alike eq (create_directory_impl has p) (create_directory_impl has q).
Proof. intros has. unfold create_directory_impl. walks. Qed.
Lemma same_create_directory_like : forall has, alike eq (create_directory_like_impl has p p2) (create_directory_like_impl has q q2).
Proof. intros has. unfold create_directory_like_impl. walks. apply same_GetFileStatus; auto. Qed.
Lemma same_simple : forall has ps qs r, alike eq (simple has ps r) (simple has qs r).
Proof. intros. unfold simple. walks. Qed.
Lemma same_create_directory_symlink : forall has, alike eq (create_directory_symlink_impl has p p2) (create_directory_symlink_impl has q q2).
Proof. intros has. unfold create_directory_symlink_impl. walks. apply same_simple. Qed.
Lemma same_create_symlink : forall has, alike eq (create_symlink_impl has p p2) (create_symlink_impl has q q2).
Proof. intros has. unfold create_symlink_impl. walks. apply same_simple. Qed.
Lemma same_create_hard_link : forall has, alike eq (create_hard_link_impl has p p2) (create_hard_link_impl has q q2).
Proof. intros has. unfold create_hard_link_impl. walks. apply same_simple. Qed.
Lemma same_set_current_path : forall has, alike eq (set_current_path_impl has p) (set_current_path_impl has q).
Proof. intros has. unfold set_current_path_impl. walks. apply same_simple. Qed.
Lemma same_file_size : forall has, alike eq (file_size_impl has p) (file_size_impl has q).
Proof. intros has. unfold file_size_impl. walks. apply same_GetFileStatus; auto. Qed.
Lemma same_hard_link_count : forall has, alike eq (hard_link_count_impl has p) (hard_link_count_impl has q).
Proof. intros has. unfold hard_link_count_impl. walks. apply same_GetFileStatus; auto. Qed.
Lemma same_rename : forall has, alike eq (rename_impl has p p2) (rename_impl has q q2).
Proof. intros has. unfold rename_impl. walks. apply same_simple. Qed.
Lemma same_resize : forall has z, alike eq (resize_file_impl has p z) (resize_file_impl has q z).
Proof. intros has z. unfold resize_file_impl. walks. apply same_simple. Qed.
Lemma same_space : forall has, alike eq (space_impl has p) (space_impl has q).
Proof. intros has. unfold space_impl. walks. Qed.
Lemma same_read_symlink : forall has, alike eq (read_symlink_impl cf has p) (read_symlink_impl cf has q).
Proof. intros has. unfold read_symlink_impl. walks. Qed.
Lemma same_last_write_time : forall has, alike eq (last_write_time_impl cf has p) (last_write_time_impl cf has q).
Proof. intros has. unfold last_write_time_impl, ExtractLastWriteTime. walks. apply same_GetFileStatus; auto. Qed.
Lemma same_set_last_write_time : forall has t, alike eq (set_last_write_time_impl cf has p t) (set_last_write_time_impl cf has q t).
Proof. intros has t. unfold set_last_write_time_impl. walks. apply same_simple. Qed.
Lemma same_permissions : forall has a b, alike eq (permissions_impl cf has p a b) (permissions_impl cf has q a b).
Proof.
  intros has a b. unfold permissions_impl. walks; try apply same_simple; try apply same_status; try apply same_symlink_status.
Qed.
Lemma same_copy_file : forall n has o, alike eq (copy_file_impl cf n has p p2 o) (copy_file_impl cf n has q q2 o).
Proof.
  intros n has o. unfold copy_file_impl, copy_file_from, copy_file_body, refresh_status.
  walks; first [apply same_GetFileStatus | apply same_GetLinkStatus]; auto.
Qed.
Lemma same_remove : forall has, (native p = [] <-> native q = []) -> alike eq (remove_impl has p) (remove_impl has q).
Proof.
  intros has H. unfold remove_impl. replace (empty q) with (empty p).
  - walks.
  - unfold empty. change (is_nil (native p) = is_nil (native q)). destruct (native p), (native q); auto; destruct H as [Ha Hb];
      [specialize (Ha eq_refl)|specialize (Hb eq_refl)]; discriminate.
Qed.
End Same.

(** * Operations that join paths *)

Lemma ctext_cong : forall a t u, ctext t = ctext u -> ctext (a ++ t) = ctext (a ++ u).
Proof.
  intros a t u H. destruct (nul_dec a) as [Ha|Ha]; [rewrite !ctext_app_nul by auto; auto|]. rewrite !ctext_app by auto. congruence.
Qed.
Lemma ctext_starts : forall t u, (t = [] <-> u = []) -> ctext t = ctext u -> starts_slash t = starts_slash u.
Proof.
  intros [|c t] [|d u] H He; auto; [discriminate (proj1 H eq_refl)|discriminate (proj2 H eq_refl)|].
  cbn in He |- *. destruct (Ascii.eqb_spec c "000"%char), (Ascii.eqb_spec d "000"%char); subst; try discriminate; auto. congruence.
Qed.
Lemma nil_iff : forall t u : str, (t = [] <-> u = []) -> is_nil t = is_nil u.
Proof. intros [|c t] [|d u] [Ha Hb]; auto; [specialize (Ha eq_refl)|specialize (Hb eq_refl)]; discriminate. Qed.
Lemma canon_absolute : forall E p, canon p -> is_absolute Posix E p = starts_slash (native p).
Proof.
  intros E p [->|[s ->]]; [destruct E as [? ? []]; reflexivity|]. rewrite is_absolute_mkpath, native_mkpath, starts_reported. reflexivity.
Qed.

Lemma same_equivalent : forall p q p2 q2 has, canon p -> canon q -> canon p2 -> canon q2 ->
  ctext (native p) = ctext (native q) -> ctext (native p2) = ctext (native q2) ->
  alike eq (equivalent_impl has p p2) (equivalent_impl has q q2).
Proof.
  intros p q p2 q2 has Hp Hq Hp2 Hq2 H1 H2. unfold equivalent_impl, topath.
  assert (Ht : forall x, canon x -> native (split_components Posix (native x)) = native x).
  { intros x Hx. apply native_is_text, canon_native. auto. }
  walks; apply same_GetFileStatus; rewrite !Ht; auto.
Qed.

Lemma same_copy_symlink : forall cf p q p2 q2 has, ctext (native p) = ctext (native q) -> ctext (native p2) = ctext (native q2) ->
  alike eq (copy_symlink_impl cf has p p2) (copy_symlink_impl cf has q q2).
Proof.
  intros cf p q p2 q2 has H1 H2. unfold copy_symlink_impl. walks; [apply same_read_symlink; auto|]. apply same_create_symlink; auto.
Qed.

Lemma same_absolute : forall cf p q has, canon p -> canon q -> (native p = [] <-> native q = []) -> ctext (native p) = ctext (native q) ->
  alike (fun a b => ctext (native (fst (fst a))) = ctext (native (fst (fst b))) /\ snd (fst a) = snd (fst b) /\ snd a = snd b)
    (do_absolute_impl cf has p) (do_absolute_impl cf has q).
Proof.
  intros cf p q has Hp Hq Hn H. unfold do_absolute_impl. rewrite !canon_absolute by auto. rewrite (ctext_starts _ _ Hn H).
  destruct (starts_slash (native q)) eqn:Hs; [apply alike_ret; auto|].
  eapply (alike_bind _ _ _ _ (fun a b => a = b /\ canon (fst a))).
  { unfold current_path_impl. walks.
    - destruct has; [apply alike_ret; split; auto; left; reflexivity|apply alike_stop; reflexivity].
    - apply alike_ret. split; auto. apply canon_mkpath. }
  intros [cwd ec] ? [<- Hc]. destruct (failed ec); [apply alike_ret; auto|].
  destruct (gives_div (cf_el cf) cwd p Hc Hp) as (x & -> & _ & Hx). destruct (gives_div (cf_el cf) cwd q Hc Hq) as (y & -> & _ & Hy).
  cbn [lift pbind]. apply alike_ret. cbn [fst snd]. split; auto. rewrite Hx, Hy.
  pose proof (ctext_starts _ _ Hn H) as Hs2. rewrite Hs in Hs2.
  unfold append_text. rewrite Hs, Hs2. set (a := native cwd) in *. set (b := if is_nil _ then _ else _).
  assert (Hr : forall t c, starts_slash (c :: t) = false -> reported_text (a ++ b ++ c :: t) = a ++ b ++ c :: t).
  { intros t c Hc'. unfold reported_text, only_slashes. rewrite !forallb_app. cbn in Hc' |- *. rewrite Hc'.
    rewrite !andb_false_r. reflexivity. }
  destruct (native p) as [|c t], (native q) as [|d u]; auto;
    [discriminate (proj1 Hn eq_refl)|discriminate (proj2 Hn eq_refl)|].
  rewrite !Hr by auto. apply ctext_cong, ctext_cong. auto.
Qed.

Lemma same_canonical : forall cf p q has, canon p -> canon q -> (native p = [] <-> native q = []) -> ctext (native p) = ctext (native q) ->
  alike eq (canonical_impl cf has p) (canonical_impl cf has q).
Proof.
  intros cf p q has Hp Hq Hn H. unfold canonical_impl. eapply alike_bind; [apply same_absolute; eauto|].
  intros [[pa cwd] ec] [[qa cwd'] ec'] (Ha & Hb & Hc). cbn [fst snd] in *. subst. walks.
Qed.

Lemma same_advance : forall cf n d p q e e2, canon p -> canon q ->
  alike (fun a b => fst a = fst b /\ ds_handle (snd a) = ds_handle (snd b)) (advance cf n (Stream d p e)) (advance cf n (Stream d q e2)).
Proof.
  intros cf n d p q e e2 Hp Hq. induction n as [|n IH]; cbn [advance ds_handle ds_root ds_entry]; [walks|].
  destruct d as [d|]; [|walks]. eapply (alike_bind _ _ _ _ eq); [apply alike_refl; auto|].
  intros [[name t] ec] ? <-. destruct (str_eqb name (lit ".") || str_eqb name (lit "..")); auto.
  destruct (failed ec || is_nil name).
  - apply alike_same. intros _. apply alike_ret. auto.
  - destruct (gives_div (cf_el cf) p (split_components Posix name) Hp (canon_mkpath name)) as (x & -> & _ & _).
    destruct (gives_div (cf_el cf) q (split_components Posix name) Hq (canon_mkpath name)) as (y & -> & _ & _).
    cbn [lift pbind]. apply alike_ret. auto.
Qed.

Lemma same_is_empty : forall cf p q n has, canon p -> canon q -> ctext (native p) = ctext (native q) ->
  alike eq (is_empty_impl cf n has p) (is_empty_impl cf n has q).
Proof.
  intros cf p q n has Hp Hq H. unfold is_empty_impl. walks; [apply same_GetFileStatus; auto|].
  unfold is_empty_directory, dir_iter_ctor, stream_ctor.
  eapply (alike_bind _ _ _ _ (fun a b => snd a = snd b /\
    match fst a, fst b with Some x, Some y => ds_handle x = ds_handle y | None, None => True | _, _ => False end)).
  - eapply (alike_bind _ _ _ _ (fun a b => fst a = fst b /\ ds_handle (snd a) = ds_handle (snd b))).
    + apply alike_opendir; [auto|]. intros [e1|d1]; [apply alike_ret; auto|]. eapply alike_bind; [apply (same_advance cf n (Some _) p q entry_default entry_default); auto|].
      intros [[b ec] x] [[b' ec'] y] [Ha Hb]. cbn [fst snd] in *. injection Ha as <- <-. apply alike_ret. cbn [fst snd]. auto.
    + intros [ec x] [ec' y] [Ha Hb]. cbn [fst snd] in *. subst ec'. unfold good. rewrite Hb. destruct (ds_handle y) eqn:He.
      * apply alike_ret. cbn [fst snd]. split; congruence.
      * destruct (failed ec); [destruct has; [apply alike_ret; cbn [fst snd]; auto|apply alike_stop; reflexivity]|apply alike_ret; cbn [fst snd]; auto].
  - intros [i ec] [j ec'] [Ha Hb]. cbn [fst snd] in *. subst ec'. destruct (failed ec); [walks|].
    unfold dir_iter_destroy. destruct i as [x|], j as [y|]; try contradiction; cbn [is_end]; [|walks].
    unfold stream_destroy. rewrite Hb. destruct (ds_handle y); walks.
Qed.

(** * What remove_all does *)

Lemma crun_advance : forall cf S (h : kernel S) n st s, run (ckernel h) (advance cf n st) s = run h (advance cf n st) s.
Proof.
  intros cf S h. induction n as [|n IH]; intros st s; cbn [advance]; auto. destruct (ds_handle st) as [d|]; auto.
  rewrite !run_bind. unfold posix_readdir. rewrite !run_sys.
  assert (H : ckernel h (c_readdir d) s = h (c_readdir d) s) by (unfold ckernel; cbn; destruct (h (c_readdir d) s); reflexivity).
  rewrite H. destruct (h (c_readdir d) s) as [r s1]. cbn [fst snd].
  assert (Hr : forall p : prog (str * file_type * ecode), (exists a, p = Ret a) \/ (exists f, p = Stop f) ->
    (match run (ckernel h) p s1 with Done x s2 => run (ckernel h) ((fun r => let '(name, t, ec) := r in
          if str_eqb name (lit ".") || str_eqb name (lit "..") then advance cf n st
          else if failed ec || is_nil name then
            Sys (c_closedir d) (fun _ => Ret (false, ec, Stream None (ds_root st) (ds_entry st)))
          else
            let! p := lift (path_div Posix (cf_el cf) (ds_root st) (split_components Posix name)) in
            Ret (true, ec, Stream (Some d) (ds_root st) (Entry p (iter_data (de_data (ds_entry st)) t)))) x) s2 | Failed e s2 => Failed e s2 end) =
    (match run h p s1 with Done x s2 => run h ((fun r => let '(name, t, ec) := r in
          if str_eqb name (lit ".") || str_eqb name (lit "..") then advance cf n st
          else if failed ec || is_nil name then
            Sys (c_closedir d) (fun _ => Ret (false, ec, Stream None (ds_root st) (ds_entry st)))
          else
            let! p := lift (path_div Posix (cf_el cf) (ds_root st) (split_components Posix name)) in
            Ret (true, ec, Stream (Some d) (ds_root st) (Entry p (iter_data (de_data (ds_entry st)) t)))) x) s2 | Failed e s2 => Failed e s2 end)).
  { intros p [[[[name t] ec] ->]|[f ->]]; cbn [run]; auto.
    destruct (str_eqb name (lit ".") || str_eqb name (lit "..")); auto. destruct (failed ec || is_nil name).
    - rewrite !run_sys. assert (H2 : ckernel h (c_closedir d) s1 = h (c_closedir d) s1).
      { unfold ckernel. cbn. destruct (h (c_closedir d) s1); reflexivity. }
      rewrite H2. reflexivity.
    - destruct (path_div _ _ _ _); reflexivity. }
  apply Hr. destruct r as [e|[[name t]|]]; eauto. destruct t; cbn; eauto.
Qed.

Lemma has_nul_append : forall t n, has_nul t -> starts_slash n = false -> has_nul (append_text t n) /\ ctext (append_text t n) = ctext t.
Proof.
  intros t n H Hn. unfold append_text. rewrite Hn. split; [apply in_or_app; auto|]. apply ctext_app_nul. auto.
Qed.

Lemma crun_symlink_status : forall k s p,
  run (ckernel (fsk k)) (symlink_status_impl true p) s =
  Done (let r := stat_result s (node_at s (find_at k s false (ctext (native p)))) in (fst (fst r), snd r)) s.
Proof.
  intros. unfold symlink_status_impl, GetLinkStatus. rewrite run_bind, run_sys. unfold ckernel at 2 4. cbn [ccall canswer fsk fst snd].
  rewrite sys_stat_node.
  destruct (node_at s (find_at k s false (ctext (native p)))) as [e|x]; rewrite run_bind; unfold CreateFileStatus.
  - unfold stat_result, missing_status. destruct (errno_eqb e ENOENT || errno_eqb e ENOTDIR); reflexivity.
  - rewrite stat_of_type, stat_of_perms. reflexivity.
Qed.

(** A path with a NUL whose C string names a directory that is not empty: the first entry is removed as the directory itself,
    and so on without end, every step leaving a stream open. *)
Lemma nul_remove_all : forall cf k q i name c es n s p l, wf s -> canon p -> has_nul (native p) ->
  find_at k s false (ctext (native p)) = Found l q -> get (f_root s) q = Some (Dir i ((name, c) :: es)) ->
  exists s', run (ckernel (fsk k)) (do_remove_all_impl cf n p) s = Failed FFuel s' /\
    f_root s' = f_root s /\ f_body s' = f_body s /\ f_meta s' = f_meta s /\ f_next s' = f_next s /\ f_cwd s' = f_cwd s /\
    n + length (f_dirs s) <= length (f_dirs s') + 3.
Proof.
  intros cf k q i name c es. induction n as [|n IH]; intros s p l Hw Hp Hnul Hf Hg.
  { exists s. cbn. repeat split; auto. lia. }
  assert (Hlook : look (f_root s) q = Some (NDir i)) by (apply look_dir; eauto).
  pose proof (find_dir_true _ _ _ _ _ _ Hf Hlook) as Ht.
  pose proof (wf_get _ _ _ (wf_root s Hw) Hg) as Hwt. apply wf_tree_dir in Hwt as (_ & Hgn & _).
  inversion Hgn as [|? ? Hname _]; subst. cbn [fst] in Hname.
  assert (Hst : stat_result s (node_at s (find_at k s false (ctext (native p)))) = (status_of s (NDir i), stat_of s (NDir i), None)).
  { rewrite Hf. unfold node_at. rewrite Hlook. reflexivity. }
  cbn [do_remove_all_impl]. rewrite run_bind, crun_symlink_status, Hst. cbn [fst snd failed].
  change (st_is_directory (status_of s (NDir i))) with true. cbn iota. rewrite run_bind, run_bind.
  unfold dir_iter_ctor at 1, stream_ctor at 1. rewrite run_bind, run_sys.
  assert (Ho : ckernel (fsk k) (c_opendir (native p)) s = sys_opendir k s (ctext (native p))).
  { unfold ckernel. cbn [ccall canswer fsk]. destruct (sys_opendir k s (ctext (native p))); reflexivity. }
  rewrite Ho. unfold sys_opendir. rewrite Ht, Hg. cbn [fst snd]. rewrite run_bind, crun_advance.
  set (s1 := new_handle (set_dirs s ((f_handle s, dot_entries k ++ listing k s ((name, c) :: es)) :: f_dirs s))).
  assert (Hd1 : f_dirs s1 = (f_handle s, dot_entries k ++ listing k s ((name, c) :: es)) :: f_dirs s) by reflexivity.
  destruct n as [|[|[|n]]].
  - exists s1. cbn [advance run]. repeat split; auto. rewrite Hd1. cbn [length]. lia.
  - set (d := if k_dtype k then DT_DIR else DT_UNKNOWN).
    assert (Hdo : d <> DT_OTHER) by (unfold d; destruct (k_dtype k); discriminate).
    exists (set_dirs s1 ((f_handle s, (lit "..", d) :: listing k s ((name, c) :: es)) :: f_dirs s)). split.
    + cbn [advance ds_handle]. rewrite run_bind, run_readdir. cbn [fsk].
      rewrite (head_readdir s1 (f_handle s) (lit ".", d) ((lit "..", d) :: listing k s ((name, c) :: es)) (f_dirs s)) by reflexivity.
      destruct d; try congruence; reflexivity.
    + repeat split; auto. cbn [set_dirs f_dirs length]. lia.
  - exists (set_dirs s1 ((f_handle s, listing k s ((name, c) :: es)) :: f_dirs s)). split.
    + rewrite (fs_advance_dots cf k _ _ _ (listing k s ((name, c) :: es)) (f_dirs s)) by reflexivity. reflexivity.
    + repeat split; auto. cbn [set_dirs f_dirs length]. lia.
  - rewrite (fs_advance_dots cf k _ _ _ (listing k s ((name, c) :: es)) (f_dirs s)) by reflexivity.
    destruct (fs_advance cf k n (set_dirs s1 ((f_handle s, listing k s ((name, c) :: es)) :: f_dirs s)) (f_handle s) name (dtype_of k s c)
      (listing k s es) (f_dirs s) p entry_default eq_refl Hname (dtype_of_ok _ _ _) Hp) as (p' & Hr & Hc & Hnp).
    rewrite Hr. cbn [run good ds_handle fst snd].
    match type of Hr with _ = Done _ ?x => set (s2 := x) in * end.
    assert (Hss : starts_slash name = false).
    { pose proof (good_plain _ Hname) as (_ & Hns & _). destruct name as [|a name]; [reflexivity|].
      unfold noslash in Hns. cbn in Hns |- *. destruct (is_slash a); [discriminate|reflexivity]. }
    destruct (has_nul_append (native p) name Hnul Hss) as [Hnu Hcu]. rewrite <- Hnp in Hnu, Hcu.
    destruct (IH s2 p' l) as (s' & Hrun & R1 & R2 & R3 & R4 & R5 & R6); auto.
    { apply (wf_unchanged s); auto. } { rewrite Hcu. exact Hf. }
    exists s'. split.
    + cbn [remove_loop failed is_end orb]. rewrite run_bind, run_unwinding, run_bind. cbn [dir_iter_deref run ds_entry de_path].
      rewrite Hrun. reflexivity.
    + repeat split; auto. change (f_dirs s2) with ((f_handle s, listing k s es) :: f_dirs s) in R6. cbn [length] in R6. lia.
Qed.

(** * C91 *)

(** Operations do not tell apart paths whose texts are the same up to the first NUL: on every system they make the same changes, and
    give the same result or the same error; only the paths an exception carries differ. [p] and [q] are the same to the system, and so are [p2] and [q2]. *)
Theorem C91_text_before_nul : forall cf p q p2 q2, canon p -> canon q -> canon p2 -> canon q2 ->
  same_to_nul (native p) (native q) -> same_to_nul (native p2) (native q2) -> (native p = [] <-> native q = []) ->
  forall has,
  alike eq (status_impl has p) (status_impl has q) /\
  alike eq (symlink_status_impl has p) (symlink_status_impl has q) /\
  alike eq (exists_ has p) (exists_ has q) /\
  (forall t, alike eq (is_type t has p) (is_type t has q)) /\
  alike eq (is_symlink has p) (is_symlink has q) /\
  alike eq (is_other has p) (is_other has q) /\
  alike eq (file_size_impl has p) (file_size_impl has q) /\
  alike eq (hard_link_count_impl has p) (hard_link_count_impl has q) /\
  (forall n, alike eq (is_empty_impl cf n has p) (is_empty_impl cf n has q)) /\
  alike eq (equivalent_impl has p p2) (equivalent_impl has q q2) /\
  alike eq (last_write_time_impl cf has p) (last_write_time_impl cf has q) /\
  alike eq (space_impl has p) (space_impl has q) /\
  alike eq (read_symlink_impl cf has p) (read_symlink_impl cf has q) /\
  alike eq (canonical_impl cf has p) (canonical_impl cf has q) /\
  alike eq (create_directory_impl has p) (create_directory_impl has q) /\
  alike eq (create_directory_like_impl has p p2) (create_directory_like_impl has q q2) /\
  alike eq (create_symlink_impl has p p2) (create_symlink_impl has q q2) /\
  alike eq (create_directory_symlink_impl has p p2) (create_directory_symlink_impl has q q2) /\
  alike eq (create_hard_link_impl has p p2) (create_hard_link_impl has q q2) /\
  alike eq (copy_symlink_impl cf has p p2) (copy_symlink_impl cf has q q2) /\
  (forall n o, alike eq (copy_file_impl cf n has p p2 o) (copy_file_impl cf n has q q2 o)) /\
  alike eq (set_current_path_impl has p) (set_current_path_impl has q) /\
  (forall t, alike eq (set_last_write_time_impl cf has p t) (set_last_write_time_impl cf has q t)) /\
  (forall a b, alike eq (permissions_impl cf has p a b) (permissions_impl cf has q a b)) /\
  (forall z, alike eq (resize_file_impl has p z) (resize_file_impl has q z)) /\
  alike eq (rename_impl has p p2) (rename_impl has q q2) /\
  alike eq (remove_impl has p) (remove_impl has q).
Proof.
  intros cf p q p2 q2 Hp Hq Hp2 Hq2 H1 H2 Hn has. apply same_ctext in H1, H2.
  split; [apply same_status; auto|]. split; [apply same_symlink_status; auto|]. split; [apply same_exists; auto|].
  split; [intros; apply same_is_type; auto|]. split; [apply same_is_symlink; auto|]. split; [apply same_is_other; auto|].
  split; [apply same_file_size; auto|]. split; [apply same_hard_link_count; auto|]. split; [intros; apply same_is_empty; auto|].
  split; [apply same_equivalent; auto|]. split; [apply same_last_write_time; auto|]. split; [apply same_space; auto|].
  split; [apply same_read_symlink; auto|]. split; [apply same_canonical; auto|]. split; [apply same_create_directory; auto|].
  split; [apply same_create_directory_like; auto|]. split; [apply same_create_symlink; auto|]. split; [apply same_create_directory_symlink; auto|].
  split; [apply same_create_hard_link; auto|]. split; [apply same_copy_symlink; auto|]. split; [intros; apply same_copy_file; auto|].
  split; [apply same_set_current_path; auto|]. split; [intros; apply same_set_last_write_time; auto|]. split; [intros; apply same_permissions; auto|].
  split; [intros; apply same_resize; auto|]. split; [apply same_rename; auto|]. apply same_remove; auto.
Qed.

(** A non-trivial case: f, and f followed by a NUL and more, a file that is removed. *)
Definition nul_path (a b : string) : path := mkpath (lit a ++ "000"%char :: lit b).
Example C91_example :
  same_to_nul (native (nul_path "f" ".bak")) (lit "f") /\ native (nul_path "f" ".bak") <> lit "f" /\
  (forall l q, find_entry demo_choices demo (native (nul_path "f" ".bak")) <> Found l q) /\
  exists s', run (ckernel (fsk demo_choices)) (remove_impl true (nul_path "f" ".bak")) demo = Done (true, None) s' /\
    look (f_root demo) [lit "a"; lit "f"] = Some (NLeaf 3) /\ look (f_root s') [lit "a"; lit "f"] = None.
Proof.
  split.
  { exists (lit "f"). split; split; [| |intros [H|[]]; discriminate|left; reflexivity].
    - intros [H|[]]; discriminate.
    - right. exists (lit ".bak"). reflexivity. }
  split; [discriminate|]. split; [vm_compute; discriminate|]. eexists. split; [vm_compute; reflexivity|]. split; vm_compute; reflexivity.
Qed.

(** So a path that names nothing by its text deletes another file: any entry that is not a directory, by its name followed by a NUL and any text. *)
Theorem C91_wrong_file_refuted : forall k s has a b l q i, wf s -> ~ has_nul a -> find_entry k s a = Found l q -> look (f_root s) q = Some (NLeaf i) ->
  ends_slash a = false -> q <> [] -> plain (last_name a) = true ->
  exists s', run (ckernel (fsk k)) (remove_impl has (mkpath (a ++ "000"%char :: b))) s = Done (true, None) s' /\
    look (f_root s') q = None.
Proof.
  intros k s has a b l q i Hw Ha Hf Hq He Hq0 Hpl.
  assert (Hane : a <> []). { intros ->. discriminate. }
  assert (Hnat : forall r, native (mkpath (a ++ "000"%char :: r)) = a ++ "000"%char :: r).
  { intros r. rewrite native_mkpath. unfold reported_text, only_slashes. rewrite forallb_app. cbn [forallb].
    change (is_slash "000"%char) with false. cbn [andb]. rewrite !andb_false_r. reflexivity. }
  assert (Hg : exists c, get (f_root s) q = Some c /\ c = Leaf i).
  { unfold look in Hq. destruct (get (f_root s) q) as [[j|j es]|]; try discriminate. injection Hq as ->. eauto. }
  destruct Hg as (c & Hg & ->).
  exists (unlink s (removelast q) (last q []) i).
  assert (Hrun : run (ckernel (fsk k)) (remove_impl has (mkpath (a ++ "000"%char :: b))) s = Done (true, None) (unlink s (removelast q) (last q []) i)).
  { unfold remove_impl, empty. change (pathname (mkpath (a ++ "000"%char :: b))) with (native (mkpath (a ++ "000"%char :: b))).
    rewrite Hnat. replace (is_nil (a ++ "000"%char :: b)) with false by (destruct a; reflexivity).
    rewrite run_sys. assert (Hk : ckernel (fsk k) (c_remove (a ++ "000"%char :: b)) s = sys_remove k s a).
    { unfold ckernel. cbn [ccall canswer fsk]. rewrite ctext_app by auto. cbn [ctext Ascii.eqb]. rewrite app_nil_r.
      destruct (sys_remove k s a); reflexivity. }
    rewrite Hk. unfold plain in Hpl. apply andb_true_iff in Hpl as [Hpl Hp2]. apply andb_true_iff in Hpl as [_ Hp1].
    apply negb_true_iff in Hp1, Hp2. unfold sys_remove. rewrite Hf, Hp1, Hp2, Hg, He. destruct q; [congruence|]. reflexivity. }
  split; auto.
  assert (Ht : native (topath a) = a).
  { apply native_is_text, names_is_text. intros Hna. unfold last_name in Hpl. rewrite Hna in Hpl. discriminate. }
  pose proof (run_remove_last k s (topath a) q _ eq_refl l) as Hr. rewrite Ht in Hr.
  specialize (Hr Hf Hq0 Hpl _ Hg He). pose proof (C27_remove k s true (topath a) Hw) as Hc. rewrite Hr, Ht in Hc.
  destruct Hc as (_ & q' & x & (l' & Hf' & _) & _ & Hgone & _). rewrite Hf in Hf'. injection Hf' as <- <-. exact Hgone.
Qed.

Example C91_wrong_file_example :
  find_entry demo_choices demo (lit "f") = Found 40 [lit "a"; lit "f"] /\ look (f_root demo) [lit "a"; lit "f"] = Some (NLeaf 3) /\
  plain (last_name (lit "f")) = true /\ find_entry demo_choices demo (lit "f" ++ "000"%char :: lit ".bak") = Missing [lit "a"] (lit "f" ++ "000"%char :: lit ".bak").
Proof. repeat split; vm_compute; reflexivity. Qed.

(** remove_all acts otherwise: when the text before the NUL names a directory that is not empty, the path of every entry names, to the system, the
    directory itself, so that the call opens it again and again and does not end; nothing is deleted. (On a system that limits
    open streams the last opendir fails, which is reported.) *)
Theorem C91_remove_all_refuted : forall cf k s has t l q i e es, wf s -> has_nul t ->
  find_at k s false (ctext t) = Found l q -> get (f_root s) q = Some (Dir i (e :: es)) ->
  forall n, exists s', run (ckernel (fsk k)) (remove_all_impl cf n has (mkpath t)) s = Failed FFuel s' /\
    f_root s' = f_root s /\ f_body s' = f_body s /\ f_meta s' = f_meta s /\
    n + length (f_dirs s) <= length (f_dirs s') + 3.
Proof.
  intros cf k s has t l q i [name c] es Hw Hn Hf Hg n.
  assert (Hnat : native (mkpath t) = t).
  { rewrite native_mkpath. unfold reported_text. destruct (only_slashes t) eqn:Ho; [|rewrite andb_false_r; reflexivity].
    exfalso. unfold only_slashes in Ho. rewrite forallb_forall in Ho. specialize (Ho _ Hn). discriminate. }
  destruct (nul_remove_all cf k q i name c es n s (mkpath t) l Hw (canon_mkpath t)) as (s' & Hr & R1 & R2 & R3 & R4 & R5 & R6).
  { rewrite Hnat. auto. } { rewrite Hnat. auto. } { auto. }
  exists s'. split; auto. unfold remove_all_impl, empty. change (pathname (mkpath t)) with (native (mkpath t)). rewrite Hnat.
  destruct t as [|a t]; [destruct Hn|]. cbn [is_nil]. rewrite run_bind, Hr. reflexivity.
Qed.

Example C91_remove_all_example :
  has_nul (lit "d" ++ "000"%char :: lit "x") /\ ctext (lit "d" ++ "000"%char :: lit "x") = lit "d" /\
  find_at demo_choices demo false (lit "d") = Found 40 [lit "a"; lit "d"] /\ get (f_root demo) [lit "a"; lit "d"] = Some (Dir 5 [(lit "g", Leaf 6)]) /\
  match run (ckernel (fsk demo_choices)) (remove_all_impl plain_config 9 true (nul_path "d" "x")) demo with
  | Failed FFuel s' => map fst (f_dirs s') = [6; 5; 4; 3; 2; 1; 0]%N
  | _ => False
  end.
Proof.
  split; [right; left; reflexivity|]. split; [vm_compute; reflexivity|]. split; [vm_compute; reflexivity|].
  split; [vm_compute; reflexivity|]. vm_compute; reflexivity.
Qed.

(** Entries: what an iterator over such a path delivers are paths that name, to the system, the directory itself. Names are without slash. *)
Theorem C91_entries_refuted : forall cf S (h : kernel S) s n has p o st e s', canon p -> has_nul (native p) ->
  (forall d s1 name t s2, h (c_readdir d) s1 = (Val (Some (name, t)), s2) -> noslash name) ->
  (run (ckernel h) (dir_iter_ctor cf n has p o) s = Done (Some st, e) s' ->
     ds_root st = p /\ same_to_nul (native (de_path (ds_entry st))) (native p)) /\
  (forall st0, ds_root st0 = p -> run (ckernel h) (dir_iter_increment cf n has (Some st0)) s = Done (Some st, e) s' ->
     ds_root st = p /\ same_to_nul (native (de_path (ds_entry st))) (native p)).
Proof.
  intros cf S h s n has p o st e s' Hp Hn Hname.
  assert (Hadv : forall n s st0, ds_root st0 = p ->
    match run h (advance cf n st0) s with
    | Done (b, ec, st1) _ => ds_root st1 = p /\ (b = true -> same_to_nul (native (de_path (ds_entry st1))) (native p)) /\ (b = false -> ds_handle st1 = None)
    | Failed _ _ => True
    end).
  { clear st e s' s n. induction n as [|n IH]; intros s st0 H0; cbn [advance]; [exact Logic.I|].
    destruct (ds_handle st0) as [d|]; [|exact Logic.I]. rewrite run_bind, run_readdir.
    set (f := fun r : str * file_type * ecode => let '(name, t, ec) := r in
          if str_eqb name (lit ".") || str_eqb name (lit "..") then advance cf n st0
          else if failed ec || is_nil name then
            Sys (c_closedir d) (fun _ => Ret (false, ec, Stream None (ds_root st0) (ds_entry st0)))
          else
            pbind (lift (path_div Posix (cf_el cf) (ds_root st0) (split_components Posix name))) (fun p =>
            Ret (true, ec, Stream (Some d) (ds_root st0) (Entry p (iter_data (de_data (ds_entry st0)) t))))).
    assert (Hf : forall name t ec s1, noslash name ->
      match run h (f (name, t, ec)) s1 with
      | Done (b, ec, st1) _ => ds_root st1 = p /\ (b = true -> same_to_nul (native (de_path (ds_entry st1))) (native p)) /\ (b = false -> ds_handle st1 = None)
      | Failed _ _ => True
      end).
    { intros name t ec s1 Hns. unfold f. destruct (str_eqb name (lit ".") || str_eqb name (lit "..")); [apply IH; auto|].
      destruct (failed ec || is_nil name) eqn:Hnil.
      - rewrite run_sys. cbn [run ds_root ds_handle]. repeat split; auto. discriminate.
      - destruct (gives_div (cf_el cf) (ds_root st0) (split_components Posix name)) as (x & Hx & _ & Hxn); [subst p; auto|apply canon_mkpath|].
        rewrite Hx. cbn [lift pbind run ds_root ds_entry de_path ds_handle]. repeat split; auto; [|discriminate]. intros _. rewrite H0 in Hxn.
        assert (Hnn : native (split_components Posix name) = name) by (apply native_is_text, noslash_text; auto). rewrite Hnn in Hxn.
        assert (Hss : starts_slash name = false).
        { destruct name as [|a name]; [reflexivity|]. unfold noslash in Hns. cbn in Hns |- *. destruct (is_slash a); [discriminate|reflexivity]. }
        destruct (has_nul_append (native p) name Hn Hss) as [Hnu Hcu].
        assert (Hre : reported_text (append_text (native p) name) = append_text (native p) name).
        { unfold reported_text. destruct (only_slashes (append_text (native p) name)) eqn:Ho; [|rewrite andb_false_r; reflexivity].
          exfalso. unfold only_slashes in Ho. rewrite forallb_forall in Ho. specialize (Ho _ Hnu). discriminate. }
        rewrite Hxn, Hre. exists (ctext (native p)). split; [rewrite <- Hcu|]; apply before_ctext. }
    destruct (h (c_readdir d) s) as [[er|[[name t]|]] s1] eqn:Hr.
    - apply (Hf [] ft_none (Some er) s1). reflexivity.
    - pose proof (Hname _ _ _ _ _ Hr) as Hns. destruct t; try exact Logic.I; apply Hf; auto.
    - apply (Hf [] ft_none None s1). reflexivity. }
  split.
  - unfold dir_iter_ctor, stream_ctor. rewrite run_bind, run_sys.
    destruct (fst (ckernel h (c_opendir (native p)) s)) as [er|d].
    + cbn [run good ds_handle]. destruct (failed _); [destruct has|]; discriminate.
    + rewrite run_bind, crun_advance.
      specialize (Hadv n (snd (ckernel h (c_opendir (native p)) s)) (Stream (Some d) p entry_default) eq_refl).
      destruct (run h (advance cf n (Stream (Some d) p entry_default)) (snd (ckernel h (c_opendir (native p)) s))) as [[[b ec] st1] s1|f s1]; [|discriminate].
      destruct Hadv as (A1 & A2 & A3). cbn [run]. unfold good. destruct (ds_handle st1) eqn:Hh.
      * cbn [run]. intros Heq. injection Heq as <- _ _. split; auto. apply A2. destruct b; auto. discriminate (A3 eq_refl).
      * destruct (failed ec); [destruct has|]; discriminate.
  - intros st0 H0. unfold dir_iter_increment. rewrite run_bind, crun_advance. specialize (Hadv n s st0 H0).
    destruct (run h (advance cf n st0) s) as [[[b ec] st1] s1|f s1]; [|discriminate]. destruct Hadv as (A1 & A2 & A3).
    destruct b; cbn [run]; [|destruct (failed ec); [destruct has|]; discriminate].
    intros Heq. injection Heq as <- _ _. auto.
Qed.

Example C91_entries_example :
  match run (ckernel (fsk demo_choices)) (dir_iter_ctor plain_config 9 true (nul_path "d" "x") 0) demo with
  | Done (Some st, None) s1 =>
      native (de_path (ds_entry st)) = lit "d" ++ "000"%char :: lit "x/g" /\
      run (ckernel (fsk demo_choices)) (is_type ft_directory true (de_path (ds_entry st))) s1 = Done (true, None) s1
  | _ => False
  end /\ look (f_root demo) [lit "a"; lit "d"; lit "g"] = Some (NLeaf 6).
Proof. split; vm_compute; [split|]; reflexivity. Qed.

(** create_directories of new\0x/sub/sub says that it made the directory; there is "new", with nothing in it. *)
Theorem C91_create_directories_refuted :
  match run (ckernel (fsk demo_choices)) (create_directories_impl plain_config 9 true (nul_path "new" "x/sub/sub")) demo with
  | Done (true, None) s' => get (f_root demo) [lit "a"; lit "new"] = None /\ get (f_root s') [lit "a"; lit "new"] = Some (Dir 10 [])
  | _ => False
  end.
Proof. vm_compute. split; reflexivity. Qed.

Print Assumptions C91_text_before_nul.
Print Assumptions C91_wrong_file_refuted.
Print Assumptions C91_remove_all_refuted.
Print Assumptions C91_entries_refuted.
Print Assumptions C91_create_directories_refuted.
