(** C110: the queries fit together. The code is that of DirModel.v and OpsModel.v (include/filesystem/fs_ops.h, src/fs_ops.cpp), run on
    the file system of FS.v. *)
From Coq Require Import Ascii String Bool Arith NArith ZArith Lia.
From Verif Require Import Str PathModel PathSpec StrProofs PathProofs PathOps PathOps2 PathReach PathLaws PathMisc PathProps ArithProps
  FlagsModel TimeModel Prog DirModel OpsModel OpsProps FS FSProofs FSSpec FSOps FSPlace FSProps FSProps2 FSProps3 FSProps4 FSLike IterProps FSIter.
From Coq Require Import List.
Import ListNotations.

(** * Specification *)

(** Asked in [s], the query [p] succeeds with the answer [v] and leaves everything alone. *)
Definition says {A} (k : choices) (s : fs) (p : prog (A * ecode)) (v : A) : Prop := run (fsk k) p s = Done (v, None) s.
Definition answers {A} (k : choices) (s : fs) (p : prog (A * ecode)) : Prop := exists v, says k s p v.

(** No symlink has an empty text: symlink(2) makes none. *)
Definition links_say (s : fs) : Prop := forall i x, f_body s i = BLink x -> x <> [].

(** * Lemmas *)

Lemma says_is_type : forall k s t p, t <> ft_none -> t <> ft_not_found ->
  (says k s (is_type t true p) true <-> exists x, node_at s (find_at k s true (native p)) = Val x /\ type_of s x = t).
Proof.
  intros k s t p H1 H2. unfold says, is_type. rewrite run_bind, run_status. cbn [run].
  destruct (node_at s (find_at k s true (native p))) as [e|x]; cbn [stat_result fst snd].
  - split; [discriminate|]. intros (x & X & _). discriminate.
  - unfold has_type, status_of. cbn [st_type]. unfold file_type_eqb. destruct (file_type_eq_dec (type_of s x) t) as [<-|N]; split.
    + eauto.
    + reflexivity.
    + discriminate.
    + intros (y & [= <-] & Y). congruence.
Qed.

Lemma says_exists : forall k s p,
  says k s (exists_ true p) true <-> exists x, node_at s (find_at k s true (native p)) = Val x.
Proof.
  intros k s p. unfold says, exists_. rewrite run_bind, run_status. cbn [run].
  destruct (node_at s (find_at k s true (native p))) as [e|x]; cbn [stat_result fst snd].
  - rewrite missing_not_exists. split; [discriminate|]. intros [x X]. discriminate.
  - destruct (status_of_exists s x) as [-> ->]. cbn [andb]. split; eauto.
Qed.

Lemma says_is_symlink : forall k s p,
  says k s (is_symlink true p) true <-> exists x, node_at s (find_at k s false (native p)) = Val x /\ type_of s x = ft_symlink.
Proof.
  intros k s p. unfold says, is_symlink. rewrite run_bind, run_symlink_status. cbn [run].
  destruct (node_at s (find_at k s false (native p))) as [e|x]; cbn [stat_result fst snd].
  - unfold missing_status. destruct (errno_eqb e ENOENT || errno_eqb e ENOTDIR); (split; [discriminate|]; intros (x & X & _); discriminate).
  - unfold st_is_symlink, has_type, status_of. cbn [st_type]. unfold file_type_eqb. destruct (file_type_eq_dec (type_of s x) ft_symlink) as [E|N]; split.
    + eauto.
    + reflexivity.
    + discriminate.
    + intros (y & [= <-] & Y). congruence.
Qed.

Lemma leads_node : forall k s t, (exists x, node_at s (find_at k s true t) = Val x) <-> exists q x, leads_to k s t q x.
Proof.
  intros k s t. split.
  - intros [x X]. apply node_at_leads in X as [q Q]. eauto.
  - intros (q & x & H). exists x. apply node_at_leads. eauto.
Qed.

(** * Who can answer *)

(** file_size answers for the paths is_regular_file is true of, hard_link_count, canonical and equivalent(p, p) for those that exist,
    last_write_time for no others, read_symlink for those is_symlink is true of. *)
Theorem C110_answers : forall cf k s p, wf s -> canon p -> links_say s -> (0 < k_path_max k)%Z ->
  (answers k s (file_size_impl true p) <-> says k s (is_regular_file true p) true) /\
  (answers k s (hard_link_count_impl true p) <-> says k s (exists_ true p) true) /\
  (native p <> [] -> starts_slash (native p) = true \/ has_cwd k s ->
   (answers k s (canonical_impl cf true p) <-> says k s (exists_ true p) true)) /\
  (says k s (equivalent_impl true p p) true <-> says k s (exists_ true p) true) /\
  (answers k s (last_write_time_impl cf true p) -> says k s (exists_ true p) true) /\
  (answers k s (read_symlink_impl cf true p) <-> says k s (is_symlink true p) true).
Proof.
  intros cf k s p Hw Hp Hl Hk. unfold is_regular_file. rewrite says_is_type by discriminate. rewrite says_exists, says_is_symlink.
  unfold answers, says. split; [|split; [|split; [|split; [|split]]]].
  - rewrite run_file_size. destruct (node_at s (find_at k s true (native p))) as [e|x].
    + split; [intros [v V]; discriminate|intros (y & Y & _); discriminate].
    + destruct (type_of s x) eqn:T; try (split; [intros [v V]; discriminate|intros (y & [= <-] & Y); congruence]). split; eauto.
  - unfold hard_link_count_impl. rewrite run_bind, run_GetFileStatus. destruct (node_at s (find_at k s true (native p))) as [e|x]; cbn [stat_result fst snd failed report run].
    + split; [intros [v V]; discriminate|intros [y Y]; discriminate].
    + split; eauto.
  - intros Hne Hc. destruct (C45_canonical_partial cf k s true p Hw Hp Hne Hc) as [C1 C2]. rewrite leads_node. split.
    + intros [v V]. destruct (node_at s (find_at k s true (native p))) as [e|x] eqn:N.
      * exfalso. destruct C2 as (e' & c & C).
        { intros q x L. assert (X : exists q, leads_to k s (native p) q x) by eauto. apply node_at_leads in X. congruence. }
        rewrite C in V. discriminate.
      * apply node_at_leads in N as [q Q]. eauto.
    + intros (q & x & L). destruct (C1 q x L) as (r & R & _). eauto.
  - rewrite run_equivalent. destruct (node_at s (find_at k s true (native p))) as [e|x].
    + split; [discriminate|intros [y Y]; discriminate].
    + rewrite N.eqb_refl. split; eauto.
  - intros [v V]. revert V. unfold last_write_time_impl. rewrite run_bind, run_GetFileStatus.
    destruct (node_at s (find_at k s true (native p))) as [e|x]; cbn [stat_result fst snd failed report run]; [discriminate|]. eauto.
  - unfold read_symlink_impl. rewrite run_sys. cbn [fsk fst snd]. unfold asap_assert.
    assert (Hb1 : (0 <? k_path_max k)%Z = true) by (apply Z.ltb_lt; lia). assert (Hb2 : (k_path_max k <? 0)%Z = false) by (apply Z.ltb_ge; lia).
    rewrite Hb1, Hb2. cbn [negb]. rewrite andb_false_r. cbn [pbind]. rewrite run_sys. cbn [fsk fst snd]. unfold sys_readlink.
    destruct (node_at s (find_at k s false (native p))) as [e|[i|i]]; cbn [report run].
    + split; [intros [v V]; discriminate|intros (y & Y & _); discriminate].
    + destruct (f_body s i) as [d|t|b] eqn:B; cbn [report run].
      * split; [intros [v V]; discriminate|]. intros (y & [= <-] & Y). cbn [type_of] in Y. rewrite B in Y. discriminate.
      * assert (T := Hl i t B). set (f := firstn (Z.to_nat (k_path_max k)) t).
        assert (F : (0 < Z.of_nat (length f) <= k_path_max k)%Z).
        { unfold f. rewrite firstn_length. destruct t; [congruence|]. cbn [length]. lia. }
        assert (Hb3 : (Z.of_nat (length f) <=? k_path_max k)%Z = true) by (apply Z.leb_le; lia).
        assert (Hb4 : (0 <? Z.of_nat (length f))%Z = true) by (apply Z.ltb_lt; lia).
        assert (Hb5 : (k_path_max k <? Z.of_nat (length f))%Z = false) by (apply Z.ltb_ge; lia).
        rewrite Hb3, Hb4, Hb5. cbn [negb]. rewrite andb_false_r. cbn [pbind run]. split; [|eauto].
        intros _. exists (NLeaf i). split; [reflexivity|]. cbn [type_of]. rewrite B. reflexivity.
      * split; [intros [v V]; discriminate|]. intros (y & [= <-] & Y). cbn [type_of] in Y. rewrite B in Y. destruct b; discriminate.
    + split; [intros [v V]; discriminate|]. intros (y & [= <-] & Y). discriminate.
Qed.

(** is_empty agrees with file_size on the regular files, and with a new directory_iterator on the directories. *)
Theorem C110_is_empty : forall cf k s p n, wf s -> canon p -> 3 <= n ->
  (says k s (is_regular_file true p) true ->
   (says k s (is_empty_impl cf n true p) true <-> says k s (file_size_impl true p) 0%Z)) /\
  (says k s (is_directory true p) true ->
   exists b it s1 s2, run (fsk k) (is_empty_impl cf n true p) s = Done (b, None) s1 /\
     run (fsk k) (dir_iter_ctor cf n true p 0) s = Done (it, None) s2 /\ (b = true <-> is_end it = true)).
Proof.
  intros cf k s p n Hw Hp Hn. unfold is_regular_file, is_directory. rewrite !says_is_type by discriminate. split.
  - intros (x & N & T). unfold says, is_empty_impl. rewrite run_file_size, run_bind, run_GetFileStatus, N, T. cbn [stat_result]. cbn iota. cbn [failed].
    assert (D : st_is_directory (status_of s x) = false /\ st_is_regular_file (status_of s x) = true).
    { unfold st_is_directory, st_is_regular_file, has_type, status_of. cbn [st_type]. rewrite T. auto. }
    destruct D as [-> ->]. cbn [negb andb run]. split.
    + intros [= E]. apply Z.eqb_eq in E. rewrite E. reflexivity.
    + intros [= E]. rewrite E. reflexivity.
  - intros (x & N & T). apply node_at_leads in N as [q L]. assert (exists i, x = NDir i) as [i ->].
    { destruct x as [i|i]; [|eauto]. cbn [type_of] in T. destruct (f_body s i) as [|?|[]]; discriminate. }
    destruct (C37_is_empty cf k s p n Hw Hp Hn) as [C _]. destruct (C q i L) as (b & s1 & R & _ & B).
    destruct L as (l & F & Q). apply look_dir in Q as (es & G). destruct es as [|[name c] es].
    + exists b, None, s1, (new_handle s). split; [exact R|]. split; [exact (fs_ctor_empty cf k n s true p l q i F G Hn)|].
      split; [reflexivity|]. intros _. apply B. exact G.
    + destruct (fs_ctor_cons cf k n s true p l q i name c es Hw Hp F G Hn) as (p' & _ & _ & D).
      eexists b, _, s1, _. split; [exact R|]. split; [exact D|]. split; [|discriminate]. intros E. apply B in E. congruence.
Qed.

(** * The paths the queries give *)

(** canonical gives a path that is its own absolute and canonical path, names no symlink, is equivalent to the path asked about, and
    has its status, as a link or not; two paths with one canonical path are equivalent. *)
Theorem C110_canonical : forall cf k s p r, wf s -> canon p -> native p <> [] -> (starts_slash (native p) = true \/ has_cwd k s) ->
  says k s (canonical_impl cf true p) r ->
  says k s (absolute_impl cf true r) r /\ says k s (canonical_impl cf true r) r /\
  says k s (is_symlink true r) false /\ says k s (equivalent_impl true p r) true /\
  (exists st, says k s (status_impl true p) st /\ says k s (status_impl true r) st /\ says k s (symlink_status_impl true r) st) /\
  forall p', canon p' -> native p' <> [] -> (starts_slash (native p') = true \/ has_cwd k s) ->
    says k s (canonical_impl cf true p') r -> says k s (equivalent_impl true p p') true.
Proof.
  intros cf k s p r Hw Hp Hne Hc H.
  assert (G : forall p, canon p -> native p <> [] -> (starts_slash (native p) = true \/ has_cwd k s) -> says k s (canonical_impl cf true p) r ->
    exists q x, leads_to k s (native p) q x /\ canon r /\ native r = place_text q /\ leads_to k s (native r) q x /\
      type_of s x <> ft_symlink /\ says k s (canonical_impl cf true r) r).
  { clear p Hp Hne Hc H. intros p Hp Hne Hc H. destruct (C45_canonical_partial cf k s true p Hw Hp Hne Hc) as [C1 C2].
    destruct (node_at s (find_at k s true (native p))) as [e|x] eqn:N.
    - exfalso. destruct C2 as (e' & c & C).
      { intros q x L. assert (X : exists q, leads_to k s (native p) q x) by eauto. apply node_at_leads in X. congruence. }
      unfold says in H. rewrite C in H. discriminate.
    - apply node_at_leads in N as [q L]. destruct (C1 q x L) as (r' & R & Rc & _ & _ & Rn & _ & _ & Rt & Rl & Rs).
      unfold says in H. rewrite R in H. injection H as ->. exists q, x. repeat match goal with |- _ /\ _ => split end; auto. exact (Rs true). }
  destruct (G p Hp Hne Hc H) as (q & x & L & Rc & Rn & Rl & Rt & Rs).
  assert (Rl' : node_at s (find_at k s false (native r)) = Val x).
  { rewrite Rn. destruct Rl as (l & F & Q). rewrite (find_place k s false q x Hw Q); [|intros; auto]. cbn [node_at]. rewrite Q. reflexivity. }
  assert (N1 : node_at s (find_at k s true (native p)) = Val x) by (apply node_at_leads; eauto).
  assert (N2 : node_at s (find_at k s true (native r)) = Val x) by (apply node_at_leads; eauto).
  split; [|split; [|split; [|split; [|split]]]].
  - unfold says. apply C44_absolute; auto. rewrite Rn. reflexivity.
  - exact Rs.
  - unfold says, is_symlink. rewrite run_bind, run_symlink_status, Rl'. cbn [stat_result fst snd run]. unfold st_is_symlink, has_type, status_of. cbn [st_type].
    unfold file_type_eqb. destruct (file_type_eq_dec (type_of s x) ft_symlink); [congruence|reflexivity].
  - unfold says. rewrite run_equivalent, N1, N2, N.eqb_refl. reflexivity.
  - exists (status_of s x). unfold says. rewrite !run_status, run_symlink_status, N1, N2, Rl'. auto.
  - intros p' Hp' Hne' Hc' H'. destruct (G p' Hp' Hne' Hc' H') as (q' & x' & L' & _ & Rn' & Rl2 & _).
    assert (N3 : node_at s (find_at k s true (native p')) = Val x') by (apply node_at_leads; eauto).
    assert (N4 : node_at s (find_at k s true (native r)) = Val x') by (apply node_at_leads; eauto).
    rewrite N2 in N4. injection N4 as ->. unfold says. rewrite run_equivalent, N1, N3, N.eqb_refl. reflexivity.
Qed.

(** The path absolute gives answers every query as the path asked about does. *)
Theorem C110_absolute : forall cf k s p r, wf s -> canon p -> native p <> [] -> (starts_slash (native p) = true \/ has_cwd k s) ->
  says k s (absolute_impl cf true p) r ->
  let same {A} (q : path -> prog (A * ecode)) := run (fsk k) (q r) s = run (fsk k) (q p) s in
  same (status_impl true) /\ same (symlink_status_impl true) /\ same (exists_ true) /\ (forall t, same (is_type t true)) /\
  same (is_symlink true) /\ same (is_other true) /\ same (file_size_impl true) /\ same (hard_link_count_impl true) /\
  same (last_write_time_impl cf true) /\ same (read_symlink_impl cf true) /\
  (forall b, same (fun p => equivalent_impl true p b) /\ same (fun p => equivalent_impl true b p)).
Proof.
  intros cf k s p r Hw Hp Hne Hc H.
  assert (F : forall last, find_at k s last (native r) = find_at k s last (native p)).
  { destruct (C44_absolute cf k s true p Hw Hp) as [C1 C2]. destruct (starts_slash (native p)) eqn:S.
    - specialize (C1 eq_refl). unfold says in H. rewrite C1 in H. injection H as ->. auto.
    - destruct Hc as [Hc|Hc]; [discriminate|]. destruct (C2 eq_refl Hc) as (r' & R & _ & _ & _ & Rf). unfold says in H. rewrite R in H. injection H as ->. auto. }
  cbv zeta beta.
  assert (St : run (fsk k) (status_impl true r) s = run (fsk k) (status_impl true p) s) by (rewrite !run_status, F; reflexivity).
  assert (Ls : run (fsk k) (symlink_status_impl true r) s = run (fsk k) (symlink_status_impl true p) s) by (rewrite !run_symlink_status, F; reflexivity).
  assert (Gs : run (fsk k) (GetFileStatus true r) s = run (fsk k) (GetFileStatus true p) s) by (rewrite !run_GetFileStatus, F; reflexivity).
  repeat match goal with |- _ /\ _ => split | |- forall _, _ => intros ? end; auto.
  - unfold exists_. rewrite !run_bind, St. reflexivity.
  - unfold is_type. rewrite !run_bind, St. reflexivity.
  - unfold is_symlink. rewrite !run_bind, Ls. reflexivity.
  - unfold is_other. rewrite !run_bind, St. reflexivity.
  - rewrite !run_file_size, F. reflexivity.
  - unfold hard_link_count_impl. rewrite !run_bind, Gs. rewrite run_GetFileStatus. destruct (node_at s (find_at k s true (native p))); reflexivity.
  - unfold last_write_time_impl. rewrite !run_bind, Gs. rewrite run_GetFileStatus. destruct (node_at s (find_at k s true (native p))); reflexivity.
  - unfold read_symlink_impl. rewrite !run_sys. cbn [fsk fst snd]. unfold asap_assert.
    assert (Rd : sys_readlink k s (native r) (k_path_max k) = sys_readlink k s (native p) (k_path_max k)) by (unfold sys_readlink; rewrite F; reflexivity).
    destruct (cf_dbg cf && negb (0 <? k_path_max k)%Z); cbn [pbind run]; [reflexivity|]. destruct (k_path_max k <? 0)%Z; [reflexivity|].
    rewrite !run_sys. cbn [fsk fst snd]. rewrite Rd. destruct (sys_readlink k s (native p) (k_path_max k)); reflexivity.
  - rewrite !run_equivalent, F. reflexivity.
  - rewrite !run_equivalent, F. reflexivity.
Qed.

(** * relative *)

Lemma strip_common_spec : forall a b x y, strip_common a b = (x, y) -> exists c, a = c ++ x /\ b = c ++ y.
Proof.
  induction a as [|n a IH]; intros b x y H.
  - cbn in H. injection H as <- <-. exists []. auto.
  - destruct b as [|m b]; cbn in H; [injection H as <- <-; exists []; auto|].
    destruct (str_eqb n m) eqn:E; [|injection H as <- <-; exists []; auto].
    apply str_eqb_spec in E as ->. destruct (IH b x y H) as (c & -> & ->). exists (m :: c). auto.
Qed.

Lemma steps_up : forall t tg last links a c i b, look t (c ++ a) = Some (NDir i) ->
  steps (look t) tg last links (c ++ a) (repeat (lit "..") (length a) ++ b) = steps (look t) tg last links c b.
Proof.
  intros t tg last links. induction a as [|n a IH] using rev_ind; intros c i b H.
  - rewrite app_nil_r. reflexivity.
  - rewrite app_length. cbn [length]. replace (length a + 1) with (S (length a)) by lia. cbn [repeat app]. rewrite steps_cons, H.
    change (str_eqb (lit "..") (lit ".")) with false. change (str_eqb (lit "..") (lit "..")) with true. cbv iota.
    rewrite app_assoc in *. rewrite removelast_snoc. destruct (look_prefix t (c ++ a) [n] _ H) as [j J]; [discriminate|]. apply (IH c j). exact J.
Qed.

Lemma upcount_plain : forall l, Forall (fun n => plain n = true) l -> upcount l = Z.of_nat (length l).
Proof.
  intros l H. unfold upcount.
  assert (G : forall l z, Forall (fun n => plain n = true) l ->
    fold_left (fun n x => if str_eqb x (lit "..") then (n - 1)%Z else if str_eqb x (lit ".") then n else (n + 1)%Z) l z = (z + Z.of_nat (length l))%Z).
  { clear. induction l as [|x l IH]; intros z H; [cbn; lia|]. inversion H as [|? ? X1 X2]; subst. cbn [fold_left length]. unfold plain in X1.
    apply andb_true_iff in X1 as [X1 X3]. apply andb_true_iff in X1 as [_ X1]. apply negb_true_iff in X1, X3. rewrite X3, X1. rewrite IH by exact X2. lia. }
  rewrite (G l 0%Z H). reflexivity.
Qed.

Lemma relative_places : forall q0 q, good_place q0 -> good_place q -> exists c a b, q0 = c ++ a /\ q = c ++ b /\
  relative_text (place_text q) (place_text q0) =
  if is_nil a && is_nil b then lit "." else join (repeat (lit "..") (length a) ++ b).
Proof.
  intros q0 q G0 G. destruct (strip_common q q0) as [b a] eqn:S. destruct (strip_common_spec _ _ _ _ S) as (c & -> & ->).
  exists c, a, b. split; [reflexivity|]. split; [reflexivity|].
  assert (El : forall q, good_place q -> elements (place_text q) = [slash] :: q).
  { intros q' G'. unfold elements. rewrite names_place, ends_place by exact G'. cbn [starts_slash place_text]. destruct q'; cbn; rewrite ?app_nil_r; reflexivity. }
  unfold relative_text. rewrite !El by assumption. cbn [strip_common]. change (str_eqb [slash] [slash]) with true. cbv iota. rewrite S. cbn [fst snd].
  cbn [starts_slash place_text]. rewrite eqb_reflx. cbn [negb]. rewrite (andb_comm (is_nil b)). destruct (is_nil a && is_nil b); [reflexivity|].
  apply Forall_app in G0 as [_ Ga]. apply Forall_app in G as [_ Gb].
  rewrite upcount_plain by (eapply Forall_impl; [|exact Ga]; intros n N; apply good_plain in N; tauto).
  destruct (Z.ltb_spec (Z.of_nat (length a)) 0); [lia|]. rewrite Nat2Z.id.
  assert (F : filter (fun x => negb (is_nil x)) b = b /\ existsb is_nil b = false).
  { clear - Gb. induction Gb as [|x l X _ [IH1 IH2]]; [split; reflexivity|]. apply good_plain in X as (_ & _ & X & _). cbn [filter existsb]. destruct x; [congruence|].
    cbn [is_nil negb orb]. rewrite IH1. auto. }
  destruct F as [-> ->]. cbn [andb]. apply app_nil_r.
Qed.

(** relative(p, base) of a path that exists and a directory, symlinks in either notwithstanding: base / relative(p, base) is
    equivalent to p, and has its canonical path. *)
Theorem C110_relative : forall cf k s has p base, wf s -> canon p -> canon base -> native p <> [] -> native base <> [] ->
  (starts_slash (native p) = true \/ has_cwd k s) -> (starts_slash (native base) = true \/ has_cwd k s) ->
  says k s (exists_ true p) true -> says k s (is_directory true base) true ->
  exists r j, says k s (relative_impl cf has p base) r /\ native r <> [] /\ is_absolute Posix (cf_el cf) r = false /\
    path_div Posix (cf_el cf) base r = Ok j /\ says k s (equivalent_impl true j p) true /\
    exists c, says k s (canonical_impl cf true p) c /\ says k s (canonical_impl cf true j) c.
Proof.
  intros cf k s has p base Hw Hp Hb Np Nb Cp Cb Ep Eb.
  apply says_exists in Ep as [x X]. apply node_at_leads in X as [q L].
  unfold is_directory in Eb. apply says_is_type in Eb as (y & Y & T); [|discriminate|discriminate]. apply node_at_leads in Y as [q0 L0].
  assert (exists i, y = NDir i) as [i ->].
  { destruct y as [i|i]; [|eauto]. cbn [type_of] in T. destruct (f_body s i) as [|?|[]]; discriminate. }
  destruct (C45_weakly_canonical_partial cf k s has p Hw Hp Np Cp) as [Wp _]. destruct (C45_weakly_canonical_partial cf k s has base Hw Hb Nb Cb) as [Wb _].
  destruct (C45_canonical_partial cf k s has p Hw Hp Np Cp) as [Kp _]. destruct (Kp q x L) as (rp & Rp & Cr & _ & _ & Nr & _ & _ & Tx & _).
  destruct (C45_canonical_partial cf k s has base Hw Hb Nb Cb) as [Kb _]. destruct (Kb q0 _ L0) as (rb & Rb & Crb & _ & _ & Nrb & _).
  specialize (Wp q x L). specialize (Wb q0 _ L0). rewrite Rp in Wp. rewrite Rb in Wb.
  assert (G : good_place q) by (destruct L as (l & _ & Q); exact (wf_place _ _ _ (wf_root s Hw) Q)).
  assert (G0 : good_place q0) by (destruct L0 as (l & _ & Q); exact (wf_place _ _ _ (wf_root s Hw) Q)).
  assert (Mp : rp = mkpath (place_text q)).
  { destruct (proj1 (canon_cases rp Cr)) as [->|M]; [discriminate|]. rewrite M, Nr. reflexivity. }
  assert (Mb : rb = mkpath (place_text q0)).
  { destruct (proj1 (canon_cases rb Crb)) as [->|M]; [discriminate|]. rewrite M, Nrb. reflexivity. }
  destruct (lexically_relative_mkpath (cf_el cf) (place_text q) (place_text q0)) as (r & R & Rc & Rn).
  destruct (relative_places q0 q G0 G) as (c & a & b & Q0 & Q1 & Rt). rewrite Rt in Rn. clear Rt.
  assert (Gab : Forall goodname (repeat (lit "..") (length a) ++ b)).
  { apply Forall_app. split.
    - apply Forall_forall. intros z Z. apply repeat_spec in Z as ->. split; [reflexivity|discriminate].
    - subst q. apply Forall_app in G as [_ G]. eapply Forall_impl; [|exact G]. intros n N. apply good_plain in N. split; tauto. }
  assert (Rs : starts_slash (native r) = false).
  { rewrite Rn. destruct (is_nil a && is_nil b); [reflexivity|]. apply starts_join. exact Gab. }
  assert (Rne : native r <> []).
  { rewrite Rn. destruct (is_nil a && is_nil b) eqn:Z; [discriminate|]. intros E. apply (f_equal names) in E. rewrite names_join in E by exact Gab.
    apply app_eq_nil in E as [E1 E2]. destruct a; [|discriminate]. subst b. discriminate. }
  assert (Cm : FS.comps (native r) = if is_nil a && is_nil b then [lit "."] else repeat (lit "..") (length a) ++ b).
  { rewrite Rn. destruct (is_nil a && is_nil b); [reflexivity|]. unfold FS.comps. rewrite names_join, ends_join by exact Gab. apply app_nil_r. }
  destruct L0 as (l0 & F0 & K0). destruct (PathReach.gives_div (cf_el cf) base r Hb Rc) as (j & J & Jc & Jn).
  assert (Lj : leads_to k s (native j) q x).
  { destruct L as (l & Fl & Kq). exists l0. split; [|exact Kq]. rewrite Jn, find_reported, (find_under k s true _ _ l0 q0 i Hw F0 K0 Rs Rne), Cm.
    assert (Hnl : forall n, x = NLeaf n -> link_text s n = None \/ true = false).
    { intros n ->. left. cbn [type_of] in Tx. unfold link_text. destruct (f_body s n) as [|?|[]]; auto. congruence. }
    destruct (is_nil a && is_nil b) eqn:Z.
    - apply andb_true_iff in Z as [Za Zb]. apply is_nil_true in Za, Zb. subst a b. rewrite app_nil_r in Q0, Q1. subst q q0. cbn [is_nil].
      rewrite steps_cons, K0. change (str_eqb (lit ".") (lit ".")) with true. cbv iota. apply steps_nil.
    - replace (is_nil (repeat (lit "..") (length a) ++ b)) with false.
      2: { destruct a; [|reflexivity]. destruct b; [discriminate|reflexivity]. }
      rewrite Q0 in K0 |- *. rewrite (steps_up _ _ _ _ a c i b K0). rewrite Q1 in *.
      apply steps_place with (x := x); auto. apply Forall_app in G. tauto. }
  assert (N1 : node_at s (find_at k s true (native p)) = Val x) by (apply node_at_leads; eauto).
  assert (N2 : node_at s (find_at k s true (native j)) = Val x) by (apply node_at_leads; eauto).
  exists r, j. split; [|split; [exact Rne|split; [|split; [exact J|split]]]].
  - unfold says, relative_impl, relative_with. rewrite run_bind, Wp. cbn [snd failed]. rewrite run_bind, Wb. cbn [snd failed fst]. rewrite Mp, Mb, R. reflexivity.
  - rewrite canon_absolute by exact Rc. exact Rs.
  - unfold says. rewrite run_equivalent, N1, N2, N.eqb_refl. reflexivity.
  - assert (Cj : starts_slash (native j) = true \/ has_cwd k s).
    { destruct Cb as [Cb|Cb]; [left|right; exact Cb]. rewrite Jn. destruct (reported_same (append_text (native base) (native r))) as (_ & -> & _).
      unfold append_text. rewrite Rs. destruct (native base); [congruence|exact Cb]. }
    destruct (C45_canonical_partial cf k s true p Hw Hp Np Cp) as [Kp' _]. destruct (Kp' q x L) as (cp & P & Pc & _ & _ & Pn & _).
    assert (Nj : native j <> []). { intros E. rewrite E in Lj. destruct Lj as (? & F & _). discriminate. }
    destruct (C45_canonical_partial cf k s true j Hw Jc Nj Cj) as [Kj _]. destruct (Kj q x Lj) as (cj & Pj & Pjc & _ & _ & Pjn & _).
    exists cp. split; [exact P|]. unfold says. rewrite Pj. replace cp with cj; [reflexivity|].
    destruct (proj1 (canon_cases cp Pc)) as [->|M1]; [discriminate|]. destruct (proj1 (canon_cases cj Pjc)) as [->|M2]; [discriminate|]. congruence.
Qed.

(** * A case *)

Lemma demo_cwd : has_cwd demo_choices demo.
Proof. split; [exists 2%N; reflexivity|reflexivity]. Qed.

(** The current directory is /a; l is a symlink to ../b and f a file of five bytes, also called /b/h; nothing is called q. *)
Example C110_example : let k := demo_choices in let s := demo in let cf := plain_config in let p t := topath (lit t) in
  wf s /\ links_say s /\ has_cwd k s /\
  says k s (is_regular_file true (p "l/h"%string)) true /\ says k s (file_size_impl true (p "l/h"%string)) 5%Z /\
  says k s (is_symlink true (p "l"%string)) true /\ says k s (read_symlink_impl cf true (p "l"%string)) (p "../b"%string) /\
  ~ answers k s (file_size_impl true (p "l"%string)) /\ ~ answers k s (canonical_impl cf true (p "q"%string)) /\ ~ answers k s (read_symlink_impl cf true (p "f"%string)) /\
  says k s (canonical_impl cf true (p "l/h"%string)) (p "/b/h"%string) /\ says k s (absolute_impl cf true (p "l/h"%string)) (p "/a/l/h"%string) /\
  (exists it s2, run (fsk k) (dir_iter_ctor cf 3 true (p "l"%string) 0) s = Done (it, None) s2 /\ is_end it = false) /\
  says k s (exists_ true (p "d/g"%string)) true /\ says k s (is_directory true (p "l"%string)) true /\
  (exists r, says k s (relative_impl cf true (p "d/g"%string) (p "l"%string)) r /\ native r = lit "../a/d/g").
Proof.
  cbv zeta. split; [exact demo_wf|]. split.
  { intros i x. cbn. unfold demo_body. repeat match goal with |- context [match ?y with _ => _ end] => destruct y end; intros [= <-]; discriminate. }
  split; [exact demo_cwd|]. split; [reflexivity|]. split; [reflexivity|]. split; [reflexivity|]. split; [reflexivity|].
  split; [intros [v V]; vm_compute in V; discriminate|]. split; [intros [v V]; vm_compute in V; discriminate|]. split; [intros [v V]; vm_compute in V; discriminate|].
  split; [vm_compute; reflexivity|]. split; [vm_compute; reflexivity|]. split.
  { destruct (fs_ctor_cons plain_config demo_choices 3 demo true (topath (lit "l")) 39 [lit "b"] 7 (lit "h") (Leaf 3) []) as (p' & _ & _ & D);
      [exact demo_wf|apply canon_mkpath|reflexivity|reflexivity|auto|]. eexists. eexists. split; [exact D|reflexivity]. }
 
  split; [reflexivity|]. split; [reflexivity|]. eexists. split; [vm_compute; reflexivity|vm_compute; reflexivity].
Qed.

Print Assumptions C110_answers.
Print Assumptions C110_is_empty.
Print Assumptions C110_canonical.
Print Assumptions C110_absolute.
Print Assumptions C110_relative.
