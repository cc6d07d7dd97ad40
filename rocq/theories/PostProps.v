(** A client that advances its iterators in postfix form, and the comparison of entries (property C98). *)
From Coq Require Import Ascii String Bool Arith NArith ZArith Lia.
From Verif Require Import Str PathModel PathSpec StrProofs PathProofs PathOps PathOps2 PathReach PathLaws PathProps
  FlagsModel TimeModel Prog DirModel OpsModel OpsProps FS FSProofs FSSpec FSOps FSPlace FSProps IterProps FSIter FSRemove FSCopyTree FSWalk EntryProps PostModel.
From Coq Require Import List.
Import ListNotations.

(** The loop of a client: directory_iterator it(p, opts), end; while (it != end) v.push_back( *it++ ); *)
Fixpoint post_all (cf : config) (n : nat) (k : nat) (it : dir_iter) : prog (list dir_entry) :=
  match k with
  | O => Stop FFuel
  | S k' =>
      if is_end it then Ret []
      else
        let! j := dir_iter_post cf n it in
        let! r := post_all cf n k' (snd j) in
        Ret (fst (proxy_deref (fst j)) :: r)
  end.
Definition post_directory (cf : config) (n : nat) (p : path) (opts : N) : prog (list dir_entry) :=
  let! i := dir_iter_ctor cf n false p opts in post_all cf n n (fst i).

(** The same with a recursive_directory_iterator. *)
Fixpoint rpost_all (cf : config) (n : nat) (k : nat) (it : rdir_iter) : prog (list dir_entry) :=
  match k with
  | O => Stop FFuel
  | S k' =>
      match r_impl it with
      | None => Ret []
      | Some _ =>
          let! j := rdir_post cf n it in
          let! r := rpost_all cf n k' (snd j) in
          Ret (fst (proxy_deref (fst j)) :: r)
      end
  end.
Definition post_tree (cf : config) (n : nat) (p : path) (opts : N) : prog (list dir_entry) :=
  let! i := rdir_ctor cf n false p opts in rpost_all cf n n (fst i).

(** * The entries the iterators stand on *)

(** A path made from a text. *)
Definition made (p : path) : Prop := exists t, p = mkpath t.

Lemma made_moved : forall e, made (de_path e) -> fst (entry_move e) = e.
Proof. intros [q d] [t Ht]. cbn in Ht. subst q. unfold entry_move, move_ctor. cbn [de_path de_data fst]. f_equal. apply mkpath_native. Qed.
Lemma post_value : forall b e, made (de_path e) -> fst (proxy_deref (proxy_return b (proxy_ctor e))) = e.
Proof.
  intros b e H. pose proof (made_moved e H) as Hm. assert (Hr : proxy_return b (proxy_ctor e) = e) by (unfold proxy_return, proxy_ctor; rewrite Hm; destruct b; auto).
  rewrite Hr. exact Hm.
Qed.

Lemma advance_made : forall cf S (h : kernel S) n st s ok ec st' s', canon (ds_root st) ->
  run h (advance cf n st) s = Done (ok, ec, st') s' ->
  if ok then made (de_path (ds_entry st')) /\ ds_root st' = ds_root st else ds_handle st' = None.
Proof.
  intros cf S h n. induction n as [|n IH]; intros st s ok ec st' s' Hc H; cbn [advance] in H; [discriminate|].
  destruct (ds_handle st) as [d|] eqn:Ed; [|discriminate]. rewrite run_bind in H.
  destruct (run h (posix_readdir d) s) as [[[name t] c] s1|f s1]; [|discriminate].
  destruct (str_eqb name (lit ".") || str_eqb name (lit "..")); [eapply IH; eauto|].
  destruct (failed c || is_nil name).
  - cbn [run] in H. destruct (h (c_closedir d) s1) as [u s2]. cbn in H. injection H as <- <- <- <-. reflexivity.
  - rewrite run_lift in H. unfold path_div in H. change (split_components Posix name) with (mkpath name) in H.
    rewrite path_append_canon in H by auto using canon_mkpath. cbn [bind] in H. rewrite fin_mkpath in H.
    cbn in H. injection H as <- <- <- <-. cbn [ds_entry de_path ds_root]. split; auto. eexists. reflexivity.
Qed.

Definition stands_made (st : dstream) : Prop := canon (ds_root st) /\ made (de_path (ds_entry st)).

(** * directory_iterator *)

Lemma post_all_visits : forall cf n S (h : kernel S) k it s, (forall st, it = Some st -> stands_made st) ->
  run h (post_all cf n k it) s = run h (let! r := visit_all cf n false k it None in Ret (fst r)) s.
Proof.
  intros cf n S h. induction k as [|k IH]; intros it s Hit; [reflexivity|]. cbn [post_all visit_all]. destruct it as [st|]; [|reflexivity].
  cbn [is_end]. destruct (Hit st eq_refl) as [Hc Hm]. unfold dir_iter_post. cbn [dir_iter_deref pbind]. rewrite !run_bind.
  destruct (run h (dir_iter_increment cf n false (Some st)) s) as [[it' ec] s1|f s1] eqn:Ei; [|reflexivity]. cbn [run fst snd]. rewrite !run_bind.
  assert (Hnone : ec = None /\ forall st', it' = Some st' -> stands_made st').
  { unfold dir_iter_increment in Ei. rewrite run_bind in Ei. destruct (run h (advance cf n st) s) as [[[ok c] st1] s2|] eqn:Ea; [|discriminate].
    apply advance_made in Ea; auto. destruct ok.
    - cbn in Ei. injection Ei as <- <- <-. split; auto. intros st' H. injection H as <-. destruct Ea as [E1 E2]. split; auto. congruence.
    - destruct (failed c) eqn:Ec; [discriminate|]. cbn in Ei. injection Ei as <- <- <-. split; auto. discriminate. }
  destruct Hnone as [-> Hs]. rewrite (IH it' s1 Hs), run_bind, post_value by auto.
  destruct (run h (visit_all cf n false k it' None) s1) as [[l c] s2|f s2]; reflexivity.
Qed.

Lemma ctor_made : forall cf n S (h : kernel S) p opts s it ec s', canon p -> run h (dir_iter_ctor cf n false p opts) s = Done (it, ec) s' ->
  ec = None /\ forall st, it = Some st -> stands_made st.
Proof.
  intros cf n S h p opts s it ec s' Hp H. unfold dir_iter_ctor, stream_ctor in H. rewrite run_bind, run_sys in H.
  destruct (fst (h (c_opendir (native p)) s)) as [e|d].
  - cbn [run good ds_handle] in H. destruct (has_dopt do_skip_permission_denied opts && errno_eqb e EACCES); cbn in H; [|discriminate].
    injection H as <- <- <-. split; auto. discriminate.
  - rewrite run_bind in H. destruct (run h (advance cf n (Stream (Some d) p entry_default)) _) as [[[ok c] st1] s2|] eqn:Ea; [|discriminate].
    apply advance_made in Ea; [|exact Hp]. cbn [run] in H. destruct (good st1) eqn:Eg.
    + cbn in H. injection H as <- <- <-. split; auto. intros st Hst. injection Hst as <-. destruct ok; [|unfold good in Eg; rewrite Ea in Eg; discriminate].
      destruct Ea as [E1 E2]. split; auto. rewrite E2. exact Hp.
    + destruct (failed c) eqn:Ec; cbn in H; [discriminate|]. injection H as <- <- <-. split; auto. discriminate.
Qed.

(** On every system: the loop with *it++ sees what the loop with *it and ++it sees - the same entries in the same order, with what they have stored,
    the same exception, the same calls to the system. *)
Theorem C98_directory : forall S (h : kernel S) cf n p opts s, canon p ->
  run h (post_directory cf n p opts) s = run h (let! r := visit_directory cf n false p opts in Ret (fst r)) s.
Proof.
  intros S h cf n p opts s Hp. unfold post_directory, visit_directory. rewrite !run_bind.
  destruct (run h (dir_iter_ctor cf n false p opts) s) as [[it ec] s1|f s1] eqn:E; [|reflexivity]. cbn [fst snd].
  destruct (ctor_made _ _ _ _ _ _ _ _ _ _ Hp E) as [-> Hs]. rewrite (post_all_visits cf n S h n it s1 Hs), run_bind. reflexivity.
Qed.

(** * recursive_directory_iterator *)

(** Every result of the program satisfies [P], whatever the system answers. *)
Fixpoint returns {A} (P : A -> Prop) (p : prog A) : Prop :=
  match p with Ret a => P a | Stop _ => True | Sys c g => forall r, returns P (g r) end.
Lemma returns_run : forall A (P : A -> Prop) S (h : kernel S) p s a s', returns P p -> run h p s = Done a s' -> P a.
Proof.
  intros A P S h. induction p as [x|f|c g IH]; intros s a s' Hp H; cbn [returns] in Hp; [cbn in H; injection H as <- <-; auto|discriminate|].
  rewrite run_sys in H. eapply IH; eauto.
Qed.
Lemma returns_bind : forall A B (Q : A -> Prop) (P : B -> Prop) p g, returns Q p -> (forall a, Q a -> returns P (g a)) -> returns P (pbind p g).
Proof. intros A B Q P. induction p as [x|f|c g IH]; intros k Hp Hk; cbn in *; auto. Qed.
Lemma returns_any : forall A (p : prog A), returns (fun _ => True) p.
Proof. intros A. induction p; cbn; auto. Qed.
Lemma returns_skip : forall A B (P : B -> Prop) (p : prog A) g, (forall a, returns P (g a)) -> returns P (pbind p g).
Proof. intros A B P p g H. apply (returns_bind A B (fun _ => True)); auto using returns_any. Qed.

Definition keeps_path (e : dir_entry) (r : ecode * dir_entry) : Prop := de_path (snd r) = de_path e.
Lemma basic_path : forall cf has follow e, returns (keeps_path e) (UpdateBasicFileInformation cf has follow e).
Proof.
  intros cf has follow e. unfold UpdateBasicFileInformation. apply returns_skip. intros r.
  destruct (cache_eqb (cd_cache (de_data e)) CEMPTY && (failed (snd r) || negb (status_known (fst (fst r))))).
  - apply returns_skip. reflexivity.
  - apply returns_skip. reflexivity.
Qed.
Lemma symlink_type_path : forall cf e, returns (fun r : file_type * ecode * dir_entry => de_path (snd r) = de_path e) (GetSymLinkFileType cf true e).
Proof.
  intros cf e. unfold GetSymLinkFileType. apply (returns_bind _ _ (fun r : bool * ecode * dir_entry => de_path (snd r) = de_path e)).
  - destruct (cache_eqb (cd_cache (de_data e)) CEMPTY); [|reflexivity]. eapply returns_bind; [apply basic_path|]. intros [c e1] H. exact H.
  - intros [[leave ec] e1] H. cbn [snd] in H. destruct leave; [exact H|]. destruct (cd_symlink (de_data e1)); [exact H|].
    destruct (negb (st_exists (status_of_type (cd_type (de_data e1))))); [|exact H]. apply returns_skip. intros a. exact H.
Qed.
Lemma file_type_path : forall cf e, returns (fun r : file_type * ecode * dir_entry => de_path (snd r) = de_path e) (GetFileType cf true e).
Proof.
  intros cf e. unfold GetFileType. apply (returns_bind _ _ (keeps_path e)).
  - destruct (cd_cache (de_data e)); try reflexivity; try apply basic_path. destruct (negb (cd_type_resolved (de_data e))); [apply basic_path|reflexivity].
  - intros [ec e1] H. exact H.
Qed.

Definition stack_made (it : rdir_iter) : Prop := forall st opts, r_impl it = Some (st, opts) -> Forall stands_made st.

Lemma stack_advance_made : forall cf n S (h : kernel S) st s st' ec rest s', Forall stands_made st ->
  run h (advance_stack cf n st) s = Done (Some st', ec, rest) s' -> Forall stands_made st'.
Proof.
  intros cf n S h. induction st as [|d st IH]; intros s st' ec rest s' Hst H; cbn [advance_stack] in H; [cbn in H; discriminate|].
  inversion Hst as [|? ? [H1 H2] H3]; subst. rewrite run_bind in H.
  destruct (run h (advance cf n d) s) as [[[ok c] d1] s1|] eqn:Ea; [|discriminate]. apply advance_made in Ea; auto. destruct ok.
  - cbn in H. injection H as <- <- <- <-. constructor; auto. destruct Ea as [E1 E2]. split; auto. congruence.
  - destruct (failed c); [cbn in H; discriminate|]. eapply IH; eauto.
Qed.

Lemma rdir_advance_made : forall cf n S (h : kernel S) it s it' ec s', stack_made it ->
  run h (rdir_advance cf n false it) s = Done (it', ec) s' -> ec = None /\ stack_made it'.
Proof.
  intros cf n S h it s it' ec s' Hit H. unfold rdir_advance in H. destruct (r_impl it) as [[st opts]|] eqn:Ei; [|discriminate]. rewrite run_bind in H.
  destruct (run h (advance_stack cf n st) s) as [[[found c] rest] s1|] eqn:Ea; [|discriminate]. destruct found as [st1|].
  - cbn in H. injection H as <- <- <-. split; auto. intros st2 o2 E. cbn in E. injection E as <- <-. eapply stack_advance_made; [apply (Hit _ _ Ei)|exact Ea].
  - rewrite run_bind in H. destruct (run h (impl_reset rest) s1); [|discriminate]. destruct (failed c) eqn:Ec; [destruct c; discriminate|].
    cbn in H. injection H as <- <- <-. split; auto. intros ? ? E. discriminate.
Qed.

Lemma made_canon : forall p, made p -> canon p.
Proof. intros p [t ->]. apply canon_mkpath. Qed.

Lemma stream_made : forall cf n S (h : kernel S) p opts s ec st s', canon p -> run h (stream_ctor cf n p opts) s = Done (ec, st) s' -> good st = true -> stands_made st.
Proof.
  intros cf n S h p opts s ec st s' Hp H Hg. unfold stream_ctor in H. rewrite run_sys in H. destruct (fst (h (c_opendir (native p)) s)) as [e|d].
  - cbn in H. injection H as <- <- <-. discriminate.
  - rewrite run_bind in H. destruct (run h (advance cf n (Stream (Some d) p entry_default)) _) as [[[ok c] st1] s2|] eqn:Ea; [|discriminate].
    apply advance_made in Ea; [|exact Hp]. cbn [run] in H. injection H as <- <- <-. destruct ok; [|unfold good in Hg; rewrite Ea in Hg; discriminate].
    destruct Ea as [E1 E2]. split; auto. rewrite E2. exact Hp.
Qed.

Lemma rdir_try_made : forall cf n S (h : kernel S) it s b ec it' s', stack_made it ->
  run h (rdir_try cf n false it) s = Done (b, ec, it') s' -> ec = None /\ stack_made it'.
Proof.
  intros cf n S h it s b ec it' s' Hit H. unfold rdir_try in H. destruct (r_impl it) as [[[|d st] opts]|] eqn:Ei; [discriminate| |discriminate].
  pose proof (Hit _ _ Ei) as Hst. inversion Hst as [|? ? [H1 H2] H3]; subst. rewrite run_bind in H.
  match type of H with match run h ?g s with _ => _ end = _ =>
    assert (Hk : returns (fun r : file_type * ecode * dir_entry => de_path (snd r) = de_path (ds_entry d)) g)
      by (destruct (has_dopt do_follow_directory_symlink opts); [apply file_type_path|apply symlink_type_path]);
    destruct (run h g s) as [[[t ec0] e1] s1|] eqn:Eg; [|discriminate] end.
  apply (returns_run _ _ _ _ _ _ _ _ Hk) in Eg. cbn [snd] in Eg.
  assert (Hs1 : stands_made (Stream (ds_handle d) (ds_root d) e1)) by (split; cbn [ds_root ds_entry]; [auto|rewrite Eg; auto]).
  assert (Hkeep : forall o r, stack_made (RIter (Some (Stream (ds_handle d) (ds_root d) e1 :: st, o)) r)) by (intros o r ? ? E; cbn in E; injection E as <- <-; constructor; auto).
  rewrite run_bind in H.
  match type of H with match run h ?g s1 with _ => _ end = _ => destruct (run h g s1) as [[c [new|]] s2|] eqn:En; [| |discriminate] end.
  - cbn in H. injection H as <- <- <- <-. split; auto. intros ? ? E. cbn in E. injection E as <- <-. constructor; [|constructor; auto].
    match type of En with run h (if ?g then _ else _) s1 = _ => destruct g end; [discriminate|]. rewrite run_bind in En.
    destruct (run h (stream_ctor cf n (de_path e1) opts) s1) as [[c1 new1] s3|] eqn:Ec; [|discriminate]. cbn [run fst snd] in En.
    destruct (good new1) eqn:Egood; [|discriminate]. injection En as <- <- <-. eapply stream_made; [|exact Ec|exact Egood]. rewrite Eg. apply made_canon; auto.
  - destruct c as [x|].
    + destruct (errno_eqb x EACCES && has_dopt do_skip_permission_denied opts); [cbn in H; injection H as <- <- <- <-; auto|].
      rewrite run_bind in H. destruct (run h (impl_reset _) s2); discriminate.
    + cbn in H. injection H as <- <- <- <-. auto.
Qed.

Lemma rdir_increment_made : forall cf n S (h : kernel S) it s it' ec s', stack_made it ->
  run h (rdir_increment cf n false it) s = Done (it', ec) s' -> ec = None /\ stack_made it'.
Proof.
  intros cf n S h it s it' ec s' Hit H. unfold rdir_increment in H. rewrite run_bind in H.
  match type of H with match run h ?g s with _ => _ end = _ => destruct (run h g s) as [[[b c] it1] s1|] eqn:Et; [|discriminate] end.
  assert (H1 : c = None /\ stack_made it1).
  { destruct (r_recursion it); [eapply rdir_try_made; eauto|]. cbn in Et. injection Et as <- <- <- <-. auto. }
  destruct H1 as [-> H1]. cbn [failed] in H. rewrite orb_false_r in H. destruct b; [cbn in H; injection H as <- <- <-; auto|].
  eapply rdir_advance_made; [|exact H]. exact H1.
Qed.

Lemma rpost_all_visits : forall cf n S (h : kernel S) k it s, stack_made it ->
  run h (rpost_all cf n k it) s = run h (let! r := rvisit_all cf n false k it None in Ret (map fst (fst r))) s.
Proof.
  intros cf n S h. induction k as [|k IH]; intros it s Hit; [reflexivity|]. cbn [rpost_all rvisit_all].
  destruct (r_impl it) as [[st opts]|] eqn:Ei; [|reflexivity]. unfold rdir_post, rdir_deref, rdir_depth. rewrite Ei. destruct st as [|d st]; [reflexivity|].
  cbn [pbind]. rewrite !run_bind. pose proof (Forall_inv (Hit _ _ Ei)) as [Hc Hm].
  destruct (run h (rdir_increment cf n false it) s) as [[it' ec] s1|f s1] eqn:En; [|reflexivity]. cbn [run fst snd]. rewrite !run_bind.
  destruct (rdir_increment_made _ _ _ _ _ _ _ _ _ Hit En) as [-> Hs]. rewrite (IH it' s1 Hs), run_bind, post_value by auto.
  destruct (run h (rvisit_all cf n false k it' None) s1) as [[l c] s2|f s2]; reflexivity.
Qed.

Theorem C98_tree : forall S (h : kernel S) cf n p opts s, canon p ->
  run h (post_tree cf n p opts) s = run h (let! r := visit_tree cf n false p opts in Ret (map fst (fst r))) s.
Proof.
  intros S h cf n p opts s Hp. unfold post_tree, visit_tree. rewrite !run_bind.
  destruct (run h (rdir_ctor cf n false p opts) s) as [[it ec] s1|f s1] eqn:E; [|reflexivity]. cbn [fst snd].
  assert (Hs : ec = None /\ stack_made it).
  { unfold rdir_ctor in E. rewrite run_bind in E. destruct (run h (stream_ctor cf n p opts) s) as [[c st] s2|] eqn:Ec; [|discriminate].
    destruct (failed c); [destruct c; discriminate|]. destruct (good st) eqn:Eg; cbn in E; injection E as <- <- <-; split; auto; intros ? ? H; cbn in H; [|discriminate].
    injection H as <- <-. constructor; [|constructor]. eapply stream_made; eauto. }
  destruct Hs as [-> Hs]. rewrite (rpost_all_visits cf n S h n it s1 Hs), run_bind. reflexivity.
Qed.

(** * The entries of one walk are different *)

Lemma rvisit_made : forall cf n S (h : kernel S) k it s l ec s', stack_made it ->
  run h (rvisit_all cf n false k it None) s = Done (l, ec) s' -> Forall (fun x => made (de_path (fst x))) l.
Proof.
  intros cf n S h. induction k as [|k IH]; intros it s l ec s' Hit H; [discriminate|]. cbn [rvisit_all] in H.
  destruct (r_impl it) as [[st opts]|] eqn:Ei; [|cbn in H; injection H as <- <- <-; constructor].
  unfold rdir_deref, rdir_depth in H. rewrite Ei in H. destruct st as [|d st]; [discriminate|]. cbn [pbind] in H. rewrite run_bind in H.
  pose proof (Forall_inv (Hit _ _ Ei)) as [Hc Hm].
  destruct (run h (rdir_increment cf n false it) s) as [[it' c] s1|f s1] eqn:En; [|discriminate]. cbn [fst snd] in H. rewrite run_bind in H.
  destruct (rdir_increment_made _ _ _ _ _ _ _ _ _ Hit En) as [-> Hs].
  destruct (run h (rvisit_all cf n false k it' None) s1) as [[l1 c1] s2|f s2] eqn:Er; [|discriminate]. cbn in H. injection H as <- <- <-.
  constructor; [exact Hm|]. eapply IH; eauto.
Qed.

(** Root and names, without the empty element of a trailing slash. *)
Definition base (t : str) : list str := (if starts_slash t then [[slash]] else []) ++ names t.
Lemma good_name_plain : forall n, good_name n = true -> starts_slash n = false /\ n <> [] /\ elements n = [n] /\ names n = [n].
Proof.
  intros n H. unfold good_name in H. apply andb_true_iff in H as [H1 H2]. change (noslash n) in H2.
  assert (Hn : n <> []) by (intros ->; discriminate). split; [|auto using elements_noslash, names_noslash].
  destruct n; [congruence|]. apply noslash_cons in H2 as [H2 _]. exact H2.
Qed.
Lemma base_append : forall a n, good_name n = true -> base (append_text a n) = base a ++ [n] /\ elements (append_text a n) = base a ++ [n].
Proof.
  intros a n Hn. destruct (good_name_plain n Hn) as (H1 & H2 & H3 & H4). split.
  - rewrite append_text_before by auto. unfold base. rewrite starts_before, names_before, H4, app_assoc by auto. reflexivity.
  - rewrite elements_append, H3, app_assoc by auto. reflexivity.
Qed.
Lemma elements_fold : forall r t, r <> [] -> Forall (fun n => good_name n = true) r -> elements (fold_left append_text r t) = base t ++ r.
Proof.
  induction r as [|n r IH]; intros t Hr Hg; [congruence|]. cbn [fold_left]. destruct (base_append t n (Forall_inv Hg)) as [H1 H2].
  destruct r as [|m r]; [exact H2|]. rewrite IH; [|discriminate|exact (Forall_inv_tail Hg)]. rewrite H1, <- app_assoc. reflexivity.
Qed.

Lemma cons_both : forall A (a b : A) l m, a :: l = b :: m -> a = b /\ l = m.
Proof. intros A a b l m H. injection H. auto. Qed.

(** What the comparison of two entries tells: the elements of their paths are compared; what the entries have stored does not matter. *)
Definition ordered (a b : dir_entry) (c : comparison) : Prop :=
  entry_lt a b = (match c with Lt => true | _ => false end) /\ entry_eq a b = (match c with Eq => true | _ => false end) /\
  entry_gt a b = (match c with Gt => true | _ => false end) /\ entry_ne a b = negb (entry_eq a b) /\ entry_le a b = negb (entry_gt a b) /\ entry_ge a b = negb (entry_lt a b).

Theorem C98_compare : forall E1 E2 e f s t, held E1 (de_path e) s -> held E2 (de_path f) t -> ordered e f (lex_compare (elements s) (elements t)).
Proof.
  intros E1 E2 e f s t He Hf. apply held_shows in He, Hf. pose proof (compare_shows _ _ _ _ He Hf) as C1. pose proof (compare_shows _ _ _ _ Hf He) as C2.
  rewrite (lex_compare_antisym (elements s) (elements t)) in C2.
  unfold ordered, entry_lt, entry_eq, entry_gt, entry_ne, entry_le, entry_ge, path_ne, path_le, path_ge, path_gt, path_lt, path_eq.
  destruct (lex_compare (elements s) (elements t)); cbn in C1, C2;
  destruct (compare (de_path e) (de_path f)), (compare (de_path f) (de_path e)); cbn in C1, C2; try lia; repeat split; reflexivity.
Qed.

(** The entries a loop over a tree sees are pairwise different: a container ordered by < keeps them all. *)
Definition different (a b : dir_entry) : Prop := entry_eq a b = false /\ entry_eq b a = false /\ xorb (entry_lt a b) (entry_lt b a) = true.

Theorem C98_distinct : forall cf k s p q i es opts, wf s -> k_dtype k = true -> canon p -> has_dopt do_follow_directory_symlink opts = false ->
  leads_to k s (native p) q (NDir i) -> get (f_root s) q = Some (Dir i es) ->
  exists N, forall n, N <= n -> exists l s', run (fsk k) (post_tree cf n p opts) s = Done l s' /\ same_state s s' /\ ForallOrdPairs different l /\
    forall nm, In nm (map fst es) -> exists e, In e l /\ native (de_path e) = append_text (native p) nm.
Proof.
  intros cf k s p q i es opts Hw Hk Hp Ho Hl Hg.
  pose proof (wf_get _ _ _ (wf_root s Hw) Hg) as Hwt.
  destruct (C48_visits_partial cf k s p q i es false opts Hw Hk Hp Ho Hl Hg) as (rs & N & H1 & H2 & H3 & H4). exists N. intros n Hn.
  destruct (H4 n Hn) as (l & s' & J1 & J2 & J3). exists (map fst l), s'.
  assert (Hr : run (fsk k) (post_tree cf n p opts) s = Done (map fst l) s') by (rewrite C98_tree, run_bind, J1 by auto; reflexivity).
  assert (Hmade : Forall (fun x => made (de_path (fst x))) l).
  { unfold visit_tree in J1. rewrite run_bind in J1. destruct (run (fsk k) (rdir_ctor cf n false p opts) s) as [[it ec] s1|] eqn:E; [|discriminate]. cbn [fst snd] in J1.
    assert (Hs : ec = None /\ stack_made it).
    { unfold rdir_ctor in E. rewrite run_bind in E. destruct (run (fsk k) (stream_ctor cf n p opts) s) as [[c st] s2|] eqn:Ec; [|discriminate].
      destruct (failed c); [destruct c; discriminate|]. destruct (good st) eqn:Eg; cbn in E; injection E as <- <- <-; split; auto; intros ? ? H; cbn in H; [|discriminate].
      injection H as <- <-. constructor; [|constructor]. eapply stream_made; eauto. }
    destruct Hs as [-> Hs]. eapply rvisit_made; eauto. }
  assert (Hpl : forall r, In r rs -> r <> [] /\ Forall (fun n => good_name n = true) r).
  { intros r Hi. apply H1 in Hi as [[Ha Hb] _]. split; auto. clear - Hwt Hb. revert Hb. induction r as [|x r IH] using rev_ind; intros Hb; [constructor|].
    apply Forall_app. split.
    - apply IH. unfold look in *. intros E. apply Hb. rewrite get_snoc. destruct (get (Dir i es) r); [discriminate|reflexivity].
    - constructor; [|constructor]. destruct (look (Dir i es) (r ++ [x])) eqn:E; [|congruence]. eapply wf_name; eauto. }
  split; auto. split; auto. split.
  - clear - Hmade J3 H2 Hpl. revert rs H2 Hpl J3. induction l as [|[e d] l IH]; intros rs H2 Hpl J3; [constructor|]. destruct rs as [|r rs]; [discriminate|].
    cbn [map] in J3. apply cons_both in J3 as [J3 J4].
    assert (K1 : native (de_path e) = fold_left append_text r (native p)) by (unfold rshown, shown, visit_of in J3; cbn in J3; congruence). inversion H2 as [|? ? Hni Hnd]; subst. cbn [map fst]. constructor.
    + apply Forall_forall. intros f Hf. apply in_map_iff in Hf as ([f' df] & <- & Hf). cbn [fst].
      assert (Hrf : exists r', In r' rs /\ native (de_path f') = fold_left append_text r' (native p)).
      { apply (in_map rshown) in Hf. rewrite J4 in Hf. apply in_map_iff in Hf as (r' & Hr' & Hin). exists r'. split; auto. unfold visit_of, rshown, shown in Hr'. cbn in Hr'. congruence. }
      destruct Hrf as (r' & Hin & Hnf).
      assert (Hm1 : made (de_path e)) by exact (Forall_inv Hmade).
      assert (Hm2 : made (de_path f')) by (rewrite Forall_forall in Hmade; apply (Hmade (f', df)); right; auto).
      assert (Hel : elements (native (de_path e)) <> elements (native (de_path f'))).
      { rewrite Hnf. rewrite K1.
        destruct (Hpl r (or_introl eq_refl)) as [Ha Hb]. destruct (Hpl r' (or_intror Hin)) as [Hc Hd]. rewrite !elements_fold by auto. intros E. apply app_inv_head in E. congruence. }
      pose proof (compare_shows _ _ _ _ (shows_canon _ (made_canon _ Hm1)) (shows_canon _ (made_canon _ Hm2))) as C1.
      pose proof (compare_shows _ _ _ _ (shows_canon _ (made_canon _ Hm2)) (shows_canon _ (made_canon _ Hm1))) as C2.
      rewrite (lex_compare_antisym (elements (native (de_path e)))) in C2.
      destruct (lex_compare (elements (native (de_path e))) (elements (native (de_path f')))) eqn:Ec; [apply lex_compare_eq in Ec; congruence| |]; cbn in C1, C2;
      unfold different, entry_eq, entry_lt, path_eq, path_lt;
      destruct (compare (de_path e) (de_path f')), (compare (de_path f') (de_path e)); cbn in C1, C2; try lia; repeat split; reflexivity.
    + apply (IH (Forall_inv_tail Hmade) rs Hnd); auto. intros r' Hr'. apply Hpl. right; auto.
  - intros nm Hnm. assert (Hin : In [nm] rs).
    { apply H1. apply in_map_iff in Hnm as ([nm' c] & <- & Hin). cbn [fst]. split.
      - split; [discriminate|]. unfold look. cbn [get]. apply wf_tree_dir in Hwt as (Hnd & _). rewrite (In_assoc _ _ _ _ Hnd Hin). destruct c; discriminate.
      - intros (r1 & n1 & r2 & i1 & l1 & a & j & l2 & d & l3 & E & Hne & _). destruct r1 as [|x [|y r1]]; [|discriminate E..]. injection E as _ E. congruence. }
    apply (in_map (visit_of s (native p) q)) in Hin. rewrite <- J3 in Hin. apply in_map_iff in Hin as ([e d] & He & Hin). exists e. split; [apply (in_map fst) in Hin; exact Hin|].
    unfold visit_of, rshown, shown in He. cbn in He. congruence.
Qed.

(** The proxy gives its entry once: what the second * gives has an empty path. *)
Theorem C98_once : forall b e, made (de_path e) -> let q := proxy_return b (proxy_ctor e) in
  fst (proxy_deref q) = e /\ native (de_path (fst (proxy_deref (snd (proxy_deref q))))) = [].
Proof. intros b e H q. split; [apply post_value; auto|]. reflexivity. Qed.

(** At the end, it++ and *it++ are undefined, or stop at the assertion; ++it alone would throw. *)
Theorem C98_at_end : forall S (h : kernel S) cf n s b, let stopped := if cf_dbg cf then FAssert else FUB in
  run h (dir_iter_post cf n None) s = Failed stopped s /\ run h (rdir_post cf n (RIter None b)) s = Failed stopped s /\
  run h (dir_iter_increment cf n false None) s = Failed (FThrow (Some EINVAL) []) s.
Proof. intros S h cf n s b. unfold dir_iter_post, rdir_post. cbn. destruct (cf_dbg cf); auto. Qed.

(** * Cases *)

Example C98_example : canon (topath (lit "/a")) /\ made (topath (lit "/a/f")) /\
  (exists s', run (fsk demo_choices) (let! l := post_directory plain_config 9 (topath (lit "/a")) 0 in Ret (map (fun e => native (de_path e)) l)) demo =
    Done [lit "/a/f"; lit "/a/l"; lit "/a/d"] s') /\
  (exists s', run (fsk demo_choices) (let! l := post_tree plain_config 9 (topath (lit "/a")) 0 in Ret (map (fun e => native (de_path e)) l)) demo_walk =
    Done [lit "/a/d"; lit "/a/d/g"; lit "/a/d/e"; lit "/a/d/e/h"; lit "/a/l"] s').
Proof.
  split; [right; eexists; reflexivity|]. split; [eexists; reflexivity|].
  split; (eexists; vm_compute; reflexivity).
Qed.
Example C98_distinct_example : wf demo_walk /\ k_dtype demo_choices = true /\ leads_to demo_choices demo_walk (native (topath (lit "/a"))) [lit "a"] (NDir 2) /\
  has_dopt do_follow_directory_symlink 0 = false /\
  ordered (Entry (topath (lit "/a/b")) cache_reset) (Entry (topath (lit "//a/b")) (set_size cache_reset 5)) Eq.
Proof. split; [exact demo_walk_wf|]. split; [reflexivity|]. split; [exists 40; split; vm_compute; reflexivity|]. split; [reflexivity|]. repeat split; reflexivity. Qed.

Print Assumptions C98_directory.
Print Assumptions C98_tree.
Print Assumptions C98_compare.
Print Assumptions C98_distinct.
Print Assumptions C98_once.
Print Assumptions C98_at_end.
