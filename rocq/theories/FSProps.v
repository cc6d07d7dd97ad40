(** Properties of the operations that make single system calls, on the file system of FS.v: for every state, every
    path, every choice of the system. Each theorem is followed by a case that meets its hypotheses. *)
From Coq Require Import Ascii String Bool Arith NArith ZArith Lia.
From Verif Require Import Str PathModel PathSpec StrProofs PathProofs PathOps PathLaws FlagsModel TimeModel ArithProps Prog DirModel
  OpsModel OpsProps FS FSProofs FSSpec FSOps.
From Coq Require Import List.
Import ListNotations.

Lemma demo_wf : wf demo.
Proof.
  constructor.
  - cbn. repeat match goal with
      | |- _ /\ _ => split
      | |- NoDup _ => constructor
      | |- Forall _ _ => constructor
      | |- ~ In _ _ => cbn; intuition discriminate
      | |- True => exact I
      | |- _ => reflexivity
      end.
  - unfold demo, demo_tree. cbn. eauto.
  - cbn. intros i Hi. repeat destruct Hi as [<-|Hi]; try reflexivity. destruct Hi.
Qed.

(** * C25 create_directory *)

(** create_directory succeeds with true exactly when the last component was missing; then the new directory is
    there, empty, and nothing else has changed. In every other case nothing has changed, and the call reports an error unless the
    entry exists. What is missing from the full property: the entry need not be a directory (see below). *)
Theorem C25_create_directory_partial : forall k s has p, wf s ->
  match run (fsk k) (create_directory_impl has p) s with
  | Done (true, e) s' =>
      e = None /\
      exists q n, names_missing k s (native p) q n /\ names_entry k s' (native p) (q ++ [n]) (NDir (f_next s)) /\
        get (f_root s') (q ++ [n]) = Some (Dir (f_next s) []) /\
        same_outside s s' (q ++ [n]) /\ same_bodies s s' /\ same_metas s s' /\ same_process s s'
  | Done (false, None) s' => s' = s /\ exists q x, names_entry k s (native p) q x
  | Done (false, Some e) s' => s' = s /\ has = true /\ find_entry k s (native p) = Fail e /\ e <> EEXIST
  | Failed f s' => s' = s /\ has = false /\ exists e, f = FThrow (Some e) [p] /\ find_entry k s (native p) = Fail e
  end.
Proof.
  intros k s has p Hw. unfold create_directory_impl. rewrite run_sys. cbn [fsk]. unfold sys_mkdir.
  destruct (find_entry k s (native p)) as [l q|q n|e] eqn:E; cbn [fst snd].
  - cbn. split; auto. destruct (entry_found _ _ _ _ _ Hw E) as [x Hx]. exists q, x, l. auto.
  - cbn [run]. split; auto. exists q, n.
    pose proof (entry_missing _ _ _ _ _ E) as (i & m & H1 & H2 & H3).
    destruct (make_look k s q n (Dir (f_next s) []) (mode_bits perms_all) 2 i m H1 H2) as (G1 & G2 & G3 & G4 & G5 & G6 & G7).
    repeat match goal with |- _ /\ _ => split end; auto.
    + destruct (resolve_fill k s _ false (native p) (names (native p)) q n (NDir (f_next s)) G3 E) as [l Hl].
      * unfold look. rewrite G1. reflexivity.
      * discriminate.
      * exists l. split; auto. unfold look. rewrite G1. reflexivity.
    + intros j _. rewrite G4. reflexivity.
  - destruct (errno_eqb e EEXIST) eqn:Ee.
    + exfalso. apply errno_eqb_eq in Ee. subst. unfold find_entry, resolve_comps in E. destruct (is_nil (native p)); [discriminate|].
      assert (Hno : forall lk tg last links cs cur, steps lk tg last links cur cs <> Fail EEXIST).
      { clear. intros lk tg last. induction links as [|links IHl];
        (induction cs as [|m r IHr]; intros cur; [rewrite steps_nil; discriminate|]).
        all: rewrite !steps_cons; destruct (lk cur) as [[j|j]|] eqn:E1; try discriminate;
          destruct (str_eqb m (lit ".")) eqn:D1; [apply IHr|]; destruct (str_eqb m (lit "..")) eqn:D2; [apply IHr|];
          destruct (lk (cur ++ [m])) as [[v|v]|] eqn:E2; [|apply IHr|destruct (is_nil r); discriminate].
        all: destruct (tg v); [|destruct (is_nil r); discriminate]; destruct (is_nil r && negb last); try discriminate; apply IHl. }
      eapply Hno; eauto.
    + unfold report. destruct has; cbn.
      * repeat split; auto. intros ->. discriminate.
      * repeat split; auto. eauto.
Qed.

(** Conversely a missing last component makes it succeed. *)
Theorem C25_creates_partial : forall k s has p q n, wf s -> names_missing k s (native p) q n ->
  exists s', run (fsk k) (create_directory_impl has p) s = Done (true, None) s'.
Proof.
  intros k s has p q n Hw H. unfold create_directory_impl. rewrite run_sys. cbn [fsk]. unfold sys_mkdir. rewrite H.
  cbn. eauto.
Qed.

(** Whatever entry [p] names, a regular file or a dangling symlink too: no error. *)
Theorem C25_existing_file_refuted : forall k s has p q x, names_entry k s (native p) q x ->
  run (fsk k) (create_directory_impl has p) s = Done (false, None) s.
Proof. intros k s has p q x (l & H & _). unfold create_directory_impl. rewrite run_sys. cbn [fsk]. unfold sys_mkdir. rewrite H. reflexivity. Qed.
Example C25_existing_file_example : names_entry demo_choices demo (native (topath (lit "/a/f"))) [lit "a"; lit "f"] (NLeaf 3) /\ type_of demo (NLeaf 3) = ft_regular.
Proof. split; [exists 40; split; reflexivity|reflexivity]. Qed.

Example C25_example : wf demo /\ names_missing demo_choices demo (native (topath (lit "l/x"))) [lit "b"] (lit "x") /\
  names_missing demo_choices demo (native (topath (lit "/a/./new/"))) [lit "a"] (lit "new") /\
  (exists s', run (fsk demo_choices) (create_directory_impl true (topath (lit "l/x"))) demo = Done (true, None) s' /\
     get (f_root s') [lit "b"] = Some (Dir 7 [(lit "h", Leaf 3); (lit "x", Dir 10 [])])) /\
  run (fsk demo_choices) (create_directory_impl true (topath (lit "d"))) demo = Done (false, None) demo /\
  run (fsk demo_choices) (create_directory_impl true (topath (lit "f/x"))) demo = Done (false, Some ENOTDIR) demo.
Proof.
  split; [apply demo_wf|]. repeat split; try reflexivity. eexists. split; vm_compute; reflexivity.
Qed.

(** * C27 remove *)

Lemma sys_remove_spec : forall k s t, wf s ->
  match sys_remove k s t with
  | (Val _, s') =>
      exists q x, names_entry k s t q x /\ q <> [] /\ look (f_root s') q = None /\
        same_outside s s' q /\ f_body s' = f_body s /\ same_process s s' /\
        match x with
        | NLeaf i => f_meta s' i = add_link (f_meta s i) (-1) /\ same_metas_but s s' i
        | NDir i => get (f_root s) q = Some (Dir i []) /\ f_meta s' = f_meta s
        end
  | (Err e, s') => s' = s /\ (e = ENOENT -> (exists q n, names_missing k s t q n) \/ find_entry k s t = Fail ENOENT)
  end.
Proof.
  intros k s t Hw. unfold sys_remove. destruct (find_entry k s t) as [l q|q n|e] eqn:E.
  2: { split; auto. intros _. left. exists q, n. auto. }
  2: { split; auto. intros ->. auto. }
  destruct (entry_found _ _ _ _ _ Hw E) as [x Hx].
  destruct (is_nil q) eqn:Hq; [split; auto; discriminate|].
  destruct (str_eqb (last_name t) (lit ".")); [split; auto; discriminate|].
  destruct (str_eqb (last_name t) (lit "..")); [split; auto; discriminate|].
  assert (Hne : q <> []) by (intros ->; discriminate).
  destruct (snoc_cases q) as [->|[q0 [n ->]]]; [congruence|]. rewrite removelast_snoc, last_snoc.
  assert (Hpar : exists i0 l0, get (f_root s) q0 = Some (Dir i0 l0)).
  { pose proof Hx as Hx'. apply look_parent in Hx' as [i0 Hi]. apply look_dir in Hi as [l0 Hl]. eauto. }
  destruct Hpar as (i0 & l0 & Hpar).
  assert (Hgone : look (delete_at q0 n (f_root s)) (q0 ++ [n]) = None).
  { apply look_None. eapply get_delete_same; eauto. apply (wf_root s Hw). }
  destruct (get (f_root s) (q0 ++ [n])) as [[i|i m]|] eqn:Hg.
  - destruct (ends_slash t); [split; auto; discriminate|].
    exists (q0 ++ [n]), (NLeaf i). unfold unlink, same_process. cbn. repeat match goal with |- _ /\ _ => split end; auto.
    + exists l. split; auto. apply look_leaf. auto.
    + intros r Hr. cbn. apply look_delete_out. auto.
    + apply upd_same.
    + intros j Hj. cbn. apply upd_other. auto.
  - destruct m as [|e m]; cbn [is_nil]; [|split; auto; discriminate].
    exists (q0 ++ [n]), (NDir i). unfold same_process. cbn. repeat match goal with |- _ /\ _ => split end; auto.
    + exists l. split; auto. apply look_dir. eauto.
    + intros r Hr. cbn. apply look_delete_out. auto.
  - unfold look in Hx. rewrite Hg in Hx. discriminate.
Qed.

(** remove(p): true exactly when the entry was a non-directory or an empty directory and is gone; nothing else
    changes, except that the object the entry named has one name less. False without error only when
    nothing is there. In every other case an error and no change. *)
Theorem C27_remove : forall k s has p, wf s ->
  match run (fsk k) (remove_impl has p) s with
  | Done (true, e) s' =>
      e = None /\
      exists q x, names_entry k s (native p) q x /\ q <> [] /\ look (f_root s') q = None /\
        same_outside s s' q /\ f_body s' = f_body s /\ same_process s s' /\
        match x with
        | NLeaf i => f_meta s' i = add_link (f_meta s i) (-1) /\ same_metas_but s s' i
        | NDir i => get (f_root s) q = Some (Dir i []) /\ f_meta s' = f_meta s
        end
  | Done (false, None) s' =>
      s' = s /\ (native p = [] \/ (exists q n, names_missing k s (native p) q n) \/ find_entry k s (native p) = Fail ENOENT)
  | Done (false, Some _) s' => s' = s /\ has = true
  | Failed f s' => s' = s /\ has = false /\ exists e, f = FThrow (Some e) [p]
  end.
Proof.
  intros k s has p Hw. unfold remove_impl, empty. fold (native p). destruct (is_nil (native p)) eqn:Hn.
  { cbn. split; auto. left. apply is_nil_true. auto. }
  rewrite run_sys. cbn [fsk]. pose proof (sys_remove_spec k s (native p) Hw) as H.
  destruct (sys_remove k s (native p)) as [[e|u] s'] eqn:Hr; cbn [fst snd].
  - destruct H as [-> H]. destruct (errno_eqb e ENOENT) eqn:Ee.
    + apply errno_eqb_eq in Ee. cbn. auto.
    + unfold report. destruct has; cbn; eauto.
  - cbn. split; auto.
Qed.

(** Any entry that is not a directory, symlinks included, and any empty directory can be removed by its plain name; a
    non-empty directory is an error. *)
Theorem C27_removes : forall k s has p q c, wf s -> (exists l, find_entry k s (native p) = Found l q) -> get (f_root s) q = Some c -> q <> [] ->
  plain (last_name (native p)) = true ->
  match c with
  | Leaf _ => ends_slash (native p) = false -> exists s', run (fsk k) (remove_impl has p) s = Done (true, None) s'
  | Dir _ [] => exists s', run (fsk k) (remove_impl has p) s = Done (true, None) s'
  | Dir _ (_ :: _) => run (fsk k) (remove_impl has p) s = run (fsk k) (report has [p] false (Some ENOTEMPTY)) s
  end.
Proof.
  intros k s has p q c Hw [l E] Hg Hq Hp. unfold remove_impl, empty. fold (native p).
  assert (Hn : is_nil (native p) = false).
  { unfold find_entry, resolve_comps in E. destruct (is_nil (native p)); [discriminate|auto]. }
  rewrite Hn. unfold plain in Hp. apply andb_true_iff in Hp as [Hp Hp2]. apply andb_true_iff in Hp as [_ Hp1].
  apply negb_true_iff in Hp1, Hp2.
  assert (Hq' : is_nil q = false) by (destruct q; [congruence|reflexivity]).
  assert (Hrun : forall A (f : res unit -> prog A), run (fsk k) (Sys (c_remove (native p)) f) s = run (fsk k) (f (fst (sys_remove k s (native p)))) (snd (sys_remove k s (native p)))).
  { intros. rewrite run_sys. reflexivity. }
  rewrite Hrun. unfold sys_remove. rewrite E, Hp1, Hp2, Hq', Hg.
  destruct c as [i|i [|e m]].
  - intros ->. cbn. eauto.
  - cbn. eauto.
  - reflexivity.
Qed.

Example C27_example : wf demo /\
  names_entry demo_choices demo (native (topath (lit "l"))) [lit "a"; lit "l"] (NLeaf 4) /\
  (exists s', run (fsk demo_choices) (remove_impl true (topath (lit "l"))) demo = Done (true, None) s' /\
     get (f_root s') [lit "a"] = Some (Dir 2 [(lit "f", Leaf 3); (lit "d", Dir 5 [(lit "g", Leaf 6)])]) /\
     get (f_root s') [lit "b"] = get demo_tree [lit "b"]) /\
  run (fsk demo_choices) (remove_impl true (topath (lit "d"))) demo = Done (false, Some ENOTEMPTY) demo /\
  run (fsk demo_choices) (remove_impl true (topath (lit "nothing"))) demo = Done (false, None) demo.
Proof.
  split; [apply demo_wf|]. split; [exists 40; split; reflexivity|]. split; [|split; reflexivity].
  eexists. split; [vm_compute; reflexivity|]. split; vm_compute; reflexivity.
Qed.

(** * C53 create_directory under races *)

(** Several processes on one system: at each moment some process makes its next call. (The processes have the same
    current directory; no repository code is modelled here.) *)
Definition step1 {A S} (h : kernel S) (p : prog A) (s : S) : prog A * S :=
  match p with Sys c f => (f (fst (h c s)), snd (h c s)) | _ => (p, s) end.
Inductive threads {A S} (h : kernel S) : list (prog A) -> S -> list (prog A) -> S -> Prop :=
| th_done : forall l s, threads h l s l s
| th_step : forall a p b s l' s',
    threads h (a ++ fst (step1 h p s) :: b) (snd (step1 h p s)) l' s' -> threads h (a ++ p :: b) s l' s'.

(** Any number of calls of create_directory on a missing path, interleaved in any way: exactly one returns true, the
    others return false without error, and the directory exists afterwards. *)
Theorem C53_exactly_one : forall k s p q n count results s', wf s -> names_missing k s (native p) q n -> count <> 0 ->
  threads (fsk k) (repeat (create_directory_impl true p) count) s (map Ret results) s' ->
  exists a b, results = repeat (false, None) a ++ (true, None) :: repeat (false, None) b /\
    exists i, names_entry k s' (native p) (q ++ [n]) (NDir i).
Proof.
  intros k s p q n count results s' Hw Hm Hc Ht.
  set (P := create_directory_impl true p) in *.
  pose proof (C25_create_directory_partial k s true p Hw) as H25. fold P in H25.
  assert (Hmk : exists s1, sys_mkdir k s (native p) perms_all = (Val tt, s1)).
  { unfold sys_mkdir. rewrite Hm. eauto. }
  destruct Hmk as [s1 Hmk].
  assert (Hrun : run (fsk k) P s = Done (true, None) s1).
  { unfold P, create_directory_impl. rewrite run_sys. cbn [fsk]. rewrite Hmk. reflexivity. }
  rewrite Hrun in H25. destruct H25 as [_ (q' & n' & Hm' & He & _)].
  assert (q' = q /\ n' = n) as [-> ->] by (unfold names_missing in *; split; congruence).
  assert (Hs1 : sys_mkdir k s1 (native p) perms_all = (Err EEXIST, s1)).
  { unfold sys_mkdir. destruct He as [l [-> _]]. reflexivity. }
  assert (Hp0 : step1 (fsk k) P s = (Ret (true, None), s1)).
  { unfold P, create_directory_impl. cbn [step1 fsk]. rewrite Hmk. reflexivity. }
  assert (Hp1 : step1 (fsk k) P s1 = (Ret (false, None), s1)).
  { unfold P, create_directory_impl. cbn [step1 fsk]. rewrite Hs1. reflexivity. }
  set (other := fun x : prog (bool * ecode) => x = P \/ x = Ret (false, None)).
  set (inv := fun (l : list (prog (bool * ecode))) (st : fs) =>
    (st = s /\ Forall (eq P) l /\ l <> []) \/
    (st = s1 /\ exists a b, l = a ++ Ret (true, None) :: b /\ Forall other a /\ Forall other b)).
  assert (Hinv : forall l st l' st', threads (fsk k) l st l' st' -> inv l st -> inv l' st').
  { intros l st l' st' T. induction T as [|a x b st l' st' T IH]; auto. intros Hi. apply IH. clear IH T.
    destruct Hi as [(-> & Hf & _)|(-> & c & d & Heq & Hc1 & Hd)].
    - apply Forall_app in Hf as [Hf1 Hf2]. inversion Hf2; subst. rewrite Hp0. cbn [fst snd].
      right. split; auto. exists a, b. split; auto.
      split; (eapply Forall_impl; [|eassumption]); intros y <-; left; reflexivity.
    - right.
      assert (Hx : x = Ret (true, None) \/ other x).
      { assert (Hin : In x (c ++ Ret (true, None) :: d)) by (rewrite <- Heq; apply in_elt).
        rewrite in_app_iff in Hin. cbn in Hin. rewrite Forall_forall in Hc1, Hd. intuition. }
      assert (Hst : snd (step1 (fsk k) x s1) = s1).
      { destruct Hx as [->|[->| ->]]; auto. rewrite Hp1. reflexivity. }
      split; [exact Hst|].
      assert (Hcase : (exists a2, a = c ++ Ret (true, None) :: a2 /\ d = a2 ++ x :: b) \/
                      (a = c /\ x = Ret (true, None) /\ d = b) \/
                      (exists b1, c = a ++ x :: b1 /\ b = b1 ++ Ret (true, None) :: d)).
      { clear - Heq. revert c Heq. induction a as [|y a IH]; intros [|z c] Heq; cbn in Heq; inversion Heq; subst.
        - auto.
        - right. right. exists c. auto.
        - left. exists a. auto.
        - destruct (IH _ H1) as [(a2 & -> & ->)|[(-> & -> & ->)|(b1 & -> & ->)]].
          + left. exists a2. auto.
          + auto.
          + right. right. exists b1. auto. }
      assert (Hother : other x -> other (fst (step1 (fsk k) x s1))).
      { intros [->| ->]; [rewrite Hp1; right; reflexivity|right; reflexivity]. }
      destruct Hcase as [(a2 & -> & ->)|[(-> & -> & ->)|(b1 & -> & ->)]].
      + apply Forall_app in Hd as [Hd1 Hd2]. inversion Hd2; subst.
        exists c, (a2 ++ fst (step1 (fsk k) x s1) :: b). rewrite <- app_assoc. repeat split; auto.
        apply Forall_app. auto.
      + exists c, b. auto.
      + apply Forall_app in Hc1 as [Hc2 Hc3]. inversion Hc3; subst.
        exists (a ++ fst (step1 (fsk k) x s1) :: b1), d. rewrite <- app_assoc. repeat split; auto.
        apply Forall_app. auto. }
  assert (Hstart : inv (repeat P count) s).
  { left. repeat split; auto.
    - clear. induction count; cbn; constructor; auto.
    - destruct count; [congruence|discriminate]. }
  apply (Hinv _ _ _ _ Ht) in Hstart.
  assert (Hret : forall l, Forall other (map Ret l) -> l = repeat (false, None) (length l)).
  { induction l as [|x l IH]; cbn; intros Hf; auto. inversion Hf; subst. rewrite <- IH; auto.
    destruct H1 as [H1|H1]; [discriminate|]. injection H1 as ->. reflexivity. }
  destruct Hstart as [(_ & Hf & Hne)|(-> & a & b & Heq & Ha & Hb)].
  - exfalso. destruct results as [|r results]; [cbn in Hne; congruence|]. cbn in Hf. inversion Hf. discriminate.
  - apply map_eq_app in Heq as (ra & rb & -> & <- & Hb'). apply map_eq_cons in Hb' as (r & rb' & -> & Hr & <-).
    injection Hr as ->. exists (length ra), (length rb'). rewrite <- !Hret by auto. split; auto.
    exists (f_next s). exact He.
Qed.

Example C53_example : exists s', 
  threads (fsk demo_choices) (repeat (create_directory_impl true (topath (lit "x"))) 3) demo
    (map Ret [(false, None); (true, None); (false, None)]) s' /\
  names_missing demo_choices demo (native (topath (lit "x"))) [lit "a"] (lit "x").
Proof.
  eexists. split; [|reflexivity].
  apply (th_step (fsk demo_choices) [create_directory_impl true (topath (lit "x"))]).
  apply (th_step (fsk demo_choices) []).
  apply (th_step (fsk demo_choices) [Ret (false, None); Ret (true, None)]).
  apply th_done.
Qed.
Print Assumptions C25_create_directory_partial.
Print Assumptions C25_creates_partial.
Print Assumptions C25_existing_file_refuted.
Print Assumptions C27_remove.
Print Assumptions C27_removes.
Print Assumptions C53_exactly_one.
