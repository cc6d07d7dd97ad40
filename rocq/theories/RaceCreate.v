(** C90: create_directories called by several threads or processes at once, on the file system of FS.v. *)
From Coq Require Import Ascii String Bool Arith NArith ZArith Lia.
From Verif Require Import Str PathModel PathSpec StrProofs PathProofs PathOps PathOps2 PathNormal PathReach PathLaws
  FlagsModel TimeModel Prog DirModel OpsModel OpsProps FS FSProofs FSSpec FSOps FSPlace FSProps FSCreate.
From Coq Require Import List.
Import ListNotations.

(** * Vocabulary *)

(** Everything that was there is there still; what is new is a directory. *)
Definition adds_directories (s s' : fs) : Prop :=
  (forall r x, look (f_root s) r = Some x -> look (f_root s') r = Some x) /\
  (forall r x, look (f_root s) r = None -> look (f_root s') r = Some x -> exists d, x = NDir d) /\
  (forall i, (i < f_next s)%N -> f_body s' i = f_body s i) /\ f_cwd s' = f_cwd s /\ (f_next s <= f_next s')%N /\ (wf s -> wf s').

(** At each moment one thread makes its next call, or somebody else does something allowed by [others]. The number counts the calls of the
    threads. (All have the same current directory; no repository code is modelled here.) *)
Inductive turns {A} (k : choices) (others : fs -> fs -> Prop) : nat -> list (prog A) -> fs -> list (prog A) -> fs -> Prop :=
| tu_end : forall l s, turns k others 0 l s l s
| tu_call : forall n l0 s0 a c f b s, turns k others n l0 s0 (a ++ Sys c f :: b) s ->
    turns k others (S n) l0 s0 (a ++ f (fst (fsk k c s)) :: b) (snd (fsk k c s))
| tu_other : forall n l0 s0 l s s', turns k others n l0 s0 l s -> others s s' -> turns k others n l0 s0 l s'.

(** Nobody else. *)
Definition nobody (s s' : fs) : Prop := False.

(** The path is a directory, or one of its prefixes is missing from a directory. *)
Definition creatable (k : choices) (s : fs) (t : str) : Prop :=
  (exists q d, leads_to k s t q (NDir d)) \/
  (exists i q x, 0 < i <= length (names t) /\ names_missing k s (prefix_text t i) q x).

(** A call of create_directories: with or without an error code, the path. *)
Definition request := (bool * str)%type.
Definition requested (cf : config) (n : nat) (r : request) : prog (bool * ecode) := create_directories_impl cf n (fst r) (topath (snd r)).

(** The paths of C26: not empty, no trailing separator, no "." and "..". *)
Definition proper (cf : config) (n : nat) (t : str) : Prop :=
  t <> [] /\ ends_slash t = false /\ Forall (fun x => is_dots x = false) (names t) /\ (el_parent (cf_el cf) = true -> few_slashes t) /\
  length (names t) < n.

(** * States that grow *)

Lemma adds_refl : forall s, adds_directories s s.
Proof. intros s. split; [auto|]. split; [intros; congruence|]. split; [auto|]. split; [auto|]. split; [lia|auto]. Qed.
Lemma adds_trans : forall a b c, adds_directories a b -> adds_directories b c -> adds_directories a c.
Proof.
  intros a b c (A1 & A2 & A3 & A4 & A5 & A6) (B1 & B2 & B3 & B4 & B5 & B6). split; [auto|]. split.
  - intros r x H1 H2. destruct (look (f_root b) r) as [y|] eqn:E; [|eapply B2; eauto]. rewrite (B1 _ _ E) in H2. injection H2 as <-. eapply A2; eauto.
  - split; [intros i Hi; rewrite B3, A3 by lia; reflexivity|]. split; [congruence|]. split; [lia|auto].
Qed.
Lemma adds_extends : forall s s', wf s -> adds_directories s s' -> extends s s'.
Proof.
  intros s s' Hw (H1 & H2 & H3 & H4 & H5 & H6). split; [exact H1|]. split; [|exact H4].
  intros q i Hl. unfold link_text. rewrite H3; [reflexivity|]. eapply look_fresh; eauto.
Qed.
Lemma adds_dir : forall s s' r x, adds_directories s s' -> look (f_root s) r = None \/ (exists d, look (f_root s) r = Some (NDir d)) ->
  look (f_root s') r = Some x -> exists d, x = NDir d.
Proof.
  intros s s' r x (H1 & H2 & _) [H|[d H]] Hx; [eapply H2; eauto|]. rewrite (H1 _ _ H) in Hx. injection Hx as <-. eauto.
Qed.

(** What mkdir does. *)
Lemma mkdir_adds : forall k s t m q x, wf s -> find_entry k s t = Missing q x ->
  fst (sys_mkdir k s t m) = Val tt /\ adds_directories s (snd (sys_mkdir k s t m)) /\
  look (f_root (snd (sys_mkdir k s t m))) (q ++ [x]) = Some (NDir (f_next s)) /\
  (forall r, look (f_root s) r = None -> look (f_root (snd (sys_mkdir k s t m))) r <> None -> r = q ++ [x]).
Proof.
  intros k s t m q x Hw E. destruct (entry_missing _ _ _ _ _ E) as (i & l & H1 & H2 & H3). unfold sys_mkdir. rewrite E. cbn [fst snd].
  destruct (make_look k s q x (Dir (f_next s) []) (mode_bits m) 2 i l H1 H2) as (G1 & G2 & G3 & G4 & G5 & G6 & G7).
  set (s' := make k s q x (Dir (f_next s) []) (mode_bits m) 2) in *.
  assert (Hn : look (f_root s) (q ++ [x]) = None).
  { unfold look. rewrite get_app, H1. cbn [get]. rewrite H2. reflexivity. }
  assert (Hnew : forall r, look (f_root s) r = None -> look (f_root s') r <> None -> r = q ++ [x]).
  { intros r Hr Hr'. destruct (below (q ++ [x]) r) eqn:B; [|rewrite (G2 r B) in Hr'; congruence]. apply below_spec in B as [u ->].
    destruct u as [|y u]; [apply app_nil_r|]. exfalso. apply Hr'. unfold look. rewrite get_app, G1. reflexivity. }
  split; [reflexivity|]. split; [|split; [unfold look; rewrite G1; reflexivity|exact Hnew]].
  split; [apply G3|]. split.
  - intros r y Hr Hy. rewrite (Hnew r Hr ltac:(congruence)) in Hy. unfold look in Hy. rewrite G1 in Hy. injection Hy as <-. eauto.
  - split; [intros j _; rewrite G4; reflexivity|]. split; [apply G7|]. split; [cbn; lia|]. intros _.
    eapply wf_make; eauto.
    + cbn. repeat split; constructor.
    + cbn. intros y [<-|[]]. reflexivity.
Qed.

(** * One thread *)

(** A program that leaves every system alone makes no call. *)
Definition any_answer (c : call) : answer c :=
  match c with
  | c_stat _ | c_lstat _ => Err ENOENT
  | c_open _ _ _ | c_opendir _ => Err ENOENT
  | c_close _ | c_closedir _ => tt
  | c_mkdir _ _ | c_symlink _ _ | c_link _ _ | c_remove _ | c_rename _ _
  | c_truncate _ _ | c_ftruncate _ _ | c_fchmod _ _ | c_fchmodat _ _ _
  | c_utimensat _ _ | c_chdir _ => Err ENOENT
  | c_readlink _ _ | c_getcwd _ | c_realpath _ => Err ENOENT
  | c_statvfs _ => Err ENOENT
  | c_pathconf => 0%Z
  | c_getenv _ => None
  | c_sendfile _ _ _ | c_write _ _ => Err ENOENT
  | c_read _ _ => Err ENOENT
  | c_readdir _ => Err ENOENT
  end.
Definition counting : kernel nat := fun c n => (any_answer c, S n).
Lemma counting_grows : forall A (p : prog A) n, n <= match run counting p n with Done _ m => m | Failed _ m => m end.
Proof. induction p as [a|f|c g IH]; intros n; cbn; auto. eapply Nat.le_trans; [|apply IH]. lia. Qed.
Lemma no_calls : forall A (p : prog A) x, (forall S (h : kernel S) s, run h p s = Done x s) -> p = Ret x.
Proof.
  intros A [a|f|c g] x H.
  - specialize (H nat counting 0). cbn in H. injection H as ->. reflexivity.
  - specialize (H nat counting 0). discriminate.
  - specialize (H nat counting 0). cbn in H. pose proof (counting_grows _ (g (any_answer c)) 1) as Hg. rewrite H in Hg. lia.
Qed.

Lemma requested_loop : forall cf n has t, proper cf n t -> exists l, rungs (root_text t) [] (names t) l /\
  requested cf n (has, t) = create_missing has (topath t) l false.
Proof.
  intros cf n has t (Hne & He & Hd & HE & Hn).
  assert (Hnn : names t <> []).
  { intros Hx. apply only_slashes_names in Hx. rewrite only_slashes_ends in He; auto. discriminate. }
  assert (Hnat : native (topath t) = t).
  { change (topath t) with (mkpath t). rewrite native_mkpath. unfold reported_text.
    destruct (only_slashes t) eqn:Ho; [apply only_slashes_names in Ho; congruence|]. rewrite andb_false_r. auto. }
  assert (Hrung : rung (root_text t) (names t) (topath t)).
  { unfold rung. rewrite Hnat. repeat split; auto. unfold root_text. destruct (starts_slash t); reflexivity. }
  pose proof (mkpath_climbs (cf_el cf) t He HE) as Hc.
  destruct (run_push cf (root_text t) (root_cases t) _ _ _ n [] Hc (names_goodnames t) Hd Hn (fun _ => Hrung)) as (l & Hl & Hr).
  exists l. split; [exact Hr|]. assert (Hp : push_missing cf n (topath t) [] = Ret l).
  { apply no_calls. intros S h s. rewrite Hl, app_nil_r. reflexivity. }
  unfold requested, create_directories_impl. cbn [fst snd].
  replace (empty (topath t)) with false by (unfold empty; change (pathname (topath t)) with (native (topath t)); rewrite Hnat; destruct t; [congruence|reflexivity]).
  rewrite Hp. cbn [pbind]. destruct l; [destruct (names t); [congruence|destruct Hr]|reflexivity].
Qed.

Lemma create_status : forall s p x, CreateFileStatus true p (Val (stat_of s x)) = Ret (status_of s x, None).
Proof. intros s p x. unfold CreateFileStatus. rewrite stat_of_type, stat_of_perms. reflexivity. Qed.

Section Thread.
Variable k : choices.
Variable t : str.
Let root := root_text t.
Hypothesis Hd : Forall (fun x => is_dots x = false) (names t).

(** The names [pre] lead to a directory. *)
Definition at_dir (s : fs) (pre : list str) : Prop := exists l q d, walk k root s true pre = Found l q /\ look (f_root s) q = Some (NDir d).
(** Nothing but directories is in the way from [q]. *)
Definition free (s : fs) (q : loc) (rest : list str) : Prop :=
  forall m, 0 < m <= length rest -> look (f_root s) (q ++ firstn m rest) = None \/ exists d, look (f_root s) (q ++ firstn m rest) = Some (NDir d).
(** [pre] leads to a directory, and [rest] is there or can be made. *)
Fixpoint ok (s : fs) (pre rest : list str) : Prop :=
  at_dir s pre /\
  match rest with
  | [] => True
  | x :: r => ok s (pre ++ [x]) r \/ exists l q, walk k root s true pre = Found l q /\ free s q rest
  end.

Lemma ok_at : forall s pre rest, ok s pre rest -> at_dir s pre.
Proof. intros s pre [|x r] H; apply H. Qed.
Lemma at_dir_adds : forall s s' pre, wf s -> adds_directories s s' -> at_dir s pre -> at_dir s' pre.
Proof.
  intros s s' pre Hw H (l & q & d & H1 & H2). pose proof (adds_extends s s' Hw H) as He. exists l, q, d. split; [eapply walk_extends; eauto|].
  apply He. exact H2.
Qed.
Lemma free_adds : forall s s' q rest, adds_directories s s' -> free s q rest -> free s' q rest.
Proof.
  intros s s' q rest H Hf m Hm. destruct (look (f_root s') (q ++ firstn m rest)) as [x|] eqn:E; [|auto]. right.
  destruct (adds_dir s s' _ x H (Hf m Hm) E) as [d ->]. eauto.
Qed.
Lemma ok_adds : forall s s' rest pre, wf s -> adds_directories s s' -> ok s pre rest -> ok s' pre rest.
Proof.
  intros s s' rest. induction rest as [|x r IH]; intros pre Hw Ha [H1 H2]; (split; [eapply at_dir_adds; eauto|]); auto.
  destruct H2 as [H2|(l & q & H2 & H3)]; [left; auto|right]. exists l, q. split; [|eapply free_adds; eauto].
  eapply walk_extends; eauto. apply adds_extends; auto.
Qed.
Lemma free_tail : forall s q x r, free s q (x :: r) -> free s (q ++ [x]) r.
Proof.
  intros s q x r H m Hm. specialize (H (S m) ltac:(cbn [length]; lia)). cbn [firstn] in H. rewrite <- app_assoc. exact H.
Qed.

(** The next name: either it leads to a directory, and we are as far as that, or it is missing. *)
Lemma ok_next : forall s pre x r, is_dots x = false -> ok s pre (x :: r) ->
  (at_dir s (pre ++ [x]) /\ ok s (pre ++ [x]) r) \/
  (exists l q d, walk k root s true pre = Found l q /\ look (f_root s) q = Some (NDir d) /\ look (f_root s) (q ++ [x]) = None /\ free s q (x :: r)).
Proof.
  intros s pre x r Hx [H1 [H2|(l & q & H2 & H3)]]; [left; split; [eapply ok_at; eauto|auto]|].
  destruct H1 as (l' & q' & d & W & L). rewrite H2 in W. injection W as <- <-.
  destruct (H3 1 ltac:(cbn [length]; lia)) as [Hn|[d' Hd']]; cbn [firstn] in *; [right; eauto 10|]. left.
  assert (Ha : at_dir s (pre ++ [x])) by (exists l, (q ++ [x]), d'; split; [eapply walk_dir; eauto|exact Hd']).
  split; [exact Ha|]. destruct r as [|y r]; [split; auto|]. split; [exact Ha|]. right. exists l, (q ++ [x]). split; [eapply walk_dir; eauto|apply free_tail; auto].
Qed.

Lemma ok_arrive : forall s pre x r l q d, is_dots x = false -> ok s pre (x :: r) -> walk k root s true pre = Found l q -> look (f_root s) (q ++ [x]) = Some (NDir d) ->
  ok s (pre ++ [x]) r.
Proof.
  intros s pre x r l q d Hx H W L. destruct (ok_next s pre x r Hx H) as [[_ H1]|(l' & q' & d' & W' & _ & L' & _)]; [exact H1|congruence].
Qed.

(** * At the start *)

Lemma ok_up : forall s pre x r, at_dir s pre -> ok s (pre ++ [x]) r -> ok s pre (x :: r).
Proof. intros s pre x r H1 H2. split; auto. Qed.

Lemma ok_from : forall s n, (forall i, i < n -> at_dir s (firstn i (names t))) -> n <= length (names t) -> ok s (firstn n (names t)) (skipn n (names t)) -> ok s [] (names t).
Proof.
  intros s n. induction n as [|n IH]; intros Ha Hn H; [exact H|]. apply IH; [intros; apply Ha; lia|lia|].
  destruct (nth_split (names t) (n := n) [] ltac:(lia)) as (a & b & Hs & Hl). set (x := nth n (names t) []) in *. clearbody x.
  assert (E1 : firstn n (names t) = a) by (rewrite Hs, <- Hl, firstn_app, Nat.sub_diag, firstn_all; cbn; apply app_nil_r).
  assert (E2 : skipn n (names t) = x :: b) by (rewrite Hs, <- Hl, skipn_app, Nat.sub_diag, skipn_all; reflexivity).
  assert (E3 : firstn (S n) (names t) = a ++ [x]).
  { rewrite Hs, <- Hl. replace (S (length a)) with (length a + 1) by lia. rewrite firstn_app_2. reflexivity. }
  assert (E4 : skipn (S n) (names t) = b).
  { rewrite Hs, <- Hl. rewrite skipn_app, skipn_all2 by lia. replace (S (length a) - length a) with 1 by lia. reflexivity. }
  rewrite E3, E4 in H. rewrite E1, E2. apply ok_up; [|exact H]. rewrite <- E1. apply Ha. lia.
Qed.

Lemma creatable_ok : forall s, names t <> [] -> ends_slash t = false -> creatable k s t -> ok s [] (names t).
Proof.
  intros s Hn He [(q & d & l & H1 & H2)|(i & q & x & Hi & H)].
  - rewrite (proj1 (text_walk k s true t t (names t) eq_refl eq_refl He Hn)) in H1.
    assert (Hpre : forall i, i < length (names t) -> at_dir s (firstn i (names t))).
    { intros i Hi. destruct (walk_prefixes k root s true (names t) l q Hd H1 i Hi) as (l' & q' & d' & W & L). exists l', q', d'. auto. }
    apply (ok_from s (length (names t))); auto. rewrite firstn_all, skipn_all. split; [|exact Logic.I]. exists l, q, d. auto.
  - unfold names_missing in H. rewrite prefix_entry in H by exact Hi. fold root in H.
    destruct i as [|i]; [lia|]. destruct (nth_split (names t) (n := i) [] ltac:(lia)) as (a & b & Hs & Hl). set (y := nth i (names t) []) in *. clearbody y.
    assert (E1 : firstn i (names t) = a) by (rewrite Hs, <- Hl, firstn_app, Nat.sub_diag, firstn_all; cbn; apply app_nil_r).
    assert (E2 : skipn i (names t) = y :: b) by (rewrite Hs, <- Hl, skipn_app, Nat.sub_diag, skipn_all; reflexivity).
    assert (E3 : firstn (S i) (names t) = a ++ [y]).
    { rewrite Hs, <- Hl. replace (S (length a)) with (length a + 1) by lia. rewrite firstn_app_2. reflexivity. }
    rewrite E3 in H.
    assert (Hda : Forall (fun x => is_dots x = false) a /\ is_dots y = false).
    { pose proof Hd as Hd'. rewrite Hs in Hd'. apply Forall_app in Hd' as [K1 K2]. inversion K2; auto. }
    destruct Hda as [Hda Hy]. destruct (walk_missing k root s a y q x Hy H) as (-> & (l & d & W & L) & Ln).
    assert (Ha : at_dir s a) by (exists l, q, d; auto).
    apply (ok_from s i); [|lia|].
    + intros j Hj. assert (j < length a) by lia. destruct (walk_prefixes k root s true a l q Hda W j H0) as (l' & q' & d' & W' & L').
      exists l', q', d'. rewrite Hs, firstn_app. replace (j - length a) with 0 by lia. cbn [firstn]. rewrite app_nil_r. auto.
    + rewrite E1, E2. split; [exact Ha|]. right. exists l, q. split; [exact W|]. intros m Hm. left. destruct m as [|m]; [lia|]. cbn [firstn].
      destruct (look (f_root s) (q ++ y :: firstn m b)) as [z|] eqn:E; auto. exfalso.
      replace (q ++ y :: firstn m b) with ((q ++ [y]) ++ firstn m b) in E by (rewrite <- app_assoc; reflexivity).
      destruct (firstn m b) as [|u v]; [rewrite app_nil_r in E; congruence|]. destruct (look_prefix _ _ _ _ E ltac:(discriminate)) as [d' Hd']. congruence.
Qed.

(** * The states of a thread *)

Variable s0 : fs.
(** Something has been made since [s0]. *)
Definition news (s : fs) : Prop := exists r d, look (f_root s0) r = None /\ look (f_root s) r = Some (NDir d).

(** Before the check of a directory, and between the check and mkdir. The number bounds the calls left; the boolean is what the thread will
    return at least. *)
Inductive stage (s : fs) : nat -> bool -> prog (bool * ecode) -> Prop :=
| st_loop : forall has p pre rest l c, names t = pre ++ rest -> rungs root pre rest l -> ok s pre rest -> (c = true -> news s) ->
    stage s (2 * length rest) c (create_missing has p l c)
| st_mkdir : forall has p pre x rest top l g lk q, names t = pre ++ x :: rest -> rung root (pre ++ [x]) top -> rungs root (pre ++ [x]) rest l ->
    ok s pre (x :: rest) -> walk k root s true pre = Found lk q -> look (f_root s0) (q ++ [x]) = None ->
    (forall r, r = Val tt \/ r = Err EEXIST -> g r = create_missing has p l true) ->
    stage s (S (2 * length rest)) true (Sys (c_mkdir (native top) perms_all) g).

Lemma news_adds : forall s s', adds_directories s s' -> news s -> news s'.
Proof. intros s s' H (r & d & H1 & H2). exists r, d. split; [auto|]. apply H. exact H2. Qed.

Lemma stage_adds : forall s s' m b th, wf s -> adds_directories s s' -> stage s m b th -> stage s' m b th.
Proof.
  intros s s' m b th Hw Ha [has p pre rest l c H1 H2 H3 H4|has p pre x rest top l g lk q H1 H2 H3 H4 H5 H6 H7].
  - apply st_loop with (pre := pre); auto; [eapply ok_adds; eauto|]. intros Hc. eapply news_adds; eauto.
  - apply st_mkdir with (has := has) (p := p) (pre := pre) (x := x) (l := l) (lk := lk) (q := q); auto; [eapply ok_adds; eauto|].
    eapply walk_extends; eauto. apply adds_extends; auto.
Qed.

(** What a prefix leads to. *)
Lemma at_dir_prefix : forall s pre rest, names t = pre ++ rest -> pre <> [] -> forall l q d, walk k root s true pre = Found l q -> look (f_root s) q = Some (NDir d) ->
  0 < length pre <= length (names t) /\ leads_to k s (prefix_text t (length pre)) q (NDir d).
Proof.
  intros s pre rest Hn Hne l q d W L. assert (Hl : 0 < length pre <= length (names t)).
  { rewrite Hn, app_length. destruct pre; [congruence|cbn; lia]. }
  split; [exact Hl|]. exists l. split; [|exact L]. rewrite prefix_walk by exact Hl. fold root.
  rewrite Hn, firstn_app, Nat.sub_diag, firstn_all. cbn [firstn]. rewrite app_nil_r. exact W.
Qed.

Lemma in_names : forall pre x rest, names t = pre ++ x :: rest -> is_dots x = false.
Proof. intros pre x rest H. rewrite H in Hd. apply Forall_app in Hd as [_ H2]. inversion H2; auto. Qed.

(** A step of a thread. *)
Definition calls (th : prog (bool * ecode)) : Prop := match th with Sys _ _ => True | _ => False end.

Lemma stage_step : forall s m b th, wf s -> adds_directories s0 s -> stage s m b th -> calls th ->
  let s' := snd (step1 (fsk k) th s) in
  adds_directories s s' /\
  exists m' b', m' < m /\ stage s' m' b' (fst (step1 (fsk k) th s)) /\ (b = true -> b' = true) /\
    (forall r, look (f_root s) r = None -> look (f_root s') r <> None -> b' = true /\ exists i d, 0 < i <= length (names t) /\ leads_to k s' (prefix_text t i) r (NDir d)).
Proof.
  intros s m b th Hw H0 Hs Hc. destruct Hs as [has p pre rest l c H1 H2 H3 H4|has p pre x rest top l g lk q H1 H2 H3 H4 H5 H6 H7].
  - destruct rest as [|x rest]; (destruct l as [|top l]; [try destruct H2|try destruct H2]); [cbn in Hc; contradiction|].
    pose proof (in_names _ _ _ H1) as Hx. destruct (rung_walk k root s true _ _ H ltac:(destruct pre; discriminate)) as [F1 F2].
    assert (Hs' : snd (step1 (fsk k) (create_missing has p (top :: l) c) s) = s) by reflexivity.
    rewrite Hs'. split; [apply adds_refl|].
    assert (Hst : fst (fsk k (c_stat (native top)) s) = sys_stat k s true (native top)) by reflexivity.
    destruct (ok_next s pre x rest Hx H3) as [[(lk & q & d & W & L) Hok]|(lk & q & d & W & L & Ln & Hf)].
    + exists (2 * length rest), c. split; [cbn [length]; lia|]. split; [|split; [auto|intros; congruence]].
      replace (fst (step1 (fsk k) (create_missing has p (top :: l) c) s)) with (create_missing has p l c).
      * apply st_loop with (pre := pre ++ [x]); auto. rewrite <- app_assoc. exact H1.
      * cbn [create_missing status_impl GetFileStatus pbind step1 fst]. rewrite Hst, sys_stat_node, F1, W. cbn [node_at]. rewrite L.
        rewrite create_status. cbn [pbind fst snd status_of st_type type_of]. cbn. rewrite orb_false_r. reflexivity.
    + exists (S (2 * length rest)), true. split; [cbn [length]; lia|]. split; [|split; [auto|intros; congruence]].
      assert (Eq : exists g, fst (step1 (fsk k) (create_missing has p (top :: l) c) s) = Sys (c_mkdir (native top) perms_all) g /\
                   forall r, r = Val tt \/ r = Err EEXIST -> g r = create_missing has p l true).
      { cbn [create_missing status_impl GetFileStatus pbind step1 fst]. rewrite Hst, sys_stat_node, F1, (walk_new k root s true pre x lk q d Hx W L Ln).
        cbn [node_at]. cbn. eexists. split; [reflexivity|]. rewrite orb_true_r. intros r [->| ->]; reflexivity. }
      destruct Eq as (g & -> & Hg). apply st_mkdir with (has := has) (p := p) (pre := pre) (x := x) (l := l) (lk := lk) (q := q); auto.
      destruct (look (f_root s0) (q ++ [x])) as [y|] eqn:E; auto. destruct H0 as (K & _). rewrite (K _ _ E) in Ln. discriminate.
  - pose proof (in_names _ _ _ H1) as Hx. destruct (rung_walk k root s true _ _ H2 ltac:(destruct pre; discriminate)) as [F1 F2].
    assert (Hst : step1 (fsk k) (Sys (c_mkdir (native top) perms_all) g) s = (g (fst (sys_mkdir k s (native top) perms_all)), snd (sys_mkdir k s (native top) perms_all))).
    { unfold step1. cbn [fsk]. destruct (sys_mkdir k s (native top) perms_all); reflexivity. }
    rewrite Hst. cbn [fst snd].
    destruct (ok_next s pre x rest Hx H4) as [[(lk' & q' & d & W & L) Hok]|(lk' & q' & d & W & L & Ln & Hf)].
    + destruct (walk_up k root s true pre x lk' q' Hx W) as (l1 & q1 & d1 & y & W1 & L1 & L2 & W2). rewrite H5 in W1. injection W1 as <- <-.
      unfold sys_mkdir. rewrite F2, W2. cbn [fst snd]. split; [apply adds_refl|]. exists (2 * length rest), true. split; [lia|]. rewrite (H7 (Err EEXIST)) by auto.
      split; [|split; [auto|intros; congruence]]. apply st_loop with (pre := pre ++ [x]); auto; [rewrite <- app_assoc; exact H1|]. intros _. exists (q ++ [x]).
      destruct (adds_dir s0 s _ y H0 (or_introl H6) L2) as [d2 ->]. eauto.
    + rewrite H5 in W. injection W as <- <-.
      assert (Hm : find_entry k s (native top) = Missing q x) by (rewrite F2; eapply walk_new; eauto).
      destruct (mkdir_adds k s (native top) perms_all q x Hw Hm) as (M1 & M2 & M3 & M4). rewrite M1. set (s' := snd (sys_mkdir k s (native top) perms_all)) in *.
      split; [exact M2|]. exists (2 * length rest), true. split; [lia|]. rewrite (H7 (Val tt)) by auto. pose proof (adds_extends s s' Hw M2) as He.
      assert (W' : walk k root s' true pre = Found lk q) by (eapply walk_extends; eauto).
      split; [|split; [auto|]].
      * apply st_loop with (pre := pre ++ [x]); auto; [rewrite <- app_assoc; exact H1| |intros _; exists (q ++ [x]); eauto].
        eapply ok_arrive; eauto. eapply ok_adds; eauto.
      * intros r Hr Hr'. split; [reflexivity|]. rewrite (M4 r Hr Hr'). exists (length (pre ++ [x])), (f_next s).
        apply (at_dir_prefix s' (pre ++ [x]) rest) with (l := lk); [rewrite <- app_assoc; exact H1|destruct pre; discriminate| |exact M3].
        eapply walk_dir; eauto. apply M2. exact L.
Qed.

Lemma stage_result : forall s m b th, ends_slash t = false -> names t <> [] -> stage s m b th ->
  match th with
  | Ret (v, e) => e = None /\ v = b /\ (exists q d, leads_to k s t q (NDir d)) /\ (v = true -> news s)
  | Stop _ => False
  | Sys _ _ => True
  end.
Proof.
  intros s m b th He Hn [has p pre rest l c H1 H2 H3 H4|has p pre x rest top l g lk q H1 H2 H3 H4 H5 H6 H7]; [|exact Logic.I].
  destruct rest as [|x rest]; (destruct l as [|top l]; [try destruct H2|try destruct H2]); [|exact Logic.I].
  cbn [create_missing]. split; [reflexivity|]. split; [reflexivity|]. split; [|exact H4]. destruct H3 as [(lk & q & d & W & L) _].
  rewrite app_nil_r in H1. exists q, d, lk. split; [|exact L]. rewrite (proj1 (text_walk k s true t t (names t) eq_refl eq_refl He Hn)), H1. exact W.
Qed.

Lemma stage_start : forall cf n has, proper cf n t -> creatable k s0 t -> stage s0 (2 * length (names t)) false (requested cf n (has, t)).
Proof.
  intros cf n has Hp Hcr. destruct (requested_loop cf n has t Hp) as (l & Hl & ->). destruct Hp as (Hne & He & _).
  apply st_loop with (pre := []); auto; [|discriminate]. apply creatable_ok; auto.
  intros Hx. apply only_slashes_names in Hx. rewrite only_slashes_ends in He; auto. discriminate.
Qed.
End Thread.

(** * All threads *)

Section Pool.
Variable k : choices.
Variable s0 : fs.

Inductive pool (s : fs) : list request -> list (prog (bool * ecode)) -> nat -> bool -> Prop :=
| po_nil : pool s [] [] 0 false
| po_cons : forall r rs th ths m b M B, stage k (snd r) s0 s m b th -> pool s rs ths M B -> pool s (r :: rs) (th :: ths) (m + M) (b || B).

Definition undotted (rs : list request) : Prop := Forall (fun r => Forall (fun x => is_dots x = false) (names (snd r))) rs.

Lemma pool_adds : forall s s' rs ths M B, wf s -> adds_directories s s' -> pool s rs ths M B -> pool s' rs ths M B.
Proof. intros s s' rs ths M B Hw Ha H. induction H; constructor; auto. eapply stage_adds; eauto. Qed.

Lemma pool_at : forall s a rs th b M B, wf s -> pool s rs (a ++ th :: b) M B ->
  exists r m c, In r rs /\ m <= M /\ (c = true -> B = true) /\ stage k (snd r) s0 s m c th /\
    forall s' m' c' th', adds_directories s s' -> stage k (snd r) s0 s' m' c' th' -> (c = true -> c' = true) ->
      exists B', (B = true -> B' = true) /\ (c' = true -> B' = true) /\ pool s' rs (a ++ th' :: b) (M - m + m') B'.
Proof.
  intros s a. induction a as [|x a IH]; intros rs th b M B Hw H; cbn [app] in H; inversion H as [|r rs' th0 ths m c M' B' Hs Hp]; subst.
  - exists r, m, c. split; [left; reflexivity|]. split; [lia|]. split; [intros ->; reflexivity|]. split; [exact Hs|].
    intros s' m' c' th' Ha Hs' Hc. exists (c' || B'). split; [|split; [intros ->; reflexivity|]].
    + intros HB. apply orb_true_iff in HB as [HB|HB]; [rewrite (Hc HB); reflexivity|rewrite HB; apply orb_true_r].
    + replace (m + M' - m + m') with (m' + M') by lia. cbn [app]. constructor; auto. eapply pool_adds; eauto.
  - destruct (IH rs' th b M' B' Hw Hp) as (r1 & m1 & c1 & I1 & I2 & I3 & I4 & I5). exists r1, m1, c1. split; [right; exact I1|]. split; [lia|].
    split; [intros Hc; rewrite (I3 Hc); apply orb_true_r|]. split; [exact I4|].
    intros s' m' c' th' Ha Hs' Hc. destruct (I5 s' m' c' th' Ha Hs' Hc) as (B1 & J1 & J2 & J3). exists (c || B1). split; [|split].
    + intros HB. apply orb_true_iff in HB as [HB|HB]; [rewrite HB; reflexivity|rewrite (J1 HB); apply orb_true_r].
    + intros Hc'. rewrite (J2 Hc'). apply orb_true_r.
    + replace (m + M' - m1 + m') with (m + (M' - m1 + m')) by lia. cbn [app]. constructor; auto. eapply stage_adds; eauto.
Qed.

Definition total (rs : list request) : nat := fold_right (fun r n => length (names (snd r)) + n) 0 rs.

Lemma pool_start : forall cf n rs, Forall (fun r => proper cf n (snd r)) rs -> Forall (fun r => creatable k s0 (snd r)) rs ->
  pool s0 rs (map (requested cf n) rs) (2 * total rs) false.
Proof.
  intros cf n rs H1. induction H1 as [|[has t] rs Hp _ IH]; intros H2; [constructor|]. inversion H2 as [|? ? Hc H2']; subst. cbn [map total fold_right snd].
  replace (2 * (length (names t) + fold_right (fun r n => length (names (snd r)) + n) 0 rs)) with (2 * length (names t) + 2 * total rs) by (unfold total; lia).
  change false with (false || false). constructor; auto. apply stage_start; auto. apply Hp.
Qed.

(** Made by the threads: a prefix of one of their paths leads there. *)
Definition on_the_way (s : fs) (rs : list request) (r : loc) : Prop :=
  exists q i d, In q rs /\ 0 < i <= length (names (snd q)) /\ leads_to k s (prefix_text (snd q) i) r (NDir d).

Lemma leads_adds : forall s s' t r d i, wf s -> adds_directories s s' -> 0 < i <= length (names t) -> leads_to k s (prefix_text t i) r (NDir d) -> leads_to k s' (prefix_text t i) r (NDir d).
Proof.
  intros s s' t r d i Hw Ha Hi (l & F & L). exists l. rewrite prefix_walk in * by exact Hi. split; [eapply walk_extends; eauto; apply adds_extends; auto|].
  apply Ha. exact L.
Qed.

Lemma turns_pool : forall (others : fs -> fs -> Prop) n rs l0 l s M0, wf s0 -> undotted rs -> pool s0 rs l0 M0 false -> (forall a b, others a b -> adds_directories a b) ->
  turns k others n l0 s0 l s ->
  adds_directories s0 s /\ wf s /\ exists M B, pool s rs l M B /\ n + M <= M0 /\
    ((forall a b, ~ others a b) -> forall r, look (f_root s0) r = None -> look (f_root s) r <> None -> B = true /\ on_the_way s rs r).
Proof.
  intros others n rs l0 l s M0 Hw0 Hu Hp Ho H. remember s0 as s00 eqn:Es.
  assert (Hgen : s00 = s0 -> adds_directories s0 s /\ wf s /\ exists M B, pool s rs l M B /\ n + M <= M0 /\
    ((forall a b, ~ others a b) -> forall r, look (f_root s0) r = None -> look (f_root s) r <> None -> B = true /\ on_the_way s rs r)).
  { clear Es. induction H as [l s|n l0 s1 a c f b s H IH|n l0 s1 l s s' H IH Hs]; intros ->.
    - split; [apply adds_refl|]. split; [exact Hw0|]. exists M0, false. split; [exact Hp|]. split; [lia|]. intros _ r H1 H2. congruence.
    - destruct (IH Hw0 Hp eq_refl) as (A & W & M & B & P1 & P2 & P3). destruct (pool_at s a rs (Sys c f) b M B W P1) as (r & m & c1 & I1 & I2 & I3 & I4 & I5).
      assert (Hd : Forall (fun x => is_dots x = false) (names (snd r))) by (unfold undotted in Hu; rewrite Forall_forall in Hu; auto).
      destruct (stage_step k (snd r) Hd s0 s m c1 (Sys c f) W A I4 Logic.I) as (A' & m' & c' & S1 & S2 & S3 & S4). cbn [step1 fst snd] in *.
      destruct (I5 _ m' c' _ A' S2 S3) as (B' & B1 & B2 & P'). split; [eapply adds_trans; eauto|]. split; [apply A'; exact W|].
      exists (M - m + m'), B'. split; [exact P'|]. split; [lia|]. intros Hno q Hq Hq'. destruct (look (f_root s) q) as [y|] eqn:E.
      + destruct (P3 Hno q Hq ltac:(congruence)) as [HB (q1 & i & d & Q1 & Q2 & Q3)]. split; [auto|]. exists q1, i, d. split; [auto|]. split; [auto|]. eapply leads_adds; eauto.
      + destruct (S4 q E Hq') as [Hb (i & d & Q2 & Q3)]. split; [auto|]. exists r, i, d. auto.
    - destruct (IH Hw0 Hp eq_refl) as (A & W & M & B & P1 & P2 & P3). pose proof (Ho _ _ Hs) as A'. split; [eapply adds_trans; eauto|]. split; [apply A'; exact W|].
      exists M, B. split; [eapply pool_adds; eauto|]. split; [exact P2|]. intros Hno. exfalso. exact (Hno _ _ Hs). }
  rewrite Es. apply Hgen. exact Es.
Qed.

(** What the threads have returned. *)
Definition result (s s' : fs) (r : request) (th : prog (bool * ecode)) : Prop :=
  match th with
  | Ret (b, e) => e = None /\ (exists q d, leads_to k s' (snd r) q (NDir d)) /\
      (b = true -> exists q d, look (f_root s) q = None /\ look (f_root s') q = Some (NDir d))
  | Stop _ => False
  | Sys _ _ => True
  end.
Definition unslashed (rs : list request) : Prop := Forall (fun r => ends_slash (snd r) = false /\ names (snd r) <> []) rs.

Lemma pool_results : forall s rs l M B, unslashed rs -> pool s rs l M B -> Forall2 (result s0 s) rs l.
Proof.
  intros s rs l M B Hu H. induction H as [|r rs th ths m b M B Hs _ IH]; [constructor|]. inversion Hu as [|? ? [U1 U2] Hu']; subst. constructor; auto.
  pose proof (stage_result k (snd r) s0 s m b th U1 U2 Hs) as Hr. unfold result. destruct th as [[v e]|f|c g]; auto. destruct Hr as (R1 & R2 & R3 & R4). auto.
Qed.

Lemma pool_true : forall s rs l M B results, unslashed rs -> pool s rs l M B -> l = map Ret results -> B = true -> In true (map fst results).
Proof.
  intros s rs l M B results Hu H. revert results. induction H as [|r rs th ths m b M B Hs _ IH]; intros [|[v e] results] Hl HB; try discriminate.
  cbn [map] in *. injection Hl as -> Hl. inversion Hu as [|? ? [U1 U2] Hu']; subst.
  destruct (stage_result k (snd r) s0 s m b _ U1 U2 Hs) as (_ & -> & _). cbn [fst]. apply orb_true_iff in HB as [->|HB]; [left; reflexivity|]. right. apply IH; auto.
Qed.

(** Either everything has returned or somebody makes a call. *)
Lemma pool_progress : forall s rs l M B, unslashed rs -> pool s rs l M B -> (exists results, l = map Ret results) \/ exists a c f b, l = a ++ Sys c f :: b.
Proof.
  intros s rs l M B Hu H. induction H as [|r rs th ths m b M B Hs _ IH]; [left; exists []; reflexivity|]. inversion Hu as [|? ? [U1 U2] Hu']; subst.
  pose proof (stage_result k (snd r) s0 s m b th U1 U2 Hs) as Hr. destruct th as [v|f|c g]; [|contradiction|right; exists [], c, g, ths; reflexivity].
  destruct (IH Hu') as [[results ->]|(a & c & f & b' & ->)]; [left; exists (v :: results); reflexivity|]. right. exists (Ret v :: a), c, f, b'. reflexivity.
Qed.

Lemma turns_first : forall (others : fs -> fs -> Prop) n a c (f : answer c -> prog (bool * ecode)) b s l s', 
  turns k others n (a ++ f (fst (fsk k c s)) :: b) (snd (fsk k c s)) l s' -> turns k others (S n) (a ++ Sys c f :: b) s l s'.
Proof.
  intros others n a c f b s l s' H. remember (a ++ f (fst (fsk k c s)) :: b) as l1 eqn:E1. remember (snd (fsk k c s)) as s1 eqn:E2.
  induction H as [l s1|n l1 s1 a' c' f' b' s' H IH|n l1 s1 l s' s'' H IH Ho]; subst.
  - apply tu_call. apply tu_end.
  - apply tu_call. apply IH; auto.
  - eapply tu_other; eauto.
Qed.

Lemma pool_finish : forall (others : fs -> fs -> Prop) rs, undotted rs -> unslashed rs -> forall M s l B, wf s -> adds_directories s0 s -> pool s rs l M B ->
  exists more results s', turns k others more l s (map Ret results) s'.
Proof.
  intros others rs Hd Hu M. induction M as [M IH] using lt_wf_ind. intros s l B Hw Ha Hp.
  destruct (pool_progress s rs l M B Hu Hp) as [[results ->]|(a & c & f & b & ->)]; [exists 0, results, s; apply tu_end|].
  destruct (pool_at s a rs (Sys c f) b M B Hw Hp) as (r & m & c1 & I1 & I2 & I3 & I4 & I5).
  assert (Hdr : Forall (fun x => is_dots x = false) (names (snd r))) by (unfold undotted in Hd; rewrite Forall_forall in Hd; auto).
  destruct (stage_step k (snd r) Hdr s0 s m c1 (Sys c f) Hw Ha I4 Logic.I) as (A' & m' & c' & S1 & S2 & S3 & S4). cbn [step1 fst snd] in *.
  destruct (I5 _ m' c' _ A' S2 S3) as (B' & _ & _ & P').
  destruct (IH (M - m + m') ltac:(lia) (snd (fsk k c s)) _ B' (proj2 (proj2 (proj2 (proj2 (proj2 A')))) Hw) (adds_trans _ _ _ Ha A') P') as (more & results & s' & T).
  exists (S more), results, s'. apply turns_first. exact T.
Qed.
End Pool.

Lemma proper_un : forall cf n rs, Forall (fun r => proper cf n (snd r)) rs -> undotted rs /\ unslashed rs.
Proof.
  intros cf n rs H. split; eapply Forall_impl; [|exact H| |exact H]; intros r (H1 & H2 & H3 & _); auto. split; auto.
  intros Hx. apply only_slashes_names in Hx. rewrite only_slashes_ends in H2; auto. discriminate.
Qed.

(** * C90 *)

(** Any number of calls of create_directories at once, for any paths each of which is a directory or could be made, while others add
    directories too: nothing is lost or replaced, no call fails, whoever returns has the directory, and returns true only if something has
    been made since the start. The calls wait for nobody: together they make at most two system calls per name of their paths (for the bound on
    one call take the list of this call alone: what the other calls do is adding directories). *)
Theorem C90_parallel : forall cf k (others : fs -> fs -> Prop) n rs s calls l s', wf s -> (forall a b, others a b -> adds_directories a b) ->
  Forall (fun r => proper cf n (snd r)) rs -> Forall (fun r => creatable k s (snd r)) rs ->
  turns k others calls (map (requested cf n) rs) s l s' ->
  adds_directories s s' /\ calls <= 2 * total rs /\ Forall2 (result k s s') rs l.
Proof.
  intros cf k others n rs s calls l s' Hw Ho Hp Hc H. destruct (proper_un _ _ _ Hp) as [U1 U2].
  destruct (turns_pool k s others calls rs _ l s' _ Hw U1 (pool_start k s cf n rs Hp Hc) Ho H) as (A & W & M & B & P1 & P2 & _).
  split; [exact A|]. split; [lia|]. eapply pool_results; eauto.
Qed.

(** However far the calls have come, they can all return, without the help of others. *)
Theorem C90_finish : forall cf k (others : fs -> fs -> Prop) n rs s calls l s', wf s -> (forall a b, others a b -> adds_directories a b) ->
  Forall (fun r => proper cf n (snd r)) rs -> Forall (fun r => creatable k s (snd r)) rs ->
  turns k others calls (map (requested cf n) rs) s l s' ->
  exists more results s'', turns k nobody more l s' (map Ret results) s''.
Proof.
  intros cf k others n rs s calls l s' Hw Ho Hp Hc H. destruct (proper_un _ _ _ Hp) as [U1 U2].
  destruct (turns_pool k s others calls rs _ l s' _ Hw U1 (pool_start k s cf n rs Hp Hc) Ho H) as (A & W & M & B & P1 & P2 & _).
  exact (pool_finish k s nobody rs U1 U2 M s' l B W A P1).
Qed.

(** If nobody else is at work: every new directory is where a prefix of one of the paths leads, and when all calls have returned and something
    is new, at least one has returned true. *)
Theorem C90_alone : forall cf k n rs s calls l s', wf s ->
  Forall (fun r => proper cf n (snd r)) rs -> Forall (fun r => creatable k s (snd r)) rs ->
  turns k nobody calls (map (requested cf n) rs) s l s' ->
  forall q, look (f_root s) q = None -> look (f_root s') q <> None ->
  (exists r i d, In r rs /\ 0 < i <= length (names (snd r)) /\ leads_to k s' (prefix_text (snd r) i) q (NDir d)) /\
  forall results, l = map Ret results -> In true (map fst results).
Proof.
  intros cf k n rs s calls l s' Hw Hp Hc H q Hq Hq'. destruct (proper_un _ _ _ Hp) as [U1 U2].
  destruct (turns_pool k s nobody calls rs _ l s' _ Hw U1 (pool_start k s cf n rs Hp Hc) (fun a b F => False_ind _ F) H) as (A & W & M & B & P1 & P2 & P3).
  destruct (P3 (fun a b F => F) q Hq Hq') as [HB Hway]. split; [exact Hway|]. intros results Hl. eapply pool_true; eauto.
Qed.

(** All in all: the calls have returned, nobody else was at work. One returned true exactly if something is new. *)
Theorem C90_true : forall cf k n rs s calls results s', wf s ->
  Forall (fun r => proper cf n (snd r)) rs -> Forall (fun r => creatable k s (snd r)) rs ->
  turns k nobody calls (map (requested cf n) rs) s (map Ret results) s' ->
  (In true (map fst results) <-> exists q, look (f_root s) q = None /\ look (f_root s') q <> None).
Proof.
  intros cf k n rs s calls results s' Hw Hp Hc H. split.
  - intros Hin. destruct (C90_parallel cf k nobody n rs s calls _ s' Hw (fun a b F => False_ind _ F) Hp Hc H) as (_ & _ & HF).
    apply in_map_iff in Hin as ([v e] & Hv & Hin). cbn in Hv. subst v. clear -HF Hin. revert results Hin HF.
    induction rs as [|r rs IH]; intros [|x results] Hin HF; inversion HF; subst; [destruct Hin|]. destruct Hin as [->|Hin]; [|eapply IH; eauto].
    destruct H2 as (_ & _ & H2). destruct (H2 eq_refl) as (q & d & Q1 & Q2). exists q. split; [auto|congruence].
  - intros (q & Hq & Hq'). eapply (proj2 (C90_alone cf k n rs s calls _ s' Hw Hp Hc H q Hq Hq')); eauto.
Qed.

(** One turn of the loop. *)
Lemma loop_turn : forall k root s has p top l c ns, rung root ns top -> ns <> [] -> exists f,
  create_missing has p (top :: l) c = Sys (c_stat (native top)) f /\ snd (fsk k (c_stat (native top)) s) = s /\
  (forall lk q d, walk k root s true ns = Found lk q -> look (f_root s) q = Some (NDir d) -> f (fst (fsk k (c_stat (native top)) s)) = create_missing has p l c) /\
  (forall q x, walk k root s true ns = Missing q x -> exists g, f (fst (fsk k (c_stat (native top)) s)) = Sys (c_mkdir (native top) perms_all) g /\
    forall r, r = Val tt \/ r = Err EEXIST -> g r = create_missing has p l true).
Proof.
  intros k root s has p top l c ns Hr Hne. destruct (rung_walk k root s true ns top Hr Hne) as [F1 F2].
  assert (Hst : fst (fsk k (c_stat (native top)) s) = sys_stat k s true (native top)) by reflexivity.
  cbn [create_missing status_impl GetFileStatus pbind]. eexists. split; [reflexivity|]. split; [reflexivity|]. split.
  - intros lk q d W L. rewrite Hst, sys_stat_node, F1, W. cbn [node_at]. rewrite L, create_status. cbn [pbind fst snd status_of st_type type_of]. cbn. rewrite orb_false_r. reflexivity.
  - intros q x W. rewrite Hst, sys_stat_node, F1, W. cbn [node_at]. cbn. eexists. split; [reflexivity|]. rewrite orb_true_r. intros r [->| ->]; reflexivity.
Qed.

Lemma turns_skip : forall k root s has p a b L s1 d pre x l c n, rungs root pre (d ++ [x]) l ->
  (forall m, 0 < m <= length d -> exists lk q i, walk k root s true (pre ++ firstn m d) = Found lk q /\ look (f_root s) q = Some (NDir i)) ->
  turns k nobody n L s1 (a ++ create_missing has p l c :: b) s ->
  exists n' top, turns k nobody n' L s1 (a ++ create_missing has p [top] c :: b) s /\ rung root (pre ++ d ++ [x]) top.
Proof.
  intros k root s has p a b L s1 d. induction d as [|y d IH]; intros pre x l c n Hl Hd Ht.
  - destruct l as [|top [|? ?]]; cbn in Hl; try tauto. exists n, top. split; [exact Ht|apply Hl].
  - destruct l as [|top l]; [destruct Hl|]. destruct Hl as [Hr Hl]. fold app in *. destruct (loop_turn k root s has p top l c (pre ++ [y]) Hr ltac:(destruct pre; discriminate)) as (f & E & Es & Ef & _).
    rewrite E in Ht. apply tu_call in Ht. rewrite Es in Ht. destruct (Hd 1 ltac:(cbn; lia)) as (lk & q & i & W & K). cbn [firstn] in W. rewrite (Ef lk q i W K) in Ht.
    destruct (IH (pre ++ [y]) x l c (S n) Hl) as (n' & top' & T & R); [|exact Ht|].
    + intros m Hm. rewrite <- app_assoc. cbn [app]. apply (Hd (S m)). cbn [length]. lia.
    + exists n', top'. split; [exact T|]. rewrite <- app_assoc in R. exact R.
Qed.

(** But not only those return true that have made something, as with create_directory (C53): two calls for the same missing path in a directory
    that exists can both return true, though one directory is made. *)
Theorem C90_who_made_it_refuted : forall cf k s n has has' t q x, wf s -> proper cf n t -> names_missing k s t q x ->
  exists calls s', turns k nobody calls (map (requested cf n) [(has, t); (has', t)]) s (map Ret [(true, None); (true, None)]) s' /\
  (forall r, look (f_root s) r = None -> look (f_root s') r <> None -> r = q ++ [x]) /\ look (f_root s') (q ++ [x]) <> None.
Proof.
  intros cf k s n has has' t q x Hw Hp Hm. destruct (requested_loop cf n has t Hp) as (l & Hl & E1). destruct (requested_loop cf n has' t Hp) as (l' & Hl' & E2).
  pose proof Hp as (Hne & He & Hd & _).
  assert (Hnn : names t <> []).
  { intros Hx. apply only_slashes_names in Hx. rewrite only_slashes_ends in He; auto. discriminate. }
  unfold names_missing in Hm. rewrite (proj2 (text_walk k s true t t (names t) eq_refl eq_refl He Hnn)) in Hm.
  destruct (snoc_cases (names t)) as [Hx|(d & y & Hx)]; [congruence|]. rewrite Hx in *.
  apply Forall_app in Hd as [Hd Hy]. inversion Hy as [|? ? Hy' _]; subst. clear Hy.
  destruct (walk_missing k (root_text t) s d y q x Hy' Hm) as (-> & (lk & i & W & L) & Ln).
  assert (Hdirs : forall m, 0 < m <= length d -> exists lk q i, walk k (root_text t) s true ([] ++ firstn m d) = Found lk q /\ look (f_root s) q = Some (NDir i)).
  { intros m Hm'. destruct (Nat.eq_dec m (length d)) as [->|Hmd]; [rewrite firstn_all; eauto|].
    destruct (walk_prefixes k (root_text t) s true d lk q Hd W m ltac:(lia)) as (l1 & q1 & d1 & W1 & L1). eauto. }
  cbn [map]. rewrite E1, E2.
  set (A := create_missing has (topath t) l false). set (B := create_missing has' (topath t) l' false).
  pose proof (tu_end k nobody [A; B] s) as T. 
  destruct (turns_skip k (root_text t) s has (topath t) [] [B] _ s d [] y l false 0 Hl Hdirs T) as (n1 & top & T1 & R1).
  destruct (turns_skip k (root_text t) s has' (topath t) [create_missing has (topath t) [top] false] [] _ s d [] y l' false n1 Hl' Hdirs T1) as (n2 & top' & T2 & R2). clear T T1.
  cbn [app] in *. assert (Hne' : d ++ [y] <> []) by (destruct d; discriminate).
  pose proof (fun last => walk_new k (root_text t) s last d y lk q i Hy' W L Ln) as Wn.
  destruct (loop_turn k (root_text t) s has (topath t) top [] false _ R1 Hne') as (f & F1 & F2 & _ & F3). destruct (F3 _ _ (Wn true)) as (g & G1 & G2).
  destruct (loop_turn k (root_text t) s has' (topath t) top' [] false _ R2 Hne') as (f' & F1' & F2' & _ & F3'). destruct (F3' _ _ (Wn true)) as (g' & G1' & G2').
  rewrite F1, F1' in T2.
  pose proof (tu_call k nobody _ _ _ [] (c_stat (native top)) f [Sys (c_stat (native top')) f'] s T2) as T3. rewrite F2, G1 in T3. cbn [app] in T3.
  pose proof (tu_call k nobody _ _ _ [Sys (c_mkdir (native top) perms_all) g] (c_stat (native top')) f' [] s T3) as T4. rewrite F2', G1' in T4. cbn [app] in T4.
  pose proof (tu_call k nobody _ _ _ [] (c_mkdir (native top) perms_all) g [Sys (c_mkdir (native top') perms_all) g'] s T4) as T5. cbn [app] in T5.
  destruct (mkdir_adds k s (native top) perms_all q y Hw) as (M1 & M2 & M3 & M4); [rewrite (proj2 (rung_walk k (root_text t) s true _ _ R1 Hne')); apply Wn|].
  assert (Ha : g (fst (fsk k (c_mkdir (native top) perms_all) s)) = create_missing has (topath t) [] true).
  { apply G2. left. exact M1. }
  rewrite Ha in T5. set (s' := snd (sys_mkdir k s (native top) perms_all)) in *.
  change (snd (fsk k (c_mkdir (native top) perms_all) s)) with s' in T5.
  pose proof (tu_call k nobody _ _ _ [create_missing has (topath t) [] true] (c_mkdir (native top') perms_all) g' [] s' T5) as T6. cbn [app] in T6.
  assert (Hmk' : fsk k (c_mkdir (native top') perms_all) s' = (Err EEXIST, s')).
  { cbn [fsk]. unfold sys_mkdir. rewrite (proj2 (rung_walk k (root_text t) s' true _ _ R2 Hne')).
    assert (W' : walk k (root_text t) s' true d = Found lk q) by (eapply walk_extends; eauto; apply adds_extends; auto).
    assert (L' : look (f_root s') q = Some (NDir i)) by (apply M2; exact L).
    rewrite (walk_dir k (root_text t) s' false d y lk q i (f_next s) Hy' W' L' M3). reflexivity. }
  rewrite Hmk' in T6. cbn [fst snd] in T6. rewrite (G2' (Err EEXIST) (or_intror eq_refl)) in T6. cbn [create_missing] in T6.
  eexists. exists s'. split; [exact T6|]. split; [exact M4|congruence].
Qed.

(** A run following a schedule, for the example (no repository code). *)
Fixpoint play {A} (k : choices) (schedule : list nat) (l : list (prog A)) (s : fs) : list (prog A) * fs * nat :=
  match schedule with
  | [] => (l, s, 0)
  | i :: schedule =>
      match nth_error l i with
      | Some (Sys c f) => let '(l', s', n) := play k schedule (firstn i l ++ f (fst (fsk k c s)) :: skipn (S i) l) (snd (fsk k c s)) in (l', s', S n)
      | _ => play k schedule l s
      end
  end.
Lemma play_turns : forall k schedule (l : list (prog (bool * ecode))) s l' s' n, play k schedule l s = (l', s', n) -> turns k nobody n l s l' s'.
Proof.
  intros k schedule. induction schedule as [|i schedule IH]; intros l s l' s' n H; cbn [play] in H.
  - injection H as <- <- <-. apply tu_end.
  - destruct (nth_error l i) as [[a|f|c f]|] eqn:E; try (apply IH; exact H).
    destruct (play k schedule (firstn i l ++ f (fst (fsk k c s)) :: skipn (S i) l) (snd (fsk k c s))) as [[l1 s1] n1] eqn:P. injection H as <- <- <-.
    apply IH in P. apply turns_first in P. apply nth_error_split in E as (a & b & -> & <-).
    replace (firstn (length a) (a ++ Sys c f :: b)) with a in P by (rewrite firstn_app, Nat.sub_diag, firstn_all; cbn; rewrite app_nil_r; reflexivity).
    replace (skipn (S (length a)) (a ++ Sys c f :: b)) with b in P; [exact P|].
    rewrite skipn_app, skipn_all2 by lia. replace (S (length a) - length a) with 1 by lia. reflexivity.
Qed.

(** Three calls: "/b/x/y" with an error code, "l/x/z" throwing, where "l" is a symlink to "/b", and "/b", which is there. The first two take turns. *)
Definition race : list request := [(true, lit "/b/x/y"); (false, lit "l/x/z"); (true, lit "/b")].
Example C90_example : wf demo /\ Forall (fun r => proper plain_config 5 (snd r)) race /\ Forall (fun r => creatable demo_choices demo (snd r)) race /\
  exists n s', turns demo_choices nobody n (map (requested plain_config 5) race) demo (map Ret [(true, None); (true, None); (false, None)]) s' /\
    get (f_root s') [lit "b"] = Some (Dir 7 [(lit "h", Leaf 3); (lit "x", Dir 10 [(lit "z", Dir 11 []); (lit "y", Dir 12 [])])]).
Proof.
  split; [apply demo_wf|]. split; [|split].
  - constructor; [|constructor; [|constructor; [|constructor]]];
      (split; [discriminate|split; [reflexivity|split; [repeat constructor|split; [intros _|cbn; lia]]]]);
      first [left; vm_compute; lia|right; vm_compute; lia].
  - constructor; [|constructor; [|constructor; [|constructor]]].
    + right. exists 2, [lit "b"], (lit "x"). split; [cbn; lia|]. vm_compute. reflexivity.
    + right. exists 2, [lit "b"], (lit "x"). split; [cbn; lia|]. vm_compute. reflexivity.
    + left. exists [lit "b"], 7%N. eexists. split; vm_compute; reflexivity.
  - eexists. eexists. split; [apply (play_turns demo_choices [0; 1; 0; 1; 0; 1; 1; 1; 0; 1; 0; 2; 1]); vm_compute; reflexivity|vm_compute; reflexivity].
Qed.

(** The two calls of the refutation. *)
Example C90_who_made_it_example : wf demo /\ proper plain_config 5 (lit "l/x") /\ names_missing demo_choices demo (lit "l/x") [lit "b"] (lit "x").
Proof.
  split; [apply demo_wf|]. split; [|vm_compute; reflexivity]. split; [discriminate|split; [reflexivity|split; [repeat constructor|split; [intros _; left; vm_compute; lia|cbn; lia]]]].
Qed.
Print Assumptions C90_parallel.
Print Assumptions C90_finish.
Print Assumptions C90_alone.
Print Assumptions C90_true.
Print Assumptions C90_who_made_it_refuted.
