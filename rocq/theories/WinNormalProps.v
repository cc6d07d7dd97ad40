(** C77: what lexically_normal gives on Windows.
    Source: fs_path.cpp:702-790 with ASAP_WINDOWS defined. *)
From Coq Require Import Ascii String Bool Arith NArith ZArith Lia List.
From Verif Require Import Str PathModel PathSpec StrProofs PathProofs PathOps PathOps2 PathNormal PathNormal2 WinPathProps WinPlace WinAppend WinGeneric WinNormal.
Import ListNotations.

(** ** Specification *)

(** The drive or host a text names (backslashes only), whether a root directory follows, and the rest. *)
Definition wroot (t : str) : str := preferred (fst (split_root no_wsep t)).
Definition wrest (t : str) : str := snd (split_root no_wsep t).
Definition wrooted (t : str) : bool := wstarts (wrest t).

(** The place a text leads to below its drive or host, from the current place there. *)
Definition wresolve (place : list str) (t : str) : list str :=
  walk (if wrooted t then [] else place) (wnames (wrest t)).

(** Texts in normal form: ".", or a drive or host, an optional root directory, ".." names (only without a
    root directory), ordinary names, single backslashes between them, and a trailing one only after an ordinary name. *)
Definition wnormal_text (t : str) : Prop :=
  t = lit "." \/
  exists rn rooted ns tr,
    t = rn ++ (if rooted : bool then [backslash] else []) ++ wjoin ns ++ (if tr : bool then [backslash] else []) /\
    wroot t = rn /\ wrooted t = rooted /\ wnames (wrest t) = ns /\
    is_normal_names rooted ns /\
    (ns = [] -> (rn <> [] \/ rooted = true) /\ tr = false) /\
    (tr = true -> plain (last ns []) = true).

(** A text none of whose names could be taken for a drive when it comes first. *)
Definition no_hidden_drive (s : str) : Prop :=
  wroot s <> [] \/ wrooted s = true \/ Forall (fun n => nth_error n 1 <> Some colon) (wnames (wrest s)).

(** ** Proofs *)

Lemma hidden_safe : forall s, no_hidden_drive s -> safe s.
Proof.
  intros s H. unfold no_hidden_drive, wroot, wrooted, wrest in H. unfold safe. destruct (split_root no_wsep s) as [rn rest]. cbn [fst snd] in H.
  destruct H as [H|[H|H]]; [left; intros ->; apply H; reflexivity|auto|]. right. right. eapply Forall_impl; [|exact H].
  intros [|a [|b m]] Hn; cbn in *; auto. intros ->. apply Hn. reflexivity.
Qed.

Lemma wname_good : forall n, wname n -> goodname n.
Proof.
  intros n [H1 H2]. split; [|exact H1]. clear H1. unfold noslash. induction n as [|c n IH]; [reflexivity|]. unfold wplain in *. cbn [forallb] in *. apply andb_true_iff in H2. destruct H2 as [Hc Hn].
  rewrite IH by exact Hn. unfold no_wsep, is_wsep in Hc. apply negb_true_iff in Hc. apply orb_false_iff in Hc. destruct Hc as [Hc _]. unfold is_slash. rewrite Hc. reflexivity.
Qed.

Lemma wnames_good : forall s, Forall goodname (wnames s).
Proof. intros s. eapply Forall_impl; [|apply wnames_all]. apply wname_good. Qed.

Lemma wstk_facts : forall s rn rest, s <> [] -> split_root no_wsep s = (rn, rest) -> safe s ->
  ctext_ok (preferred rn) (wstarts rest) (rev (wstk s)) /\ Forall wname (wstk s) /\ stk_ok (wstarts rest) (wstk s).
Proof.
  intros s rn rest Hs Hr Hsafe. destruct (loop_split (Elision true true true) s rn rest Hs Hr Hsafe) as (_ & _ & H1 & H2 & _). split; [exact H1|]. split; [exact H2|].
  unfold wstk. rewrite Hr. cbn [snd]. cbv zeta. apply fold_reduce_ok; [apply wnames_good|apply stk_ok_nil].
Qed.

Lemma normal_parts : forall s rn rest, s <> [] -> split_root no_wsep s = (rn, rest) -> safe s -> exists rest',
  split_root no_wsep (wnormal s) = (preferred rn, rest') /\ wstarts rest' = wstarts rest /\
  wnames rest' = match wstk s with [] => if is_nil rn && negb (wstarts rest) then [lit "."] else [] | _ => rev (wstk s) end /\
  (forall x r, wstk s = x :: r -> wends rest' = wtr s && negb (is_updir x)).
Proof.
  intros s rn rest Hs Hr Hsafe. destruct (wstk_facts s rn rest Hs Hr Hsafe) as (Hok & Hw & _). unfold wnormal. rewrite Hr. cbn [fst snd]. unfold wfinal.
  destruct (wstk s) as [|x r] eqn:Hk.
  - rewrite nil_preferred. destruct (is_nil rn && negb (wstarts rest)) eqn:Hz.
    + exists [dot]. destruct rn; [|discriminate]. destruct (wstarts rest); [discriminate|]. split; [reflexivity|]. split; [reflexivity|]. split; [reflexivity|discriminate].
    + destruct (ctext_root (preferred rn) (wstarts rest) [] false Hok) as (rest' & H1 & _ & H2 & H3 & _). exists rest'. split; [exact H1|]. split; [exact H2|]. split; [exact H3|discriminate].
  - destruct (ctext_root _ _ _ (wtr s && negb (is_updir x)) Hok) as (rest' & H1 & _ & H2 & H3 & H4). exists rest'. split; [exact H1|]. split; [exact H2|]. split; [exact H3|].
    intros x' r' He. injection He as <- <-. apply H4. cbn [rev]. destruct (rev r); discriminate.
Qed.

Lemma normal_stack : forall s rn rest, s <> [] -> split_root no_wsep s = (rn, rest) -> safe s -> wstk (wnormal s) = wstk s.
Proof.
  intros s rn rest Hs Hr Hsafe. destruct (wstk_facts s rn rest Hs Hr Hsafe) as (_ & _ & Hk). destruct (normal_parts s rn rest Hs Hr Hsafe) as (rest' & H1 & H2 & H3 & _).
  unfold wstk at 1. rewrite H1. cbn [snd]. cbv zeta. rewrite H2, H3. destruct (wstk s) as [|x r] eqn:He.
  - destruct (is_nil rn && negb (wstarts rest)); reflexivity.
  - apply fold_reduce_normal. exact Hk.
Qed.

Lemma wlast_elements : forall s rn rest, split_root no_wsep s = (rn, rest) -> wnames rest <> [] ->
  last (win_elements no_wsep s) [] = if wends rest then [] else last (wnames rest) [].
Proof.
  intros s rn rest Hr Hn. rewrite (win_elements_parts s rn rest Hr). unfold parts_elements. assert (is_nil (wnames rest) = false) as -> by (destruct (wnames rest); [congruence|reflexivity]).
  cbn [negb]. rewrite andb_true_r. destruct (wends rest).
  - rewrite !app_assoc, last_last. reflexivity.
  - rewrite app_nil_r, app_assoc. rewrite last_app_ne by exact Hn. reflexivity.
Qed.

Lemma wtr_spec : forall s rn rest x r, split_root no_wsep s = (rn, rest) -> wstk s = x :: r -> is_updir x = false ->
  wtr s = negb (plain (last (win_elements no_wsep s) [])).
Proof.
  intros s rn rest x r Hr Hs Hx. unfold wtr. unfold wstk in Hs. rewrite Hr in *. cbn [snd] in *. cbv zeta in *.
  assert (Hnn : wnames rest <> []) by (intros Hn; rewrite Hn in Hs; discriminate). rewrite (wlast_elements s rn rest Hr Hnn).
  destruct (wends rest) eqn:He; [rewrite orb_true_r; reflexivity|]. rewrite orb_false_r.
  destruct (exists_last Hnn) as (l & n & Hl). pose proof (wnames_good rest) as HF. rewrite Hl in *. rewrite last_last.
  rewrite fold_left_app in Hs. cbn [fold_left] in Hs. rewrite final_tr_snoc. set (stk := fold_left (reduce1 (wstarts rest)) l []) in *.
  apply Forall_app in HF. destruct HF as [_ HF]. inversion HF as [|? ? [_ Hne] _]; subst.
  destruct (plain_cases n Hne) as [->|[->|Hp]].
  - reflexivity.
  - unfold push_tr. change (str_eqb (lit "..") (lit "..")) with true. cbn iota.
    unfold reduce1 in Hs. change (str_eqb (lit "..") (lit ".")) with false in Hs. change (str_eqb (lit "..") (lit "..")) with true in Hs. cbn iota in Hs.
    destruct stk as [|y q].
    + destruct (wstarts rest); [discriminate|]. injection Hs as <- <-. discriminate.
    + fold (is_updir y) in Hs. destruct (is_updir y) eqn:Hy; [|reflexivity]. injection Hs as <- _. discriminate.
  - unfold push_tr. apply plain_not_up in Hp as Hu. unfold is_updir in Hu. rewrite Hu, Hp. reflexivity.
Qed.

Lemma normal_nonempty : forall s rn rest, s <> [] -> split_root no_wsep s = (rn, rest) -> safe s -> wnormal s <> [].
Proof.
  intros s rn rest Hs Hr Hsafe Hz. destruct (wstk_facts s rn rest Hs Hr Hsafe) as (Hok & Hw & _). unfold wnormal in Hz. rewrite Hr in Hz. cbn [fst snd] in Hz. unfold wfinal in Hz.
  destruct (wstk s) as [|x r] eqn:Hk.
  - destruct (is_nil (preferred rn) && negb (wstarts rest)) eqn:Hb; [discriminate|]. destruct (nil_parts _ _ _ _ Hok Hz) as (Ha & Hc & _). rewrite Ha, Hc in Hb. discriminate.
  - destruct (nil_parts _ _ _ _ Hok Hz) as (_ & _ & Ha). cbn in Ha. destruct (rev r); discriminate.
Qed.

Lemma normal_safe : forall s rn rest, s <> [] -> split_root no_wsep s = (rn, rest) -> safe s -> safe (wnormal s).
Proof.
  intros s rn rest Hs Hr Hsafe. destruct (normal_parts s rn rest Hs Hr Hsafe) as (rest' & H1 & H2 & H3 & _). pose proof Hsafe as Hsafe'. unfold safe in Hsafe |- *. rewrite H1, H2. rewrite Hr in Hsafe.
  destruct Hsafe as [H|[H|H]]; [left; intros Hz; destruct rn; [congruence|discriminate]|auto|]. right. right. rewrite H3.
  assert (Hall : Forall no_drive (wstk s)).
  { unfold wstk. rewrite Hr. cbn [snd]. cbv zeta. assert (G : forall ns stk, Forall no_drive ns -> Forall no_drive stk -> Forall no_drive (fold_left (reduce1 (wstarts rest)) ns stk)).
    { induction ns as [|n ns IH]; intros stk Hn Hk; [exact Hk|]. inversion Hn; subst. cbn [fold_left]. apply IH; [assumption|].
      unfold reduce1. destruct (str_eqb n (lit ".")); [exact Hk|]. destruct (str_eqb n (lit "..")); [|constructor; assumption].
      destruct stk as [|x r]; [destruct (wstarts rest); [constructor|constructor; [assumption|constructor]]|]. destruct (str_eqb x (lit "..")); [constructor; assumption|]. inversion Hk; assumption. }
    apply G; [exact H|constructor]. }
  destruct (wstk s) as [|x r]; [|apply Forall_rev; exact Hall]. destruct (_ && _); [|constructor]. constructor; [exact Logic.I|constructor].
Qed.

Lemma wnormal_idem : forall s rn rest, s <> [] -> split_root no_wsep s = (rn, rest) -> safe s -> wnormal (wnormal s) = wnormal s.
Proof.
  intros s rn rest Hs Hr Hsafe. destruct (normal_parts s rn rest Hs Hr Hsafe) as (rest' & H1 & H2 & H3 & H4). pose proof (normal_stack s rn rest Hs Hr Hsafe) as Hk.
  destruct (wstk_facts s rn rest Hs Hr Hsafe) as (_ & _ & Hsk).
  unfold wnormal at 1. rewrite H1, Hk. cbn [fst snd]. rewrite preferred_twice, H2. unfold wnormal at 2. rewrite Hr. cbn [fst snd]. unfold wfinal.
  destruct (wstk s) as [|x r] eqn:He; [reflexivity|]. f_equal. destruct (is_updir x) eqn:Hx; [rewrite !andb_false_r; reflexivity|]. cbn [negb]. rewrite !andb_true_r.
  rewrite (wtr_spec _ _ _ _ _ H1 Hk Hx). assert (Hne : wnames rest' <> []) by (rewrite H3; cbn; destruct (rev r); discriminate). rewrite (wlast_elements _ _ _ H1 Hne).
  rewrite (H4 x r eq_refl), Hx, andb_true_r. destruct (wtr s); [reflexivity|]. rewrite H3, last_rev.
  destruct (stk_ok_head _ _ _ Hsk) as [Hp|(-> & _)]; [|discriminate]. rewrite Hp. reflexivity.
Qed.

(** ** Theorems *)

(** The result is in normal form, with the elements of its text. *)
Theorem C77_normal_form_partial : forall E s, no_hidden_drive s -> exists q,
  lexically_normal Windows E (split_components Windows s) = Ok q /\
  (s = [] -> native q = []) /\ (s <> [] -> wnormal_text (native q)) /\
  map native (elems q) = win_elements (fun c => negb (is_wsep c)) (native q).
Proof.
  intros E s Hh. apply hidden_safe in Hh. destruct (is_nil s) eqn:Hz.
  - destruct s; [|discriminate]. exists (fin Windows (el_normal E) path_default). split; [reflexivity|]. unfold fin. destruct (el_normal E); (split; [reflexivity|]; split; [congruence|reflexivity]).
  - assert (Hs : s <> []) by (intros ->; discriminate). destruct (normal_text_windows E s Hs Hh) as (q & Hq & Hn & He). exists q. split; [exact Hq|]. split; [congruence|]. rewrite Hn. split; [|exact He].
    intros _. destruct (split_root no_wsep s) as [rn rest] eqn:Hr. destruct (wstk_facts s rn rest Hs Hr Hh) as (Hok & Hw & Hk). destruct (normal_parts s rn rest Hs Hr Hh) as (rest' & H1 & H2 & H3 & _).
    unfold wnormal_text, wroot, wrooted, wrest. rewrite H1. cbn [fst snd]. rewrite preferred_twice, H2, H3. unfold wnormal. rewrite Hr. cbn [fst snd]. unfold wfinal. rewrite nil_preferred.
    destruct (wstk s) as [|x r] eqn:Hst.
    + destruct (is_nil rn && negb (wstarts rest)) eqn:Hb; [left; reflexivity|]. right. exists (preferred rn), (wstarts rest), [], false. split; [reflexivity|]. split; [reflexivity|]. split; [reflexivity|]. split; [reflexivity|].
      split; [exists 0, []; split; [reflexivity|]; split; [reflexivity|auto]|]. split; [|discriminate]. intros _. split; [|reflexivity]. destruct rn; [|left; discriminate]. right. destruct (wstarts rest); [reflexivity|discriminate].
    + right. exists (preferred rn), (wstarts rest), (rev (x :: r)), (wtr s && negb (is_updir x)).
      assert (Hnn : is_nil (rev (x :: r)) = false) by (cbn [rev]; destruct (rev r); reflexivity).
      split; [unfold ctext; rewrite Hnn; cbn [negb]; rewrite andb_true_r; reflexivity|]. split; [reflexivity|]. split; [reflexivity|]. split; [reflexivity|].
      split; [apply stk_ok_normal; exact Hk|]. split; [intros H; rewrite H in Hnn; discriminate|]. intros Ht. apply andb_true_iff in Ht. destruct Ht as [_ Ht]. rewrite last_rev.
      destruct (stk_ok_head _ _ _ Hk) as [Hp|(-> & _)]; [exact Hp|discriminate].
Qed.

(** The drive or host and the root directory are kept, and the result leads to the same place from everywhere; a
    separator at the end is kept as the directory mark. *)
Theorem C77_meaning_partial : forall E s, no_hidden_drive s -> exists q,
  lexically_normal Windows E (split_components Windows s) = Ok q /\
  wroot (native q) = wroot s /\ wrooted (native q) = wrooted s /\
  (forall place, wresolve place (native q) = wresolve place s) /\
  (s <> [] -> wnames (wrest (native q)) <> [] ->
     (wends (native q) = true <->
        plain (last (win_elements (fun c => negb (is_wsep c)) s) []) = false /\ plain (last (wnames (wrest (native q))) []) = true)).
Proof.
  intros E s Hh. apply hidden_safe in Hh. destruct (is_nil s) eqn:Hz.
  - destruct s; [|discriminate]. exists (fin Windows (el_normal E) path_default). split; [reflexivity|]. unfold fin. destruct (el_normal E); (split; [reflexivity|]; split; [reflexivity|]; split; [reflexivity|congruence]).
  - assert (Hs : s <> []) by (intros ->; discriminate). destruct (normal_text_windows E s Hs Hh) as (q & Hq & Hn & He). exists q. split; [exact Hq|]. rewrite Hn.
    destruct (split_root no_wsep s) as [rn rest] eqn:Hr. destruct (wstk_facts s rn rest Hs Hr Hh) as (Hok & Hw & Hk). destruct (normal_parts s rn rest Hs Hr Hh) as (rest' & H1 & H2 & H3 & H4).
    unfold wresolve, wroot, wrooted, wrest. rewrite H1, Hr. cbn [fst snd]. rewrite preferred_twice, H2. split; [reflexivity|]. split; [reflexivity|]. split.
    + intros place. rewrite H3.
      assert (Hwk : walk (if wstarts rest then [] else place) (rev (wstk s)) = walk (if wstarts rest then [] else place) (wnames rest)).
      { unfold wstk. rewrite Hr. cbn [snd]. cbv zeta. rewrite (walk_reduce (wstarts rest) (wnames rest) [] _); [reflexivity|apply wnames_good|apply stk_ok_nil|intros ->; reflexivity]. }
      rewrite <- Hwk. destruct (wstk s) as [|x r]; [|reflexivity]. destruct (is_nil rn && negb (wstarts rest)); reflexivity.
    + intros _ Hnn. change (fun c => negb (is_wsep c)) with no_wsep.
      assert (Hend : wends (wnormal s) = wends rest').
      { destruct (split_root_cases _ _ _ H1) as [Hcat _]. rewrite Hcat. apply wends_app. intros ->. apply Hnn. reflexivity. }
      rewrite Hend. destruct (wstk s) as [|x r] eqn:Hst.
      * rewrite H3 in *. destruct (is_nil rn && negb (wstarts rest)) eqn:Hb; [|congruence].
        destruct rn; [|discriminate]. destruct (wstarts rest) eqn:Hd; [discriminate|]. unfold wnormal in H1, Hend. rewrite Hr, Hst in H1, Hend. cbn [fst snd wfinal preferred map is_nil] in H1, Hend. rewrite Hd in H1, Hend. cbn [negb andb] in H1, Hend.
        cbn [last]. change (plain (lit ".")) with false. rewrite <- Hend. split; [discriminate|intros [_ H]; discriminate].
      * rewrite (H4 x r eq_refl), H3, last_rev. destruct (is_updir x) eqn:Hx.
        -- rewrite andb_false_r. split; [discriminate|]. intros [_ Hp]. apply plain_not_up in Hp. congruence.
        -- rewrite andb_true_r, (wtr_spec s rn rest x r Hr Hst Hx). destruct (stk_ok_head _ _ _ Hk) as [Hp|(-> & _)]; [|discriminate]. rewrite Hp, negb_true_iff. tauto.
Qed.

Theorem C77_idempotent_partial : forall E s q, no_hidden_drive s -> lexically_normal Windows E (split_components Windows s) = Ok q ->
  exists r, lexically_normal Windows E (split_components Windows (native q)) = Ok r /\ native r = native q.
Proof.
  intros E s q Hh H. apply hidden_safe in Hh. destruct (is_nil s) eqn:Hz.
  - destruct s; [|discriminate]. injection H as <-. unfold fin. destruct (el_normal E) eqn:He; cbn [native path_default pathname]; eexists; (split; [reflexivity|]); unfold fin; rewrite He; reflexivity.
  - assert (Hs : s <> []) by (intros ->; discriminate). destruct (normal_text_windows E s Hs Hh) as (q' & Hq & Hn & _). rewrite H in Hq. injection Hq as <-. rewrite Hn.
    destruct (split_root no_wsep s) as [rn rest] eqn:Hr. destruct (normal_text_windows E (wnormal s) (normal_nonempty s rn rest Hs Hr Hh) (normal_safe s rn rest Hs Hr Hh)) as (r & H1 & H2 & _).
    exists r. split; [exact H1|]. rewrite H2. apply (wnormal_idem s rn rest Hs Hr Hh).
Qed.

(** Texts with the same drive or host and the same meaning have the same normal form. *)
Theorem C77_canonical_partial : forall E s t, s <> [] -> t <> [] -> no_hidden_drive s -> no_hidden_drive t ->
  wroot s = wroot t -> wrooted s = wrooted t ->
  (forall place, Forall (fun n => plain n = true /\ ~ In slash n) place -> wresolve place s = wresolve place t) ->
  plain (last (win_elements (fun c => negb (is_wsep c)) s) []) = plain (last (win_elements (fun c => negb (is_wsep c)) t) []) ->
  exists q r, lexically_normal Windows E (split_components Windows s) = Ok q /\ lexically_normal Windows E (split_components Windows t) = Ok r /\
    native q = native r /\ map native (elems q) = map native (elems r).
Proof.
  intros E s t Hs Ht Hhs Hht Hroot Hd Hw Hp. apply hidden_safe in Hhs, Hht.
  destruct (normal_text_windows E s Hs Hhs) as (q & Hq & Hqn & Hqe). destruct (normal_text_windows E t Ht Hht) as (r & Hr & Hrn & Hre).
  exists q, r. split; [exact Hq|]. split; [exact Hr|]. cut (wnormal s = wnormal t); [intros Hc; split; congruence|].
  destruct (split_root no_wsep s) as [rn1 rest1] eqn:Hr1. destruct (split_root no_wsep t) as [rn2 rest2] eqn:Hr2.
  destruct (wstk_facts s rn1 rest1 Hs Hr1 Hhs) as (_ & _ & Hk1). destruct (wstk_facts t rn2 rest2 Ht Hr2 Hht) as (_ & _ & Hk2).
  unfold wroot, wrooted, wresolve, wrooted, wrest in *. rewrite Hr1, Hr2 in *. cbn [fst snd] in *. change (fun c => negb (is_wsep c)) with no_wsep in Hp.
  assert (Hstk : wstk s = wstk t).
  { rewrite <- (rev_involutive (wstk s)), <- (rev_involutive (wstk t)). f_equal. apply (normal_unique (wstarts rest1)).
    - apply stk_ok_normal. exact Hk1.
    - rewrite Hd. apply stk_ok_normal. exact Hk2.
    - intros place Hpl Hab. specialize (Hw place Hpl). unfold wstk. rewrite Hr1, Hr2. cbn [snd]. cbv zeta.
      rewrite (walk_reduce (wstarts rest1) (wnames rest1) [] place); [|apply wnames_good|apply stk_ok_nil|exact Hab].
      rewrite (walk_reduce (wstarts rest2) (wnames rest2) [] place); [|apply wnames_good|apply stk_ok_nil|rewrite <- Hd; exact Hab].
      cbn [rev walk fold_left]. rewrite <- Hd in Hw. destruct (wstarts rest1); [rewrite (Hab eq_refl); exact Hw|exact Hw]. }
  unfold wnormal. rewrite Hr1, Hr2. cbn [fst snd]. rewrite Hroot, <- Hd, <- Hstk. unfold wfinal. destruct (wstk s) as [|x r0] eqn:Hst; [reflexivity|]. f_equal.
  destruct (is_updir x) eqn:Hx; [rewrite !andb_false_r; reflexivity|]. rewrite (wtr_spec s rn1 rest1 x r0 Hr1 Hst Hx), (wtr_spec t rn2 rest2 x r0 Hr2 (eq_sym Hstk) Hx), Hp. reflexivity.
Qed.

(** For every text, whatever its names, there is a result: no exception, no failed assertion, no undefined behaviour. *)
Theorem C77_always_a_result : forall E s, exists q, lexically_normal Windows E (split_components Windows s) = Ok q.
Proof. exact normal_any. Qed.

(** A name that looks like a drive becomes one when the names before it cancel: "x\..\c:y" names the file "c:y" of the
    current directory (an alternate stream, say), its normal form the file y on drive c. *)
Theorem C77_hidden_drive_refuted : forall E a, is_wsep a = false -> exists q,
  lexically_normal Windows E (split_components Windows (lit "x\..\" ++ a :: lit ":y")) = Ok q /\
  wroot (lit "x\..\" ++ a :: lit ":y") = [] /\ wroot (native q) = [a; colon] /\ native q = a :: lit ":y".
Proof.
  intros E a Ha.
  set (s := lit "x\..\" ++ a :: lit ":y").
  assert (Hroot : split_root no_wsep s = ([], s)) by (cbn [split_root s lit app]; reflexivity).
  assert (Hn : wnames s = [lit "x"; lit ".."; a :: lit ":y"]).
  { unfold s. change (lit "x\..\" ++ a :: lit ":y") with (lit "x" ++ backslash :: (lit ".." ++ backslash :: (a :: lit ":y"))).
    rewrite !wnames_app by reflexivity. rewrite (wnames_plain (a :: lit ":y")); [reflexivity|discriminate|]. unfold wplain. cbn [forallb]. unfold no_wsep at 1. rewrite Ha. reflexivity. }
  assert (He : wends s = false) by reflexivity.
  assert (Hel : elems (split_components Windows s) = map (fun n => Path n [] FILENAME) [lit "x"; lit ".."; a :: lit ":y"]).
  { rewrite elems_split by discriminate. unfold all_comps. rewrite Hroot, !map_app, comp_names, Hn. unfold trail. rewrite He. cbn [andb map]. rewrite app_nil_r. reflexivity. }
  assert (Hdrive : split_components Windows (a :: lit ":y") = Path (a :: lit ":y") [Comp [a; colon] ROOT_NAME 0; Comp (lit "y") FILENAME 2] MULTI).
  { assert (Hok : ctext_ok [a; colon] false [lit "y"]).
    { split; [right; left; exists a; auto|]. split; [constructor; [split; [discriminate|reflexivity]|constructor]|]. split; [discriminate|]. cbn. rewrite Ha. discriminate. }
    exact (split_ctext _ _ _ false Hok ltac:(discriminate)). }
  exists (fin Windows (el_normal E) (split_components Windows (a :: lit ":y"))).
  assert (Hnat : native (fin Windows (el_normal E) (split_components Windows (a :: lit ":y"))) = a :: lit ":y").
  { rewrite fin_native; rewrite Hdrive; [reflexivity|]. cbn [native pathname]. rewrite <- win_native, Hdrive. reflexivity. }
  assert (Hr2 : split_root no_wsep (a :: lit ":y") = ([a; colon], lit "y")) by (cbn [split_root lit list_ascii_of_string]; unfold no_wsep; rewrite Ha; reflexivity).
  split; [|split; [|split; [|exact Hnat]]].
  - unfold lexically_normal. rewrite Hel.
    assert (empty (split_components Windows s) = false) as ->.
    { pose proof (wsplit_all s ltac:(discriminate)) as H. unfold all_comps in H. rewrite Hroot in H. unfold empty. change (pathname ?p) with (native p). rewrite win_native. unfold win_text.
      rewrite (win_elements_parts s [] s Hroot). unfold parts_elements. rewrite Hn, He. reflexivity. }
    assert (Hloop : forall r0 r1, normal_step Windows E path_default (Path (lit "x") [] FILENAME) = Ok r0 -> normal_step Windows E r0 (Path (lit "..") [] FILENAME) = Ok r1 ->
      normal_loop Windows E (map (fun n => Path n [] FILENAME) [lit "x"; lit ".."; a :: lit ":y"]) path_default = (do r2 <- normal_step Windows E r1 (Path (a :: lit ":y") [] FILENAME);; Ok r2)).
    { intros r0 r1 H0 H1. cbn [map normal_loop]. rewrite H0. cbn [bind]. rewrite H1. reflexivity. }
    rewrite (Hloop (Path (lit "x") [] FILENAME) (split_components Windows [])); [|destruct E as [? ? []]; reflexivity|destruct E as [? ? []]; reflexivity].
    assert (Hst : normal_step Windows E (split_components Windows []) (Path (a :: lit ":y") [] FILENAME) = Ok (split_components Windows (a :: lit ":y"))).
    { assert (Hok0 : ctext_ok [] false []) by (split; [left; reflexivity|]; split; [constructor|]; split; [discriminate|discriminate]).
      assert (HR0 : Rep [] false [] false (split_components Windows [])) by (left; reflexivity).
      pose proof (Rep_append E [] false [] false (split_components Windows []) (Path (a :: lit ":y") [] FILENAME) Hok0 ltac:(discriminate) HR0 (or_intror (ex_intro _ _ eq_refl))) as H.
      unfold normal_step. cbn [ptyp ptype_eqb orb]. assert (is_dotdot (Path (a :: lit ":y") [] FILENAME) = false) as -> by reflexivity. assert (is_dot (Path (a :: lit ":y") [] FILENAME) = false) as -> by reflexivity. exact H. }
    rewrite Hst. cbn [bind]. rewrite Hdrive. reflexivity.
  - unfold wroot. rewrite Hroot. reflexivity.
  - unfold wroot. rewrite Hnat, Hr2. cbn [fst]. unfold preferred. cbn [map]. rewrite (plain_nosep a Ha). reflexivity.
Qed.

(** ** Instances *)

Example C77_example : forall E, exists q,
  no_hidden_drive (lit "c:/a\./b//..\c/.") /\
  lexically_normal Windows E (split_components Windows (lit "c:/a\./b//..\c/.")) = Ok q /\ native q = lit "c:\a\c\" /\
  wresolve [lit "z"] (lit "c:/a\./b//..\c/.") = [lit "a"; lit "c"] /\ wroot (lit "c:/a\./b//..\c/.") = lit "c:".
Proof.
  intros E. destruct (normal_text_windows E (lit "c:/a\./b//..\c/.")) as (q & Hq & Hn & _).
  - discriminate.
  - left. discriminate.
  - exists q. split; [left; discriminate|]. split; [exact Hq|]. split; [rewrite Hn; vm_compute; reflexivity|]. split; reflexivity.
Qed.

Example C77_host_example : forall E, exists q,
  lexically_normal Windows E (split_components Windows (lit "//host/a/../..")) = Ok q /\ native q = lit "\\host\" /\ no_hidden_drive (lit "//host/a/../..").
Proof.
  intros E. destruct (normal_text_windows E (lit "//host/a/../..")) as (q & Hq & Hn & _).
  - discriminate.
  - left. discriminate.
  - exists q. split; [exact Hq|]. split; [rewrite Hn; vm_compute; reflexivity|left; discriminate].
Qed.

Example C77_canonical_example : no_hidden_drive (lit "a/x/../b") /\ no_hidden_drive (lit ".\a\b") /\
  wroot (lit "a/x/../b") = wroot (lit ".\a\b") /\ (forall place, wresolve place (lit "a/x/../b") = wresolve place (lit ".\a\b")).
Proof.
  split; [right; right; repeat constructor; discriminate|]. split; [right; right; repeat constructor; discriminate|]. split; [reflexivity|].
  intros place. unfold wresolve. cbn -[walk]. unfold walk. cbn [fold_left]. unfold walk1. cbn. rewrite removelast_snoc. reflexivity.
Qed.

Print Assumptions C77_normal_form_partial.
Print Assumptions C77_meaning_partial.
Print Assumptions C77_idempotent_partial.
Print Assumptions C77_canonical_partial.
Print Assumptions C77_always_a_result.
Print Assumptions C77_hidden_drive_refuted.
