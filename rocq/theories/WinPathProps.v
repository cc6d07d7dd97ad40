(** C58: how a path text is taken apart on Windows (the [Windows] branch of the model of
    SplitComponents, fs_path.cpp:25-106, PathModel.v). The first section is the
    specification: plain functions on texts, from the description of Windows paths in the property. *)
From Coq Require Import Ascii String Bool Arith NArith ZArith Lia List.
From Verif Require Import Str PathModel PathSpec StrProofs PathProofs PathOps.
Import ListNotations.

(** * Specification *)

(** Separators of either kind. *)
Definition is_wsep (c : ascii) : bool := Ascii.eqb c slash || Ascii.eqb c backslash.

(** The pieces of a text between separators, and the non-empty ones. *)
Fixpoint wpieces (s : str) : list str :=
  match s with
  | [] => [[]]
  | c :: r =>
      if is_wsep c then [] :: wpieces r
      else match wpieces r with h :: t => (c :: h) :: t | [] => [[c]] end
  end.
Definition wnames (s : str) : list str := filter (fun t => negb (is_nil t)) (wpieces s).

Definition wstarts (s : str) : bool := match s with c :: _ => is_wsep c | [] => false end.
Definition wends (s : str) : bool := wstarts (rev s).

(** The longest prefix without separators, and what follows it. *)
Fixpoint word (s : str) : str :=
  match s with c :: r => if is_wsep c then [] else c :: word r | [] => [] end.
Fixpoint after_word (s : str) : str :=
  match s with c :: r => if is_wsep c then s else after_word r | [] => [] end.

(** The text without its leading separators. *)
Fixpoint drop_wseps (s : str) : str :=
  match s with c :: r => if is_wsep c then drop_wseps r else s | [] => [] end.

(** Separators written the preferred way. *)
Definition preferred (s : str) : str := map (fun c => if Ascii.eqb c slash then backslash else c) s.

(** Drive letters. *)
Definition is_letter (c : ascii) : bool :=
  let n := N_of_ascii c in
  ((65 <=? n) && (n <=? 90) || (97 <=? n) && (n <=? 122))%N.

(** Root name and remaining text. [drive] says which characters may stand before the colon:
    the letters, in the grammar. A host follows two equal separators. *)
Definition split_root (drive : ascii -> bool) (s : str) : str * str :=
  match s with
  | a :: b :: r =>
      if is_wsep a && Ascii.eqb a b && negb (is_nil (word r)) then (a :: b :: word r, after_word r)
      else if drive a && Ascii.eqb b colon then ([a; b], r)
      else ([], s)
  | _ => ([], s)
  end.

(** The elements: root name, root directory, names, and an empty element for a trailing separator. *)
Definition win_elements (drive : ascii -> bool) (s : str) : list str :=
  let (rn, rest) := split_root drive s in
  (if is_nil rn then [] else [preferred rn]) ++
  (if wstarts rest then [[backslash]] else []) ++
  wnames rest ++
  (if wends rest && negb (is_nil (wnames rest)) then [[]] else []).

(** What a path made from [s] reports as its text: the text of its element when there is only one. *)
Definition win_text (drive : ascii -> bool) (s : str) : str :=
  match win_elements drive s with [x] => x | _ => s end.

(** * Proofs *)

(** What the code takes for a drive: any character that is not a separator. *)
Definition no_wsep (c : ascii) : bool := negb (is_wsep c).
Definition wplain (s : str) : Prop := forallb no_wsep s = true.

Definition wflush (off : nat) (cur : str) : list comp :=
  match cur with [] => [] | _ => [Comp cur FILENAME off] end.

Fixpoint wtok (off : nat) (cur rest : str) : list comp :=
  match rest with
  | [] => wflush off cur
  | c :: r => if is_wsep c then wflush off cur ++ wtok (off + length cur + 1) [] r
              else wtok off (cur ++ [c]) r
  end.

Lemma wplain_snoc : forall cur c, wplain cur -> is_wsep c = false -> wplain (cur ++ [c]).
Proof.
  intros. unfold wplain in *. rewrite forallb_app, H. cbn. unfold no_wsep. rewrite H0. reflexivity.
Qed.

Lemma wpieces_nonnil : forall s, wpieces s <> [].
Proof. destruct s as [|c r]; cbn; [congruence|]. destruct (is_wsep c); [congruence|]. destruct (wpieces r); congruence. Qed.

Lemma wpieces_plain : forall s, wplain s -> wpieces s = [s].
Proof.
  induction s as [|c r IH]; intros; auto. unfold wplain in H. cbn in H. apply andb_prop in H. destruct H.
  cbn. unfold no_wsep in H. apply negb_true_iff in H. rewrite H, IH by auto. reflexivity.
Qed.

Lemma wpieces_app_sep : forall s c r, is_wsep c = true -> wplain s -> wpieces (s ++ c :: r) = s :: wpieces r.
Proof.
  induction s as [|x s IH]; intros c r Hc Hs.
  - cbn. rewrite Hc. reflexivity.
  - unfold wplain in Hs. cbn in Hs. apply andb_prop in Hs. destruct Hs as [Hx Hs].
    unfold no_wsep in Hx. apply negb_true_iff in Hx. cbn. rewrite Hx, IH by auto. reflexivity.
Qed.

Lemma wnames_plain : forall s, s <> [] -> wplain s -> wnames s = [s].
Proof. intros. unfold wnames. rewrite wpieces_plain by auto. destruct s; [congruence|reflexivity]. Qed.

Lemma wnames_app_sep : forall s c r, is_wsep c = true -> wplain s -> wnames (s ++ c :: r) = wnames s ++ wnames r.
Proof.
  intros. unfold wnames. rewrite wpieces_app_sep, (wpieces_plain s) by auto. cbn [filter].
  destruct s; reflexivity.
Qed.

Lemma wtok_names : forall rest off cur, wplain cur -> map c_str (wtok off cur rest) = wnames (cur ++ rest).
Proof.
  induction rest as [|c r IH]; intros off cur H; cbn [wtok].
  - rewrite app_nil_r. destruct cur; [reflexivity|]. rewrite wnames_plain by (auto; congruence). reflexivity.
  - destruct (is_wsep c) eqn:Hc.
    + rewrite map_app, IH by reflexivity. rewrite wnames_app_sep by auto. f_equal.
      destruct cur; [reflexivity|]. rewrite wnames_plain by (auto; congruence). reflexivity.
    + rewrite IH by (apply wplain_snoc; auto). rewrite <- app_assoc. reflexivity.
Qed.

Lemma wtok_types : forall rest off cur, Forall (fun c => c_type c = FILENAME) (wtok off cur rest).
Proof.
  induction rest as [|c r IH]; intros; cbn [wtok].
  - destruct cur; repeat constructor.
  - destruct (is_wsep c); auto. apply Forall_app. split; auto. destruct cur; repeat constructor.
Qed.

Definition after_last_wsep (s : str) : str := last (wpieces s) [].

Lemma after_last_app_sep : forall s c r, is_wsep c = true -> wplain s ->
  after_last_wsep (s ++ c :: r) = after_last_wsep r.
Proof.
  intros. unfold after_last_wsep. rewrite wpieces_app_sep by auto.
  pose proof (wpieces_nonnil r). destruct (wpieces r); [congruence|reflexivity].
Qed.

Lemma wscan_tok : forall rest s pre cur acc a b p,
  s = pre ++ cur ++ rest -> wplain cur ->
  scan Windows s rest (length pre + length cur) (length pre) acc = (a, b, p) ->
  a ++ (if b =? p then [] else [filename_comp s b (p - b)]) = acc ++ wtok (length pre) cur rest /\
  p = length s /\ p - b = length (after_last_wsep (cur ++ rest)) /\ b <= p.
Proof.
  induction rest as [|c r IH]; intros s pre cur acc a b p Hs Hc Hscan; cbn [scan] in Hscan.
  - injection Hscan as <- <- <-.
    rewrite app_nil_r in *. subst s.
    unfold after_last_wsep. rewrite app_length, wpieces_plain by auto. cbn [last].
    replace (length pre + length cur - length pre) with (length cur) by lia.
    split; [|lia]. f_equal. cbn [wtok]. unfold wflush.
    destruct cur as [|x cur].
    + rewrite (proj2 (Nat.eqb_eq _ _)) by (cbn; lia). reflexivity.
    + rewrite (proj2 (Nat.eqb_neq _ _)) by (cbn; lia).
      unfold filename_comp. f_equal. f_equal.
      rewrite <- (app_nil_r (x :: cur)) at 1. apply substr_mid.
  - cbn [wtok]. change (is_sep Windows c) with (is_wsep c) in Hscan.
    destruct (is_wsep c) eqn:Hcs.
    + set (acc' := if length pre =? length pre + length cur then acc
                   else acc ++ [filename_comp s (length pre) (length pre + length cur - length pre)]) in *.
      assert (Hacc : acc' = acc ++ wflush (length pre) cur).
      { unfold acc', wflush. destruct cur as [|x cur].
        - rewrite (proj2 (Nat.eqb_eq _ _)) by (cbn; lia). rewrite app_nil_r. reflexivity.
        - rewrite (proj2 (Nat.eqb_neq _ _)) by (cbn; lia). f_equal. f_equal. unfold filename_comp. f_equal.
          replace (length pre + length (x :: cur) - length pre) with (length (x :: cur)) by lia.
          subst s. apply substr_mid. }
      specialize (IH s (pre ++ cur ++ [c]) [] acc' a b p).
      assert (Hl : length (pre ++ cur ++ [c]) = S (length pre + length cur))
        by (rewrite !app_length; cbn; lia).
      rewrite Hl in IH. cbn [length] in IH. rewrite Nat.add_0_r in IH.
      destruct IH as (H1 & H2 & H3 & H4).
      * subst s. rewrite <- !app_assoc. reflexivity.
      * reflexivity.
      * exact Hscan.
      * split; [|split; [auto|split; [|auto]]].
        -- rewrite H1, Hacc, <- app_assoc. f_equal. f_equal.
           replace (length pre + length cur + 1) with (S (length pre + length cur)) by lia. reflexivity.
        -- rewrite H3. cbn [app]. rewrite after_last_app_sep by auto. reflexivity.
    + specialize (IH s pre (cur ++ [c]) acc a b p).
      rewrite app_length in IH. cbn [length] in IH.
      replace (length pre + (length cur + 1)) with (S (length pre + length cur)) in IH by lia.
      rewrite <- app_assoc in IH. cbn [app] in IH. apply IH; auto.
      apply wplain_snoc; auto.
Qed.

Lemma last_wsep : forall s,
  match last (map Some s) None with Some c => is_sep Windows c | None => false end = wends s.
Proof.
  intros s. destruct s as [|c r] using rev_ind; [reflexivity|].
  unfold wends. rewrite rev_app_distr, map_app. cbn [rev app map].
  rewrite last_last. reflexivity.
Qed.

Lemma after_last_ends : forall s, is_nil (after_last_wsep s) = is_nil s || wends s.
Proof.
  intros s. induction s as [|c r IH] using rev_ind; [reflexivity|].
  unfold wends. rewrite rev_app_distr. cbn [rev app wstarts].
  assert (is_nil (r ++ [c]) = false) as -> by (destruct r; reflexivity). cbn [orb].
  clear IH. unfold after_last_wsep.
  assert (Hg : forall t : str, last (wpieces (t ++ [c])) [] = if is_wsep c then [] else last (wpieces t) [] ++ [c]).
  { induction t as [|x t IH].
    - cbn. destruct (is_wsep c); reflexivity.
    - cbn [app wpieces]. destruct (is_wsep x).
      + pose proof (wpieces_nonnil (t ++ [c])). pose proof (wpieces_nonnil t).
        destruct (wpieces (t ++ [c])) eqn:E1; [congruence|]. destruct (wpieces t) eqn:E2; [congruence|].
        exact IH.
      + pose proof (wpieces_nonnil (t ++ [c])). pose proof (wpieces_nonnil t).
        destruct (wpieces (t ++ [c])) as [|h1 t1] eqn:E1; [congruence|].
        destruct (wpieces t) as [|h2 t2] eqn:E2; [congruence|].
        assert (Hshape : (t1 = [] /\ t2 = [] /\ is_wsep c = false \/ t1 <> [] /\ (t2 <> [] \/ is_wsep c = true /\ t2 = []))).
        { clear - E1 E2. revert h1 t1 h2 t2 E1 E2. induction t as [|y t IH]; intros; cbn in E1, E2.
          - injection E2 as <- <-. destruct (is_wsep c); injection E1 as <- <-; [right; split; [congruence|auto] | left; auto].
          - pose proof (wpieces_nonnil (t ++ [c])). pose proof (wpieces_nonnil t).
            destruct (is_wsep y).
            + injection E1 as <- <-. injection E2 as <- <-. right. auto.
            + destruct (wpieces (t ++ [c])) as [|a1 b1]; [congruence|].
              destruct (wpieces t) as [|a2 b2]; [congruence|].
              injection E1 as <- <-. injection E2 as <- <-. eapply IH; reflexivity. }
        destruct Hshape as [(-> & -> & Hc)|(H1 & H2)].
        * cbn [last] in *. rewrite Hc in *. rewrite IH. reflexivity.
        * destruct t1; [congruence|]. destruct H2 as [H2|[Hc ->]].
          -- destruct t2; [congruence|]. exact IH.
          -- rewrite Hc in *. exact IH. }
  rewrite Hg. destruct (is_wsep c); [reflexivity|]. destruct (last (wpieces r) []); reflexivity.
Qed.

Lemma wtok_nil_last : forall rest off c, wtok off [] rest = [] \/
  last (map Some (c ++ wtok off [] rest)) None = last (map Some (wtok off [] rest)) None.
Proof.
  intros. destruct (wtok off [] rest) eqn:E; auto. right.
  rewrite map_app. cbn [map]. induction c as [|x c IH]; [reflexivity|].
  cbn [map app]. rewrite <- IH. destruct (map Some c); reflexivity.
Qed.

(** The last component is a name exactly when there are names (root components are not names). *)
Lemma last_is_name : forall cs rest off, Forall (fun c => c_type c <> FILENAME) cs ->
  match last (map Some (cs ++ wtok off [] rest)) None with
  | Some c => ptype_eqb (c_type c) FILENAME | None => false end = negb (is_nil (wnames rest)).
Proof.
  intros cs rest off Hcs.
  pose proof (wtok_names rest off [] eq_refl) as Hn. cbn [app] in Hn.
  pose proof (wtok_types rest off []) as Ht.
  destruct (wtok off [] rest) as [|x l] eqn:E using rev_ind.
  - cbn in Hn. rewrite <- Hn. rewrite app_nil_r. cbn.
    destruct cs as [|c cs _] using rev_ind; [reflexivity|].
    rewrite map_app. cbn [map]. rewrite last_last. apply Forall_app in Hcs. destruct Hcs as [_ Hc].
    inversion Hc; subst. destruct (c_type c) eqn:Ec; try reflexivity; congruence.
  - clear IHl. rewrite app_assoc, map_app. cbn [map]. rewrite last_last.
    apply Forall_app in Ht. destruct Ht as [_ Hx]. inversion Hx; subst. rewrite H1. cbn [ptype_eqb].
    rewrite <- Hn, map_app. destruct (map c_str l); reflexivity.
Qed.

Definition trail (rest : str) (off : nat) : list comp :=
  if wends rest && negb (is_nil (wnames rest)) then [Comp [] FILENAME off] else [].

Lemma wends_app : forall pre rest, rest <> [] -> wends (pre ++ rest) = wends rest.
Proof.
  intros. unfold wends. rewrite rev_app_distr. destruct (rev rest) eqn:E; [|reflexivity].
  apply (f_equal (@rev ascii)) in E. rewrite rev_involutive in E. cbn in E. congruence.
Qed.

Lemma wsplit_tail : forall s pre rest cs, s = pre ++ rest ->
  Forall (fun c => c_type c <> FILENAME) cs ->
  split_tail Windows s (length pre) cs =
  trim (Path s (cs ++ wtok (length pre) [] rest ++ trail rest (length s)) MULTI).
Proof.
  intros s pre rest cs Hs Hcs. unfold split_tail.
  rewrite Hs at 2. rewrite skipn_exact by auto.
  destruct (scan Windows s rest (length pre) (length pre) cs) as [[a b] p] eqn:Hscan.
  destruct (wscan_tok rest s pre [] cs a b p) as (H1 & H2 & H3 & H4); auto.
  { reflexivity. }
  { cbn. rewrite Nat.add_0_r. exact Hscan. }
  cbn [app] in H3. rewrite last_wsep.
  pose proof (after_last_ends rest) as Hae.
  pose proof (last_is_name cs rest (length pre) Hcs) as Hln.
  destruct (b =? p) eqn:Hbp; cbn [negb].
  - apply Nat.eqb_eq in Hbp. rewrite app_nil_r in H1. subst a.
    assert (Ha : after_last_wsep rest = []) by (apply length_zero_iff_nil; lia).
    rewrite Ha in Hae. cbn [is_nil] in Hae.
    unfold trail. f_equal. rewrite app_assoc. f_equal.
    destruct rest as [|x r].
    + cbn. rewrite !app_nil_r in *. cbn in Hln. destruct (wends s); auto.
      destruct (last (map Some cs) None); auto. rewrite Hln. auto.
    + cbn [is_nil orb] in Hae. rewrite <- Hae.
      rewrite Hs at 1. rewrite wends_app, <- Hae by congruence. cbn [andb].
      destruct (last (map Some (cs ++ wtok (length pre) [] (x :: r))) None) eqn:El.
      * rewrite Hln. destruct (negb (is_nil (wnames (x :: r)))); [reflexivity|]. rewrite app_nil_r. reflexivity.
      * rewrite <- Hln. rewrite app_nil_r. reflexivity.
  - apply Nat.eqb_neq in Hbp. rewrite H1.
    unfold trail. destruct rest as [|x r].
    + cbn in H3. lia.
    + cbn [is_nil orb] in Hae. rewrite <- Hae.
      destruct (after_last_wsep (x :: r)) eqn:Ea; [cbn in H3; lia|].
      cbn. rewrite app_nil_r. reflexivity.
Qed.

Definition root_comps (rn rest : str) : list comp :=
  (if is_nil rn then [] else [Comp (preferred rn) ROOT_NAME 0]) ++
  (if wstarts rest then [Comp [backslash] ROOT_DIR (length rn)] else []).

Lemma root_comps_types : forall rn rest, Forall (fun c => c_type c <> FILENAME) (root_comps rn rest).
Proof.
  intros. unfold root_comps. destruct (is_nil rn), (wstarts rest); cbn [app];
    repeat constructor; cbn; congruence.
Qed.

Lemma find_sep_word : forall r n, find_sep Windows r n = n + length (word r).
Proof.
  induction r as [|c r IH]; intros; cbn; [lia|].
  change (Ascii.eqb c slash || Ascii.eqb c backslash) with (is_wsep c).
  destruct (is_wsep c); cbn; [lia|]. rewrite IH. lia.
Qed.

Lemma word_after : forall r, word r ++ after_word r = r.
Proof. induction r as [|c r IH]; auto. cbn. destruct (is_wsep c); cbn; congruence. Qed.

Lemma after_word_starts : forall r, wstarts (after_word r) = negb (is_nil (after_word r)).
Proof. induction r as [|c r IH]; auto. cbn. destruct (is_wsep c) eqn:E; auto. Qed.

Lemma wsep_cases : forall c, is_wsep c = true -> c = slash \/ c = backslash.
Proof.
  intros c H. unfold is_wsep in H. apply orb_prop in H.
  destruct H as [H|H]; apply Ascii.eqb_eq in H; auto.
Qed.

Lemma preferred_sep : forall c, is_wsep c = true -> preferred [c] = [backslash].
Proof. intros c H. destruct (wsep_cases c H); subst; reflexivity. Qed.

Lemma wnames_seps : forall s, forallb is_wsep s = true -> wnames s = [].
Proof.
  induction s as [|c r IH]; intros; auto. cbn in H. apply andb_prop in H. destruct H as [Hc Hr].
  pose proof (wnames_app_sep [] c r Hc eq_refl) as Hn. cbn [app] in Hn. rewrite Hn, IH by auto. reflexivity.
Qed.

Lemma only_slash_seps : forall s, forallb (fun c => Ascii.eqb c slash) s = true -> forallb is_wsep s = true.
Proof.
  induction s as [|c r IH]; intros; auto. cbn in H. apply andb_prop in H. destruct H as [Hc Hr].
  cbn. unfold is_wsep at 1. rewrite Hc. cbn. auto.
Qed.

Lemma wtok_seps : forall s off, forallb is_wsep s = true -> wtok off [] s = [].
Proof.
  induction s as [|c r IH]; intros; auto. cbn in H. apply andb_prop in H. destruct H as [Hc Hr].
  cbn [wtok]. rewrite Hc. cbn [wflush app]. auto.
Qed.

Lemma wsplit_rooted : forall c r, is_wsep c = true ->
  split_rooted Windows (c :: r) =
  trim (Path (c :: r) (root_comps [] (c :: r) ++ wtok 0 [] (c :: r) ++ trail (c :: r) (length (c :: r))) MULTI).
Proof.
  intros c r Hc. unfold split_rooted, root_comps. cbn [is_nil wstarts]. rewrite Hc. cbn [app].
  assert (Hrd : root_dir_comp Windows (c :: r) 0 = Comp [backslash] ROOT_DIR 0).
  { unfold root_dir_comp. f_equal. cbn [substr skipn firstn]. apply (preferred_sep c Hc). }
  rewrite Hrd. destruct (forallb (fun c0 => Ascii.eqb c0 slash) (c :: r)) eqn:Hall.
  - apply only_slash_seps in Hall. rewrite wtok_seps by auto. unfold trail. rewrite wnames_seps by auto.
    rewrite andb_false_r. reflexivity.
  - change 1 with (length [c]).
    rewrite (wsplit_tail (c :: r) [c] r) by (auto; repeat constructor; cbn; congruence).
    cbn [wtok]. rewrite Hc. cbn [wflush app length Nat.add].
    f_equal. f_equal. f_equal. f_equal. unfold trail.
    pose proof (wnames_app_sep [] c r Hc eq_refl) as Hn. cbn [app] in Hn. rewrite Hn.
    change (wnames []) with (@nil str). cbn [app].
    destruct r as [|x r'].
    + cbn [wnames wpieces filter is_nil negb]. rewrite !andb_false_r. reflexivity.
    + change (c :: x :: r') with ([c] ++ x :: r'). rewrite wends_app by congruence. reflexivity.
Qed.

Lemma wsplit_plain : forall s, wstarts s = false ->
  split_tail Windows s 0 [] =
  trim (Path s (root_comps [] s ++ wtok 0 [] s ++ trail s (length s)) MULTI).
Proof.
  intros s H. change 0 with (length (@nil ascii)) at 1. rewrite (wsplit_tail s [] s []) by (auto; constructor).
  unfold root_comps. rewrite H. reflexivity.
Qed.

Lemma wsplit : forall s rn rest, s <> [] -> split_root no_wsep s = (rn, rest) ->
  s = rn ++ rest /\
  split_components Windows s =
  trim (Path s (root_comps rn rest ++ wtok (length rn) [] rest ++ trail rest (length s)) MULTI).
Proof.
  intros s rn rest Hne Hr. destruct s as [|a s]; [congruence|]. clear Hne.
  unfold split_components. change (is_sep Windows a) with (is_wsep a).
  destruct s as [|b r]; cbn [split_root] in Hr.
  - injection Hr as <- <-. split; auto. destruct (is_wsep a) eqn:Ha.
    + apply wsplit_rooted; auto.
    + apply wsplit_plain; auto.
  - destruct (is_wsep a) eqn:Ha; cbn [andb] in Hr.
    + destruct (Ascii.eqb a b) eqn:Hab.
      * apply Ascii.eqb_eq in Hab. subst b. rewrite Ascii.eqb_refl. cbn [andb] in Hr.
        destruct r as [|c2 r].
        { cbn in Hr. unfold no_wsep in Hr. rewrite Ha in Hr. cbn in Hr. injection Hr as <- <-.
          split; auto. apply wsplit_rooted; auto. }
        change (is_sep Windows c2) with (is_wsep c2). cbn [word] in Hr.
        destruct (is_wsep c2) eqn:Hc2; cbn [negb is_nil] in *.
        { unfold no_wsep in Hr. rewrite Ha in Hr. cbn in Hr. injection Hr as <- <-. split; auto.
          change 0 with (length (@nil ascii)) at 1.
          rewrite (wsplit_tail (a :: a :: c2 :: r) [] (a :: a :: c2 :: r)); auto.
          - unfold root_comps. cbn [is_nil wstarts]. rewrite Ha. cbn [app length].
            assert (root_dir_comp Windows (a :: a :: c2 :: r) 0 = Comp [backslash] ROOT_DIR 0) as ->; [|reflexivity].
            unfold root_dir_comp. f_equal. cbn [substr skipn firstn]. apply (preferred_sep a Ha).
          - repeat constructor. cbn. congruence. }
        injection Hr as <- <-. cbn [skipn].
        rewrite Hc2. set (rn := a :: a :: c2 :: word r).
        assert (Hs : a :: a :: c2 :: r = rn ++ after_word r)
          by (unfold rn; cbn [app]; rewrite word_after; reflexivity).
        split; [exact Hs|].
        rewrite find_sep_word. replace (3 + length (word r)) with (length rn) by reflexivity.
        rewrite (wsplit_tail (a :: a :: c2 :: r) rn (after_word r)); auto.
        -- f_equal. f_equal. f_equal. unfold root_comps. cbn [is_nil rn].
           change (if false then [] else [Comp (preferred rn) ROOT_NAME 0]) with [Comp (preferred rn) ROOT_NAME 0].
           cbn [app]. f_equal.
           ++ unfold root_name_comp. f_equal. rewrite Hs. unfold substr. cbn [skipn].
              rewrite firstn_app, firstn_all, Nat.sub_diag. cbn [firstn]. rewrite app_nil_r. reflexivity.
           ++ rewrite after_word_starts. rewrite Hs, app_length.
              destruct (after_word r) as [|x l] eqn:Ex.
              ** cbn [is_nil negb length]. rewrite Nat.add_0_r, Nat.ltb_irrefl. reflexivity.
              ** cbn [is_nil negb length]. rewrite (proj2 (Nat.ltb_lt _ _)) by lia.
                 f_equal. unfold root_dir_comp. f_equal. unfold substr. rewrite skipn_exact by reflexivity.
                 cbn [firstn]. apply preferred_sep. pose proof (after_word_starts r) as Hst.
                 rewrite Ex in Hst. exact Hst.
        -- destruct (length rn <? length (a :: a :: c2 :: r)); repeat constructor; cbn; congruence.
      * assert (Hba : Ascii.eqb b a = false) by (rewrite Ascii.eqb_sym; exact Hab).
        cbn [andb] in Hr. unfold no_wsep in Hr. rewrite Ha in Hr. cbn in Hr. injection Hr as <- <-.
        split; auto. rewrite Hba. destruct r; apply wsplit_rooted; auto.
    + unfold no_wsep in Hr. rewrite Ha in Hr. cbn [negb andb] in Hr.
      destruct (Ascii.eqb b colon) eqn:Hb.
      * injection Hr as <- <-. split; auto.
        change 2 with (length [a; b]).
        rewrite (wsplit_tail (a :: b :: r) [a; b] r); auto.
        -- f_equal. f_equal. f_equal. unfold root_comps. cbn [is_nil app]. f_equal.
           destruct r as [|c r]; [reflexivity|]. cbn [wstarts]. change (is_sep Windows c) with (is_wsep c).
           destruct (is_wsep c) eqn:Hc; [|reflexivity]. f_equal. unfold root_dir_comp. f_equal.
           apply (preferred_sep c Hc).
        -- constructor; [cbn; congruence|]. destruct r as [|c r]; [constructor|].
           destruct (is_sep Windows c); repeat constructor; cbn; congruence.
      * injection Hr as <- <-. split; auto. apply wsplit_plain; auto.
Qed.

(** The components a text is split into, before Trim. *)
Definition all_comps (s : str) : list comp :=
  let (rn, rest) := split_root no_wsep s in
  root_comps rn rest ++ wtok (length rn) [] rest ++ trail rest (length s).

Lemma wsplit_all : forall s, s <> [] -> split_components Windows s = trim (Path s (all_comps s) MULTI).
Proof.
  intros s Hs. unfold all_comps. destruct (split_root no_wsep s) as [rn rest] eqn:E.
  apply (wsplit s rn rest Hs E).
Qed.

Lemma all_comps_elements : forall s, map c_str (all_comps s) = win_elements no_wsep s.
Proof.
  intros s. unfold all_comps, win_elements. destruct (split_root no_wsep s) as [rn rest].
  rewrite !map_app, wtok_names by reflexivity. cbn [app]. unfold root_comps, trail. rewrite map_app, <- !app_assoc.
  destruct (is_nil rn), (wstarts rest), (wends rest && negb (is_nil (wnames rest))); reflexivity.
Qed.

Lemma wnames_nonempty : forall s, Forall (fun n => n <> []) (wnames s).
Proof.
  intros. apply Forall_forall. intros x Hx. apply filter_In in Hx. destruct Hx as [_ H]. destruct x; [discriminate|congruence].
Qed.

(** A path with one element has an element with a non-empty text. *)
Lemma win_elements_single : forall d s x, win_elements d s = [x] -> x <> [].
Proof.
  intros d s x H. unfold win_elements in H. destruct (split_root d s) as [rn rest].
  pose proof (wnames_nonempty rest) as Hn.
  destruct rn as [|a rn]; cbn [is_nil app] in H.
  - destruct (wstarts rest); cbn [app] in H.
    + injection H as <- _. congruence.
    + destruct (wnames rest) as [|n l]; cbn in H; rewrite ?andb_false_r in H; [discriminate|].
      injection H as <- _. inversion Hn; auto.
  - injection H as <- _. cbn. congruence.
Qed.

Lemma trim_single : forall s c, trim (Path s [c] MULTI) = Path (c_str c) [] (c_type c).
Proof. reflexivity. Qed.

Lemma trim_other : forall s cs, length cs <> 1 -> trim (Path s cs MULTI) = Path s cs MULTI.
Proof. intros. destruct cs as [|c [|d l]]; cbn in *; auto; congruence. Qed.

Lemma win_elems : forall s, map native (elems (split_components Windows s)) = win_elements no_wsep s.
Proof.
  intros s. destruct s as [|a s]; [reflexivity|]. rewrite wsplit_all by congruence.
  rewrite <- all_comps_elements. pose proof (all_comps_elements (a :: s)) as He.
  destruct (all_comps (a :: s)) as [|c [|d l]] eqn:E.
  - reflexivity.
  - rewrite trim_single. cbn in He. assert (c_str c <> []) by (apply (win_elements_single no_wsep (a :: s)); auto).
    assert (Ht : c_type c <> MULTI).
    { clear - E. unfold all_comps in E. destruct (split_root no_wsep (a :: s)) as [rn rest].
      pose proof (root_comps_types rn rest) as H1. pose proof (wtok_types rest (length rn) []) as H2.
      unfold root_comps, trail in *.
      destruct (is_nil rn), (wstarts rest); cbn [app] in *; try (injection E as <- _; cbn; congruence).
      destruct (wtok (length rn) [] rest).
      - cbn in E. destruct (wends rest && negb (is_nil (wnames rest))); [|discriminate].
        injection E as <-. cbn. congruence.
      - injection E as <- _. inversion H2; congruence. }
    unfold elems. cbn [ptyp comps pathname map]. destruct (c_type c); try congruence;
      unfold empty; cbn [pathname]; destruct (c_str c); try congruence; reflexivity.
  - rewrite trim_other by (cbn; lia). unfold elems. cbn [ptyp comps]. rewrite map_map. reflexivity.
Qed.

Lemma win_native : forall s, native (split_components Windows s) = win_text no_wsep s.
Proof.
  intros s. destruct s as [|a s]; [reflexivity|]. rewrite wsplit_all by congruence.
  unfold win_text. rewrite <- all_comps_elements.
  destruct (all_comps (a :: s)) as [|c [|d l]] eqn:E; reflexivity.
Qed.

Lemma wnames_none : forall s, wnames s = [] -> forallb is_wsep s = true.
Proof.
  induction s as [|c r IH]; intros H; auto. cbn. destruct (is_wsep c) eqn:Hc.
  - cbn. apply IH. pose proof (wnames_app_sep [] c r Hc eq_refl) as Hn. cbn [app] in Hn. rewrite Hn in H. exact H.
  - exfalso. unfold wnames in H. cbn in H. rewrite Hc in H. destruct (wpieces r); discriminate.
Qed.

Lemma wends_seps : forall s, s <> [] -> forallb is_wsep s = true -> wends s = true.
Proof.
  intros s Hs H. unfold wends. destruct s as [|c r _] using rev_ind; [congruence|].
  rewrite rev_app_distr. cbn. rewrite forallb_app in H. apply andb_prop in H. destruct H as [_ H].
  cbn in H. rewrite andb_true_r in H. exact H.
Qed.

Lemma word_plain : forall s, wplain (word s).
Proof.
  induction s as [|c r IH]; [reflexivity|]. cbn. destruct (is_wsep c) eqn:E; [reflexivity|].
  unfold wplain, no_wsep in *. cbn. rewrite E. exact IH.
Qed.

(** A text that is just one name. *)
Lemma single_name : forall s x, wstarts s = false -> wends s = false -> wnames s = [x] -> s = x.
Proof.
  intros s x Hs He Hn. pose proof (word_after s) as Hw. pose proof (after_word_starts s) as Ha.
  destruct (after_word s) as [|c r] eqn:Er.
  - rewrite app_nil_r in Hw. rewrite <- Hw in Hn at 1. destruct s as [|a s]; [discriminate|].
    rewrite wnames_plain in Hn.
    + injection Hn as <-. symmetry. exact Hw.
    + rewrite Hw. congruence.
    + apply word_plain.
  - cbn in Ha. rewrite <- Hw in Hn. rewrite wnames_app_sep in Hn; [|auto|apply word_plain].
    destruct s as [|a s]; [discriminate|]. cbn in Hs.
    rewrite wnames_plain in Hn; [|cbn; rewrite Hs; congruence|apply word_plain].
    injection Hn as _ Hr. apply wnames_none in Hr.
    assert (wends (c :: r) = true).
    { apply wends_seps; [congruence|]. cbn. rewrite Ha, Hr. reflexivity. }
    rewrite <- Hw, wends_app in He by congruence. congruence.
Qed.

Lemma drop_wseps_split : forall s, exists k, s = k ++ drop_wseps s /\ forallb is_wsep k = true /\
  (wstarts s = false -> k = []) /\ (wstarts s = true -> k <> []) /\ wstarts (drop_wseps s) = false.
Proof.
  induction s as [|c r IH].
  - exists []. cbn. repeat split; auto. congruence.
  - cbn. destruct (is_wsep c) eqn:Hc.
    + destruct IH as (k & H1 & H2 & _ & _ & H5). exists (c :: k). cbn. rewrite Hc, H2, <- H1.
      repeat split; auto; congruence.
    + exists []. cbn. rewrite Hc. repeat split; auto. congruence.
Qed.

Lemma drop_wnames : forall s, wnames (drop_wseps s) = wnames s.
Proof.
  induction s as [|c r IH]; auto. cbn [drop_wseps]. destruct (is_wsep c) eqn:Hc; auto.
  rewrite IH. pose proof (wnames_app_sep [] c r Hc eq_refl) as Hn. cbn [app] in Hn. rewrite Hn. reflexivity.
Qed.

Lemma drop_all : forall s, forallb is_wsep s = true -> drop_wseps s = [].
Proof.
  induction s as [|c r IH]; intros; auto. cbn in H. apply andb_prop in H. destruct H as [Hc Hr].
  cbn. rewrite Hc. auto.
Qed.

Lemma wtok_first_cur : forall rest off x cur, exists n l, wtok off (x :: cur) rest = Comp n FILENAME off :: l.
Proof.
  induction rest as [|c r IH]; intros; cbn [wtok].
  - eexists _, _. reflexivity.
  - destruct (is_wsep c).
    + eexists _, _. reflexivity.
    + apply (IH off x (cur ++ [c])).
Qed.

Lemma wtok_first : forall s off, wnames s <> [] ->
  exists n l, wtok off [] s = Comp n FILENAME (off + (length s - length (drop_wseps s))) :: l.
Proof.
  induction s as [|c r IH]; intros off H.
  - exfalso. apply H. reflexivity.
  - cbn [wtok drop_wseps]. destruct (is_wsep c) eqn:Hc.
    + pose proof (wnames_app_sep [] c r Hc eq_refl) as Hn. cbn [app] in Hn. rewrite Hn in H.
      destruct (IH (off + length (@nil ascii) + 1) H) as (n & l & Hl). exists n, l.
      cbn [wflush app]. rewrite Hl. f_equal. f_equal. cbn [length].
      destruct (drop_wseps_split r) as (k & Hk & _).
      assert (length r = length k + length (drop_wseps r)) by (rewrite Hk at 1; apply app_length). lia.
    + cbn [app]. destruct (wtok_first_cur r off c []) as (n & l & Hl). exists n, l.
      rewrite Hl. f_equal. f_equal. lia.
Qed.

Lemma plain_nosep : forall c, is_wsep c = false -> Ascii.eqb c slash = false.
Proof. intros c H. unfold is_wsep in H. apply orb_false_elim in H. tauto. Qed.

Lemma preferred_plain : forall s, wplain s -> preferred s = s.
Proof.
  induction s as [|c r IH]; intros H; auto. unfold wplain in H. cbn in H. apply andb_prop in H. destruct H as [Hc Hr].
  apply negb_true_iff in Hc. cbn. rewrite (plain_nosep c Hc). f_equal. apply IH. exact Hr.
Qed.

Lemma word_of_plain : forall s, wplain s -> word s = s /\ after_word s = [].
Proof.
  induction s as [|c r IH]; intros H; auto. unfold wplain in H. cbn in H. apply andb_prop in H. destruct H as [Hc Hr].
  apply negb_true_iff in Hc. cbn. rewrite Hc. destruct (IH Hr). split; congruence.
Qed.

Lemma word_app : forall s r, wplain s -> wstarts r = true \/ r = [] ->
  word (s ++ r) = s /\ after_word (s ++ r) = r.
Proof.
  induction s as [|c s IH]; intros r H Hr.
  - cbn. destruct r as [|x r]; auto. destruct Hr as [Hr|Hr]; [|discriminate]. cbn in *. rewrite Hr. auto.
  - unfold wplain in H. cbn in H. apply andb_prop in H. destruct H as [Hc Hs].
    apply negb_true_iff in Hc. cbn. rewrite Hc. destruct (IH r Hs Hr) as [-> ->]. auto.
Qed.

(** Rewriting the separators of the root name and the run of separators behind it does not move the root name. *)
Lemma split_root_canonical : forall s rn rest, split_root no_wsep s = (rn, rest) ->
  split_root no_wsep (preferred rn ++ (if wstarts rest then [backslash] else []) ++ drop_wseps rest)
  = (preferred rn, (if wstarts rest then [backslash] else []) ++ drop_wseps rest).
Proof.
  intros s rn rest H. set (t := (if wstarts rest then [backslash] else []) ++ drop_wseps rest).
  assert (Ht : t = [] \/ wstarts t = wstarts rest).
  { unfold t. destruct (wstarts rest) eqn:E; [right; reflexivity|].
    destruct (drop_wseps_split rest) as (k & _ & _ & _ & _ & Hd). cbn [app]. auto. }
  assert (Hdd : wstarts rest = true -> exists u, t = backslash :: u /\ wstarts u = false).
  { intros E. unfold t. rewrite E. destruct (drop_wseps_split rest) as (k & _ & _ & _ & _ & Hd). eexists. split; [reflexivity|auto]. }
  assert (Hnd : wstarts rest = false -> t = rest).
  { intros E. unfold t. rewrite E. destruct (drop_wseps_split rest) as (k & Hk & _ & Hk0 & _). rewrite (Hk0 E) in Hk. auto. }
  assert (Hunc : (exists a r, is_wsep a = true /\ s = a :: a :: r /\ word r <> [] /\ rn = a :: a :: word r /\ rest = after_word r)
     \/ (exists a r, is_wsep a = false /\ rn = [a; colon] /\ rest = r)
     \/ (rn = [] /\ rest = s)).
  { destruct s as [|a [|b r]]; cbn in H; try (injection H as <- <-; auto; fail).
    destruct (is_wsep a) eqn:Ha; cbn [andb] in H.
    - destruct (Ascii.eqb a b) eqn:Hab; cbn [andb] in H.
      + apply Ascii.eqb_eq in Hab. subst b. destruct (word r) as [|x wr] eqn:Hw; cbn [is_nil negb] in H.
        * unfold no_wsep in H. rewrite Ha in H. cbn in H. injection H as <- <-. auto.
        * injection H as <- <-. left. exists a, r. rewrite Hw. repeat split; auto. congruence.
      + unfold no_wsep in H. rewrite Ha in H. cbn in H. injection H as <- <-. auto.
    - unfold no_wsep in H. rewrite Ha in H. cbn in H. destruct (Ascii.eqb b colon) eqn:Hb.
      + apply Ascii.eqb_eq in Hb. subst b. injection H as <- <-. right; left. exists a, r. auto.
      + injection H as <- <-. auto. }
  destruct Hunc as [(a & r & Ha & Hs & Hw & -> & ->)|[(a & r & Ha & -> & ->)|(-> & ->)]].
  - assert (Hpa : (if Ascii.eqb a slash then backslash else a) = backslash)
      by (destruct (wsep_cases a Ha); subst; reflexivity).
    unfold preferred at 1. cbn [map app]. rewrite Hpa.
    change (map (fun c => if Ascii.eqb c slash then backslash else c) (word r)) with (preferred (word r)).
    rewrite preferred_plain by apply word_plain. cbn [split_root].
    change (is_wsep backslash) with true. rewrite Ascii.eqb_refl. cbn [andb].
    destruct (word_app (word r) t) as [-> ->].
    + apply word_plain.
    + pose proof (after_word_starts r) as Hst. destruct Ht as [Ht|Ht]; auto.
      destruct (after_word r) eqn:Er; auto. left. rewrite Ht, Hst. reflexivity.
    + destruct (word r) as [|x wr] eqn:Hwr; [congruence|]. cbn [is_nil negb].
      pose proof (preferred_plain (word r) (word_plain r)) as Hpw. rewrite Hwr in Hpw.
      unfold preferred in *. cbn [map] in *. rewrite Hpa, Hpw. reflexivity.
  - unfold preferred. cbn [map app]. rewrite (plain_nosep a Ha). cbn [split_root].
    change (Ascii.eqb colon slash) with false. cbn iota. rewrite Ha. cbn [andb].
    unfold no_wsep. rewrite Ha. reflexivity.
  - cbn [preferred map app]. destruct (wstarts s) eqn:Es.
    + destruct (Hdd eq_refl) as (u & -> & Hu). destruct u as [|x u]; [reflexivity|].
      cbn [split_root]. change (is_wsep backslash) with true. cbn [andb].
      assert (Ascii.eqb backslash x = false) as ->.
      { apply Ascii.eqb_neq. intros <-. discriminate. }
      reflexivity.
    + rewrite (Hnd eq_refl). exact H.
Qed.

Lemma drop_wends : forall s, wnames s <> [] -> wends (drop_wseps s) = wends s.
Proof.
  intros s H. destruct (drop_wseps_split s) as (k & Hk & _). rewrite Hk at 2.
  rewrite wends_app; auto. intros E. rewrite <- drop_wnames, E in H. apply H. reflexivity.
Qed.

Lemma win_elements_canonical : forall s rn rest, split_root no_wsep s = (rn, rest) ->
  win_elements no_wsep (preferred rn ++ (if wstarts rest then [backslash] else []) ++ drop_wseps rest)
  = win_elements no_wsep s.
Proof.
  intros s rn rest H. unfold win_elements. rewrite (split_root_canonical s rn rest H), H.
  assert (Hpp : preferred (preferred rn) = preferred rn).
  { unfold preferred. rewrite map_map. apply map_ext. intros c. destruct (Ascii.eqb c slash) eqn:E; auto. rewrite E. auto. }
  assert (is_nil (preferred rn) = is_nil rn) as -> by (destruct rn; reflexivity). rewrite Hpp. f_equal.
  destruct (drop_wseps_split rest) as (k & _ & _ & _ & _ & Hd).
  set (D := drop_wseps rest) in *.
  assert (Hn : wnames ((if wstarts rest then [backslash] else []) ++ D) = wnames rest).
  { destruct (wstarts rest); [|apply drop_wnames].
    change ([backslash] ++ D) with (@nil ascii ++ backslash :: D).
    rewrite (wnames_app_sep [] backslash D) by reflexivity. apply drop_wnames. }
  rewrite Hn. f_equal.
  - destruct (wstarts rest); [reflexivity|]. cbn [app]. rewrite Hd. reflexivity.
  - f_equal. destruct (wnames rest) as [|n l] eqn:En; cbn [is_nil negb]; rewrite ?andb_false_r; auto.
    rewrite !andb_true_r. rewrite wends_app.
    + unfold D. rewrite drop_wends by congruence. reflexivity.
    + intros E. unfold D in E. rewrite <- drop_wnames, E in En. discriminate.
Qed.

(** Texts that report themselves. *)
Lemma win_text_root : forall s rn rest, split_root no_wsep s = (rn, rest) ->
  win_text no_wsep (preferred rn) = preferred rn.
Proof.
  intros s rn rest H. unfold win_text, win_elements.
  pose proof (split_root_canonical s rn rest H) as Hc.
  assert (Hr : split_root no_wsep (preferred rn) = (preferred rn, [])).
  { destruct s as [|a [|b r]]; cbn in H; try (injection H as <- <-; reflexivity).
    destruct (is_wsep a && Ascii.eqb a b && negb (is_nil (word r))) eqn:E1.
    - injection H as <- <-. apply andb_prop in E1. destruct E1 as [E1 E2]. apply andb_prop in E1. destruct E1 as [Ha Hb].
      apply Ascii.eqb_eq in Hb. subst b.
      assert (Hpa : (if Ascii.eqb a slash then backslash else a) = backslash)
        by (destruct (wsep_cases a Ha); subst; reflexivity).
      unfold preferred. cbn [map]. rewrite Hpa.
      change (map (fun c => if Ascii.eqb c slash then backslash else c) (word r)) with (preferred (word r)).
      rewrite preferred_plain by apply word_plain. cbn [split_root]. change (is_wsep backslash) with true.
      rewrite Ascii.eqb_refl. cbn [andb]. destruct (word_of_plain (word r) (word_plain r)) as [-> ->]. rewrite E2. reflexivity.
    - destruct (no_wsep a && Ascii.eqb b colon) eqn:E2; injection H as <- <-; [|reflexivity].
      apply andb_prop in E2. destruct E2 as [Ha Hb]. apply Ascii.eqb_eq in Hb. subst b.
      pose proof Ha as Ha'. unfold no_wsep in Ha'. apply negb_true_iff in Ha'.
      unfold preferred. cbn [map]. rewrite (plain_nosep a Ha'). cbn [split_root].
      change (Ascii.eqb colon slash) with false. cbn iota. rewrite Ha', Ha. reflexivity. }
  rewrite Hr.
  assert (Hpp : preferred (preferred rn) = preferred rn).
  { unfold preferred. rewrite map_map. apply map_ext. intros c. destruct (Ascii.eqb c slash) eqn:E; auto. rewrite E. auto. }
  destruct (preferred rn) as [|x l] eqn:E.
  - reflexivity.
  - cbn [is_nil app wstarts wends rev wnames wpieces filter negb andb]. exact Hpp.
Qed.

Lemma win_text_unrooted : forall t, wstarts t = false -> win_text no_wsep t = t.
Proof.
  intros t H. unfold win_text, win_elements. destruct (split_root no_wsep t) as [rn rest] eqn:E.
  destruct t as [|a t]; [cbn in E; injection E as <- <-; reflexivity|].
  pose proof (proj1 (wsplit (a :: t) rn rest ltac:(congruence) E)) as Hs. cbn in H.
  destruct rn as [|b rn]; cbn [is_nil app].
  - cbn in Hs. subst rest. cbn [wstarts]. rewrite H. cbn [app].
    destruct (wnames (a :: t)) as [|n [|m l]] eqn:En; cbn [is_nil negb app].
    + rewrite andb_false_r. reflexivity.
    + rewrite andb_true_r. destruct (wends (a :: t)) eqn:Ee; [reflexivity|].
      symmetry. apply single_name; auto.
    + reflexivity.
  - assert (Hrest : rest = [] \/ exists x l, (if wstarts rest then [[backslash]] else []) ++ wnames rest ++
       (if wends rest && negb (is_nil (wnames rest)) then [[]] else []) = x :: l).
    { destruct rest as [|y rest]; auto. right. cbn [wstarts]. destruct (is_wsep y) eqn:Ey; [eexists _, _; reflexivity|].
      destruct (wnames (y :: rest)) eqn:En; [|eexists _, _; reflexivity].
      apply wnames_none in En. cbn in En. rewrite Ey in En. discriminate. }
    destruct Hrest as [->|(x & l & ->)]; [|reflexivity].
    cbn [wstarts wends rev wnames wpieces filter negb andb is_nil app].
    rewrite app_nil_r in Hs. rewrite <- Hs. unfold preferred.
    destruct t as [|c r]; cbn in E.
    + discriminate.
    + rewrite H in E. cbn [andb] in E. unfold no_wsep in E. rewrite H in E. cbn in E.
      destruct (Ascii.eqb c colon) eqn:Ec; [|discriminate]. apply Ascii.eqb_eq in Ec. subst c. injection E as <- <- ->.
      cbn. rewrite (plain_nosep a H). reflexivity.
Qed.

Lemma fin_native : forall b p, win_text no_wsep (native p) = native p -> native (fin Windows b p) = native p.
Proof. intros b p H. unfold fin. destruct b; auto. fold (native p). rewrite win_native. exact H. Qed.

Lemma trail_nil : forall rest n, wnames rest = [] -> trail rest n = [].
Proof. intros. unfold trail. rewrite H. rewrite andb_false_r. reflexivity. Qed.

Lemma wtok_none : forall rest off, wnames rest = [] -> wtok off [] rest = [].
Proof. intros. apply wtok_seps, wnames_none. auto. Qed.

(** The three parts of a path, whatever the elision choices. *)
Lemma win_parts : forall E s rn rest, split_root no_wsep s = (rn, rest) ->
  native (root_name Windows E (split_components Windows s)) = preferred rn /\
  native (root_directory Windows E (split_components Windows s)) = (if wstarts rest then [backslash] else []) /\
  exists q, relative_path Windows E (split_components Windows s) = Ok q /\ native q = drop_wseps rest.
Proof.
  intros E s rn rest H.
  destruct s as [|a s'].
  { cbn in H. injection H as <- <-. unfold root_name, root_directory, relative_path. cbn.
    repeat split; try (apply fin_native; reflexivity). eexists. split; [reflexivity|]. apply fin_native. reflexivity. }
  remember (a :: s') as s eqn:Es. assert (Hne : s <> []) by congruence. clear a s' Es.
  destruct (wsplit s rn rest Hne H) as [Hs Hp].
  pose proof (win_text_root s rn rest H) as Htr.
  destruct (drop_wseps_split rest) as (k & Hk & Hks & Hk0 & Hk1 & Hd).
  pose proof (win_text_unrooted _ Hd) as Htd.
  assert (Htb : win_text no_wsep [backslash] = [backslash]) by reflexivity.
  assert (Hte : win_text no_wsep [] = []) by reflexivity.
  assert (Hlen : length rest = length k + length (drop_wseps rest)) by (rewrite Hk at 1; apply app_length).
  destruct (list_eq_dec str_eq_dec (wnames rest) []) as [En|En].
  - (* no names *)
    rewrite wtok_none, trail_nil, !app_nil_r in Hp by auto. unfold root_comps in Hp.
    assert (Hd0 : drop_wseps rest = []) by (apply drop_all, wnames_none; auto).
    rewrite Hd0. destruct rn as [|b rn]; cbn [is_nil app] in Hp.
    + destruct (wstarts rest) eqn:Ew.
      * rewrite Hp, trim_single. unfold root_name, root_directory, relative_path. cbn.
        repeat split; try (apply fin_native; reflexivity).
        eexists. split; [reflexivity|]. apply fin_native; reflexivity.
      * exfalso. rewrite (Hk0 eq_refl), Hd0 in Hk. cbn in Hk. subst rest. cbn in Hs. congruence.
    + destruct (wstarts rest) eqn:Ew; cbn [app] in Hp.
      * rewrite Hp, trim_other by (cbn; lia). unfold root_name, root_directory, relative_path.
        cbn [ptyp comps c_type ptype_eqb skip_root_name skip_root_dir].
        split; [|split].
        -- apply fin_native. exact Htr.
        -- apply fin_native. exact Htb.
        -- eexists. split; [reflexivity|]. apply fin_native. reflexivity.
      * rewrite Hp, trim_single. unfold root_name, root_directory, relative_path.
        cbn [ptyp comps c_type c_str ptype_eqb skip_root_name skip_root_dir pathname].
        split; [|split].
        -- apply fin_native. exact Htr.
        -- unfold preferred. cbn [map]. destruct (map _ rn) as [|y l]; [apply fin_native; reflexivity|].
           destruct (Ascii.eqb y colon); apply fin_native; reflexivity.
        -- eexists. split; [reflexivity|]. apply fin_native. reflexivity.
  - destruct (wtok_first rest (length rn) En) as (n & l & Hl). rewrite Hl in Hp.
    assert (Hsub : str_substr_from s (length rn + (length rest - length (drop_wseps rest))) = Ok (drop_wseps rest)).
    { unfold str_substr_from. rewrite (proj2 (Nat.leb_le _ _)) by (rewrite Hs, app_length; lia).
      f_equal. rewrite Hs.
      replace (rn ++ rest) with ((rn ++ k) ++ drop_wseps rest) by (rewrite <- app_assoc, <- Hk; reflexivity).
      apply skipn_exact. rewrite app_length. lia. }
    unfold root_comps in Hp. destruct rn as [|b rn]; cbn [is_nil app] in Hp.
    + destruct (wstarts rest) eqn:Ew; cbn [app] in Hp.
      * rewrite Hp, trim_other by (cbn; lia). unfold root_name, root_directory, relative_path.
        cbn [ptyp comps c_type c_pos c_str ptype_eqb skip_root_name skip_root_dir pathname].
        split; [|split].
        -- apply fin_native. reflexivity.
        -- apply fin_native. reflexivity.
        -- rewrite Hsub. eexists. split; [reflexivity|]. rewrite fin_native; rewrite win_native, Htd; auto.
      * destruct (l ++ trail rest (length s)) as [|c2 l2] eqn:Elt.
        -- rewrite Hp, trim_single. unfold root_name, root_directory, relative_path.
           cbn [ptyp comps c_type c_pos c_str ptype_eqb skip_root_name skip_root_dir pathname].
           assert (Hnd : n = drop_wseps rest).
           { rewrite (Hk0 eq_refl) in Hk. cbn in Hk. rewrite <- Hk.
             apply app_eq_nil in Elt. destruct Elt as [-> Ht].
             pose proof (wtok_names rest (length (@nil ascii)) [] eq_refl) as Hn. rewrite Hl in Hn. cbn [app map c_str] in Hn.
             symmetry. apply single_name; auto. unfold trail in Ht. rewrite <- Hn in Ht. cbn [is_nil negb] in Ht. rewrite andb_true_r in Ht.
             destruct (wends rest); [discriminate|reflexivity]. }
           split; [|split].
           ++ apply fin_native. reflexivity.
           ++ apply fin_native. reflexivity.
           ++ eexists. split; [reflexivity|]. rewrite fin_native; cbn [native pathname]; rewrite Hnd; auto.
        -- rewrite Hp, trim_other by (cbn; lia). unfold root_name, root_directory, relative_path.
           cbn [ptyp comps c_type c_pos c_str ptype_eqb skip_root_name skip_root_dir pathname].
           split; [|split].
           ++ apply fin_native. reflexivity.
           ++ apply fin_native. reflexivity.
           ++ rewrite Hsub. eexists. split; [reflexivity|]. rewrite fin_native; rewrite win_native, Htd; auto.
    + destruct (wstarts rest) eqn:Ew; cbn [app] in Hp.
      * rewrite Hp, trim_other by (cbn; lia). unfold root_name, root_directory, relative_path.
        cbn [ptyp comps c_type c_pos c_str ptype_eqb skip_root_name skip_root_dir pathname].
        split; [|split].
        -- apply fin_native. exact Htr.
        -- apply fin_native. reflexivity.
        -- rewrite Hsub. eexists. split; [reflexivity|]. rewrite fin_native; rewrite win_native, Htd; auto.
      * rewrite Hp, trim_other by (cbn; lia). unfold root_name, root_directory, relative_path.
        cbn [ptyp comps c_type c_pos c_str ptype_eqb skip_root_name skip_root_dir pathname].
        split; [|split].
        -- apply fin_native. exact Htr.
        -- apply fin_native. reflexivity.
        -- rewrite Hsub. eexists. split; [reflexivity|]. rewrite fin_native; rewrite win_native, Htd; auto.
Qed.

(** * C58 *)

(** A character other than a letter before a colon in second place. *)
Definition odd_drive (s : str) : bool :=
  match s with
  | a :: b :: _ => negb (is_wsep a) && negb (is_letter a) && Ascii.eqb b colon
  | _ => false
  end.

Lemma letter_no_wsep : forall a, is_letter a = true -> no_wsep a = true.
Proof. intros [[|] [|] [|] [|] [|] [|] [|] [|]]; vm_compute; congruence. Qed.

Lemma split_root_letters : forall s, odd_drive s = false -> split_root is_letter s = split_root no_wsep s.
Proof.
  intros [|a [|b r]] H; auto. cbn in *.
  destruct (is_wsep a && Ascii.eqb a b && negb (is_nil (word r))); auto.
  destruct (Ascii.eqb b colon); rewrite ?andb_false_r; auto. rewrite !andb_true_r in *.
  unfold no_wsep. pose proof (letter_no_wsep a) as Hl. unfold no_wsep in Hl.
  destruct (is_letter a); [rewrite Hl; auto|]. cbn in H. rewrite andb_true_r in H. rewrite H. reflexivity.
Qed.

(** Elements and text, for every text whose drive, if any, is a letter. *)
Theorem C58_elements_partial : forall s, odd_drive s = false ->
  map native (elems (split_components Windows s)) = win_elements is_letter s /\
  native (split_components Windows s) = win_text is_letter s.
Proof.
  intros s H. rewrite win_elems, win_native. unfold win_text, win_elements.
  rewrite split_root_letters by auto. auto.
Qed.

(** The same for every text, when any character but a separator is let stand before the colon. *)
Theorem C58_elements_any_drive : forall s,
  map native (elems (split_components Windows s)) = win_elements (fun c => negb (is_wsep c)) s /\
  native (split_components Windows s) = win_text (fun c => negb (is_wsep c)) s.
Proof. intros s. split; [apply win_elems|apply win_native]. Qed.

Lemma wnames_no_backslash : forall s, ~ In [backslash] (wnames s).
Proof.
  intros s H. apply filter_In in H. destruct H as [H _].
  induction s as [|c r IH]; cbn in H.
  - destruct H as [H|[]]; discriminate.
  - destruct (is_wsep c) eqn:Hc.
    + destruct H as [H|H]; [discriminate|auto].
    + destruct (wpieces r) as [|h t] eqn:E; cbn in H.
      * destruct H as [H|[]]. injection H as ->. discriminate.
      * destruct H as [H|H]; [injection H as -> _; discriminate|]. apply IH. right. exact H.
Qed.

(** Any character before a colon is taken for a drive: the elements are wrong whenever something follows. *)
Theorem C58_drive_letter_refuted : forall a r, is_wsep a = false -> is_letter a = false -> r <> [] ->
  map native (elems (split_components Windows (a :: colon :: r))) <> win_elements is_letter (a :: colon :: r).
Proof.
  intros a r Ha Hl Hr H. rewrite win_elems in H. unfold win_elements in H. cbn [split_root] in H.
  rewrite Ha in H. cbn [andb] in H. unfold no_wsep in H. rewrite Ha, Hl in H.
  cbn [negb andb] in H. rewrite Ascii.eqb_refl in H. cbn [is_nil app wstarts] in H. rewrite Ha in H. cbn [app] in H.
  destruct r as [|c r]; [congruence|]. destruct (is_wsep c) eqn:Hc; cbn [wstarts] in H; rewrite Hc in H; cbn [app] in H.
  - change (a :: colon :: c :: r) with ([a; colon] ++ c :: r) in H.
    rewrite wnames_app_sep in H; [|auto|unfold wplain, no_wsep; cbn; rewrite Ha; reflexivity].
    rewrite (wnames_plain [a; colon]) in H; [|congruence|unfold wplain, no_wsep; cbn; rewrite Ha; reflexivity].
    cbn [app] in H. injection H as _ H.
    pose proof (wnames_no_backslash r) as Hn. destruct (wnames r) as [|n l] eqn:En; cbn [app] in H.
    + destruct (wends (a :: colon :: c :: r) && true); [injection H as H; discriminate|discriminate].
    + injection H as H _. apply Hn. left. auto.
  - assert (Hw : hd_error (wnames (a :: colon :: c :: r)) = Some (a :: colon :: c :: word r)).
    { pose proof (word_after r) as Haw. destruct (after_word r) as [|x t] eqn:Et.
      - rewrite app_nil_r in Haw. rewrite <- Haw at 1. rewrite wnames_plain; [reflexivity|congruence|].
        pose proof (word_plain r) as Hp. unfold wplain, no_wsep in *. cbn. rewrite Ha, Hc. exact Hp.
      - pose proof (after_word_starts r) as Hst. rewrite Et in Hst. cbn in Hst.
        rewrite <- Haw at 1. change (a :: colon :: c :: word r ++ x :: t) with ((a :: colon :: c :: word r) ++ x :: t).
        assert (wplain (a :: colon :: c :: word r)).
        { pose proof (word_plain r) as Hp. unfold wplain, no_wsep in *. cbn. rewrite Ha, Hc. exact Hp. }
        rewrite wnames_app_sep, (wnames_plain (a :: colon :: c :: word r)) by (auto; congruence). reflexivity. }
    destruct (wnames (a :: colon :: c :: r)) as [|n l]; [discriminate|]. injection Hw as ->.
    cbn [app] in H. unfold preferred in H. cbn [map] in H. injection H as H. discriminate.
Qed.

(** Root name, root directory and relative path of every text, whatever the copy elision choices:
    the text is the root name, a run of separators and the relative path; the
    root directory is reported when the run is not empty. *)
Theorem C58_parts : forall E s, let p := split_components Windows s in
  exists rn seps q,
    s = rn ++ seps ++ native q /\
    rn = fst (split_root (fun c => negb (is_wsep c)) s) /\
    forallb is_wsep seps = true /\ wstarts (native q) = false /\
    native (root_name Windows E p) = preferred rn /\
    native (root_directory Windows E p) = (if is_nil seps then [] else [backslash]) /\
    relative_path Windows E p = Ok q.
Proof.
  intros E s p. change (fun c => negb (is_wsep c)) with no_wsep.
  destruct (split_root no_wsep s) as [rn rest] eqn:H.
  destruct (win_parts E s rn rest H) as (H1 & H2 & q & H3 & H4).
  destruct (drop_wseps_split rest) as (k & Hk & Hks & Hk0 & Hk1 & Hd).
  exists rn, k, q. rewrite H4, <- Hk. split; [|split; [|split; [|split; [|split; [|split]]]]]; auto.
  - destruct s as [|a s]; [cbn in H; injection H as <- <-; reflexivity|].
    apply (wsplit (a :: s) rn rest); auto. congruence.
  - fold p in H2. rewrite H2. destruct (wstarts rest).
    + destruct k; [exfalso; apply Hk1; auto|reflexivity].
    + rewrite Hk0 by auto. reflexivity.
Qed.

(** Put together, the three parts are a text with the same elements as the original. *)
Theorem C58_recompose : forall E s, let p := split_components Windows s in
  exists q, relative_path Windows E p = Ok q /\
    map native (elems (split_components Windows
      (native (root_name Windows E p) ++ native (root_directory Windows E p) ++ native q)))
    = map native (elems p).
Proof.
  intros E s p. destruct (split_root no_wsep s) as [rn rest] eqn:H.
  destruct (win_parts E s rn rest H) as (H1 & H2 & q & H3 & H4).
  exists q. split; [exact H3|]. unfold p. rewrite H1, H2, H4, !win_elems.
  apply win_elements_canonical. auto.
Qed.

(** They are the text itself when it is written with backslashes and one of them at most follows the
    root name; [C58_recompose_refuted] shows texts for which this fails. *)
Theorem C58_recompose_partial : forall E s, let p := split_components Windows s in
  let rest := snd (split_root (fun c => negb (is_wsep c)) s) in
  forallb (fun c => negb (Ascii.eqb c slash)) s = true ->
  wstarts rest && wstarts (tl rest) = false ->
  exists q, relative_path Windows E p = Ok q /\
    native (root_name Windows E p) ++ native (root_directory Windows E p) ++ native q = native p.
Proof.
  intros E s p rest Hsl Hred. unfold rest in Hred. change (fun c => negb (is_wsep c)) with no_wsep in Hred.
  destruct (split_root no_wsep s) as [rn rest'] eqn:H. cbn [snd] in Hred. clear rest.
  destruct (win_parts E s rn rest' H) as (H1 & H2 & q & H3 & H4).
  exists q. split; [exact H3|]. unfold p. rewrite H1, H2, H4.
  assert (Hs : s = rn ++ rest').
  { destruct s as [|a s]; [cbn in H; injection H as <- <-; reflexivity|].
    apply (wsplit (a :: s) rn rest'); auto. congruence. }
  assert (Hpr : forall t : str, forallb (fun c => negb (Ascii.eqb c slash)) t = true -> preferred t = t).
  { induction t as [|c t IH]; intros Ht; auto. cbn in Ht. apply andb_prop in Ht. destruct Ht as [Hc Ht].
    apply negb_true_iff in Hc. cbn. rewrite Hc. f_equal. auto. }
  pose proof Hsl as Hsl'. rewrite Hs, forallb_app in Hsl'. apply andb_prop in Hsl'. destruct Hsl' as [Hrn Hrest].
  rewrite (Hpr rn Hrn).
  assert (Hr : (if wstarts rest' then [backslash] else []) ++ drop_wseps rest' = rest').
  { destruct rest' as [|c r]; [reflexivity|]. cbn [wstarts drop_wseps tl] in *. destruct (is_wsep c) eqn:Hc; [|reflexivity].
    cbn in Hrest. apply andb_prop in Hrest. destruct Hrest as [Hc' _].
    destruct (wsep_cases c Hc) as [-> | ->]; [discriminate|]. cbn [app andb] in *. f_equal.
    destruct r as [|d r]; [reflexivity|]. cbn in *. rewrite Hred. reflexivity. }
  etransitivity; [exact (f_equal (app rn) Hr)|]. rewrite <- Hs, win_native. unfold win_text.
  destruct (win_elements no_wsep s) as [|x [|y l]] eqn:Ee; auto.
  (* one element *)
  unfold win_elements in Ee. rewrite H in Ee. rewrite Hs.
  destruct rn as [|a rn]; cbn [is_nil app] in Ee.
  - cbn [app]. destruct (wstarts rest') eqn:Ew; cbn [app] in Ee.
    + injection Ee as <- Ee. apply app_eq_nil in Ee. destruct Ee as [En _].
      rewrite <- Hr. rewrite drop_all by (apply wnames_none; auto). reflexivity.
    + destruct (wnames rest') as [|n [|m l]] eqn:En; cbn in Ee; rewrite ?andb_false_r in Ee; try discriminate.
      rewrite andb_true_r in Ee. destruct (wends rest') eqn:Ewe; [discriminate|]. injection Ee as <-.
      apply single_name; auto.
  - injection Ee as Ex Ee.
    destruct (wstarts rest') eqn:Ew; [discriminate|]. cbn [app] in Ee. apply app_eq_nil in Ee. destruct Ee as [En _].
    assert (rest' = []) as -> by (rewrite <- Hr; cbn [app]; apply drop_all, wnames_none; auto).
    rewrite app_nil_r, <- Ex. symmetry. exact (Hpr (a :: rn) Hrn).
Qed.

(** With two separators behind the drive the parts never give the text back. *)
Theorem C58_recompose_refuted : forall E a c d t q, is_wsep a = false -> is_wsep c = true -> is_wsep d = true ->
  let p := split_components Windows (a :: colon :: c :: d :: t) in
  relative_path Windows E p = Ok q ->
  native (root_name Windows E p) ++ native (root_directory Windows E p) ++ native q <> native p.
Proof.
  intros E a c d t q Ha Hc Hd p Hq Heq.
  assert (H : split_root no_wsep (a :: colon :: c :: d :: t) = ([a; colon], c :: d :: t)).
  { cbn [split_root]. rewrite Ha. unfold no_wsep. rewrite Ha. reflexivity. }
  destruct (win_parts E _ _ _ H) as (H1 & H2 & q' & H3 & H4). fold p in H1, H2, H3.
  rewrite Hq in H3. injection H3 as <-. rewrite H1, H2, H4 in Heq. unfold p in Heq. rewrite win_native in Heq.
  unfold win_text, win_elements in Heq. rewrite H in Heq. cbn [wstarts is_nil app] in Heq. rewrite Hc in Heq.
  cbn [app] in Heq. apply (f_equal (@length ascii)) in Heq.
  cbn [drop_wseps] in Heq. rewrite Hc, Hd in Heq. rewrite !app_length in Heq. cbn in Heq.
  destruct (drop_wseps_split t) as (k & Hk & _). rewrite Hk in Heq at 2. rewrite app_length in Heq. lia.
Qed.

(** When [components_] grows, [std::vector] moves the components into new storage with the move
    constructor of class path (fs_path.h:72-75), which splits the text again; this is what becomes of
    one component. The model of SplitComponents (PathModel.v) leaves this out. *)
Definition relocate (c : comp) : path := split_components Windows (c_str c).

(** Moving components does not change the text of any element of any path. *)
Theorem C58_relocation_texts : forall s,
  map native (map relocate (comps (split_components Windows s))) =
  map c_str (comps (split_components Windows s)).
Proof.
  intros s. destruct s as [|a s']; [reflexivity|]. remember (a :: s') as s eqn:Es.
  rewrite wsplit_all by congruence. clear a s' Es.
  assert (Hall : Forall (fun c => win_text no_wsep (c_str c) = c_str c) (all_comps s)).
  { unfold all_comps. destruct (split_root no_wsep s) as [rn rest] eqn:H.
    apply Forall_app. split; [|apply Forall_app; split].
    - unfold root_comps. apply Forall_app. split.
      + destruct (is_nil rn); constructor; [|constructor]. exact (win_text_root s rn rest H).
      + destruct (wstarts rest); repeat constructor.
    - apply Forall_forall. intros c Hc.
      assert (Hn : In (c_str c) (wnames rest)).
      { pose proof (wtok_names rest (length rn) [] eq_refl) as Hw. cbn [app] in Hw. rewrite <- Hw.
        apply in_map. exact Hc. }
      apply win_text_unrooted. apply filter_In in Hn. destruct Hn as [Hn _].
      revert Hn. generalize (c_str c). clear. induction rest as [|x r IH]; intros t Ht; cbn in Ht.
      + destruct Ht as [<-|[]]. reflexivity.
      + destruct (is_wsep x) eqn:Hx.
        * destruct Ht as [<-|Ht]; [reflexivity|auto].
        * pose proof (wpieces_nonnil r). destruct (wpieces r) as [|h l]; [congruence|].
          destruct Ht as [<-|Ht]; [cbn; auto|]. apply IH. right. auto.
    - unfold trail. destruct (_ && _); repeat constructor. }
  assert (Hc : forall l, Forall (fun c => win_text no_wsep (c_str c) = c_str c) l ->
     map native (map relocate l) = map c_str l).
  { induction 1 as [|c l Hc Hl IH]; auto. cbn [map]. rewrite IH. f_equal. unfold relocate. rewrite win_native. auto. }
  destruct (all_comps s) as [|c [|d l]]; try reflexivity. rewrite trim_other by (cbn; lia). apply Hc. exact Hall.
Qed.

(** It does change what sort of element a name with a colon is. *)
Theorem C58_relocation_types_refuted : exists s,
  map c_type (comps (split_components Windows s)) = [FILENAME; FILENAME; FILENAME] /\
  map ptyp (map relocate (comps (split_components Windows s))) = [FILENAME; ROOT_NAME; FILENAME].
Proof. exists (lit "a\c:\b"). split; vm_compute; reflexivity. Qed.

(** On POSIX moving the components changes nothing at all, so leaving it out of the model is exact there. *)
Theorem posix_relocation : forall s,
  map (fun c => split_components Posix (c_str c)) (comps (split_components Posix s)) =
  map comp_path (comps (split_components Posix s)).
Proof.
  intros s. destruct s as [|a s']; [reflexivity|]. remember (a :: s') as s eqn:Es.
  rewrite mkpath_eq by congruence. clear a s' Es.
  assert (Hall : forall c, In c (mkcomps s) -> split_components Posix (c_str c) = comp_path c).
  { intros c Hc. unfold mkcomps in Hc. apply in_app_or in Hc. destruct Hc as [Hc|Hc].
    - unfold rootc in Hc. destruct (starts_slash s); [|destruct Hc]. destruct Hc as [<-|[]]. reflexivity.
    - apply in_app_or in Hc. destruct Hc as [Hc|Hc].
      + pose proof (tok_types s 0 [] c Hc) as Ht.
        assert (Hn : In (c_str c) (names s)) by (rewrite <- tok_names0; apply in_map; auto).
        destruct c as [n ty pos]. cbn [c_str c_type] in *. subst ty. unfold comp_path. cbn [c_str c_type].
        pose proof (names_all s) as Ha. rewrite Forall_forall in Ha. apply mkpath_name. apply Ha. exact Hn.
      + unfold trailc in Hc. destruct (_ && _); [|destruct Hc]. destruct Hc as [<-|[]]. reflexivity. }
  destruct (mkcomps s) as [|c [|d l]] eqn:E; try reflexivity.
  cbn [trim comps]. apply map_ext_in. exact Hall.
Qed.

(** Cases that meet the hypotheses: a drive, a host written with slashes, mixed and repeated
    separators, a trailing separator. *)
Example C58_example :
  odd_drive (lit "c:\dir/file.txt") = false /\
  win_elements is_letter (lit "c:\dir/file.txt") = [lit "c:"; lit "\"; lit "dir"; lit "file.txt"] /\
  win_elements is_letter (lit "//host//share\x\") = [lit "\\host"; lit "\"; lit "share"; lit "x"; []] /\
  win_elements is_letter (lit "/\host") = [lit "\"; lit "host"] /\
  win_elements is_letter (lit "c:x") = [lit "c:"; lit "x"] /\
  win_text is_letter (lit "///") = lit "\" /\
  forallb (fun c => negb (Ascii.eqb c slash)) (lit "\\host\share\x") = true /\
  wstarts (snd (split_root (fun c => negb (is_wsep c)) (lit "\\host\share\x"))) = true /\
  wstarts (tl (snd (split_root (fun c => negb (is_wsep c)) (lit "\\host\share\x")))) = false /\
  is_letter "1"%char = false /\
  map native (elems (split_components Windows (lit "1:x"))) = [lit "1:"; lit "x"] /\
  win_elements is_letter (lit "1:x") = [lit "1:x"] /\
  native (root_name Windows (Elision true true true) (split_components Windows (lit "//host/x"))) = lit "\\host".
Proof. vm_compute. repeat split. Qed.

Print Assumptions C58_elements_partial.
Print Assumptions C58_elements_any_drive.
Print Assumptions C58_drive_letter_refuted.
Print Assumptions C58_parts.
Print Assumptions C58_recompose.
Print Assumptions C58_recompose_partial.
Print Assumptions C58_recompose_refuted.
Print Assumptions C58_relocation_texts.
Print Assumptions C58_relocation_types_refuted.
Print Assumptions posix_relocation.
