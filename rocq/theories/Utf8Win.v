(** C96 in whole histories, on both systems, and where an elided copy breaks it. *)
From Coq Require Import Ascii String Bool Arith NArith ZArith Lia List.
From Verif Require Import Str StrProofs PathModel PathReach AliasModel AliasProps AliasReach PathSafe Utf8 Utf8Props.
Import ListNotations.

(** * The condition every path meets *)

(** A name that is not empty stands in the text at its position, up to the kind of separators. The text is well-formed from there
    on, and what stands before is an ASCII character. *)
Definition placed (w : platform) (t : str) (c : comp) : Prop :=
  c_type c = FILENAME -> c_str c <> [] -> exists a b, t = a ++ b /\ length a = c_pos c /\ well_formed b /\
    (a = [] \/ exists a' x, a = a' ++ [x] /\ is_ascii x = true) /\
    to_preferred w (firstn (length (c_str c)) b) = to_preferred w (c_str c).

Definition full (c : comp) : Prop := c_str c <> [].

Record clean (w : platform) (p : path) : Prop := Clean {
  u_text : well_formed (pathname p);
  u_strs : Forall (fun c => well_formed (c_str c)) (comps p);
  u_place : Forall (placed w (pathname p)) (comps p);
  u_full : forall l c, comps p = l ++ [c] -> Forall full l;
  u_pair : forall l c, comps p = l ++ [c] -> c_str c = [] -> c_type c = FILENAME /\
    (exists l' d, l = l' ++ [d] /\ c_type d = FILENAME) /\ exists t x, pathname p = t ++ [x] /\ is_ascii x = true;
  u_root : forall c r, comps p = c :: r -> c_type c = ROOT_NAME -> well_formed (skipn (length (c_str c)) (pathname p)) }.

Definition good (w : platform) (p : path) : Prop := sound w p /\ clean w p.

(** * SplitComponents *)

Lemma sep_ascii : forall w c, is_sep w c = true -> is_ascii c = true.
Proof. intros [] c H; cbn in H; [|apply orb_prop in H as [H|H]]; apply Ascii.eqb_eq in H; subst c; reflexivity. Qed.
Lemma wf_to_preferred : forall w s, well_formed s -> well_formed (to_preferred w s).
Proof. intros [] s H; [exact H|apply wf_preferred, H]. Qed.

Lemma clean_plain : forall w t ty, well_formed t -> clean w (Path t [] ty).
Proof. intros w t ty H. split; cbn [pathname comps]; auto; try discriminate; intros [|? ?] ? Hx; discriminate Hx. Qed.
Lemma clean_default : forall w, clean w path_default.
Proof. intros w. apply clean_plain, wf_nil. Qed.
Lemma clean_in : forall w p c, clean w p -> In c (comps p) -> clean w (comp_path c).
Proof. intros w p c H Hc. pose proof (u_strs _ _ H) as Hs. rewrite Forall_forall in Hs. apply clean_plain, Hs, Hc. Qed.

(** Where the scan may start a name. *)
Definition start_at (s : str) (b : nat) : Prop :=
  well_formed (skipn b s) /\ (b = 0 \/ exists a x, firstn b s = a ++ [x] /\ is_ascii x = true).
Definition fine (w : platform) (s : str) (c : comp) : Prop := well_formed (c_str c) /\ full c /\ placed w s c.

Lemma name_fine : forall w s b n rest, start_at s b -> b < n -> skipn n s = rest -> n <= length s ->
  match rest with c :: _ => is_sep w c = true | [] => True end -> fine w s (filename_comp s b (n - b)).
Proof.
  intros w s b n rest [H1 H2] Hb Hr Hn Hsep. unfold fine, filename_comp, full, placed, substr. cbn [c_str c_type c_pos].
  assert (Hcut : skipn b s = firstn (n - b) (skipn b s) ++ rest).
  { rewrite <- (firstn_skipn (n - b) (skipn b s)) at 1. rewrite skipn_add. replace (b + (n - b)) with n by lia. rewrite Hr. reflexivity. }
  assert (Hlen : length (firstn (n - b) (skipn b s)) = n - b) by (rewrite firstn_length, skipn_length; lia).
  split; [|split].
  - rewrite Hcut in H1. apply (wf_cut _ rest) in H1; [apply H1|]. destruct rest as [|c r]; auto. apply ascii_lead, (sep_ascii w), Hsep.
  - intros Hx. rewrite Hx in Hlen. cbn in Hlen. lia.
  - intros _ _. exists (firstn b s), (skipn b s). split; [symmetry; apply firstn_skipn|]. split; [rewrite firstn_length; lia|]. split; [exact H1|]. split.
    + destruct H2 as [->|H2]; [left; reflexivity|right; exact H2].
    + rewrite Hlen. reflexivity.
Qed.

Lemma start_after : forall w s n c r, well_formed s -> skipn n s = c :: r -> is_sep w c = true -> start_at s (S n).
Proof.
  intros w s n c r Hs Hn Hc. assert (Hcut : s = firstn n s ++ c :: r) by (rewrite <- Hn; symmetry; apply firstn_skipn).
  assert (Hsk : skipn (S n) s = r) by (replace (S n) with (n + 1) by lia; rewrite <- skipn_add, Hn; reflexivity).
  assert (Hlen : n < length s). { assert (length (skipn n s) = S (length r)) by (rewrite Hn; reflexivity). rewrite skipn_length in H. lia. }
  pose proof (sep_ascii _ _ Hc) as Ha. split.
  - rewrite Hsk. rewrite Hcut in Hs. apply (wf_split _ c r Ha Hs).
  - right. exists (firstn n s), c. split; [|exact Ha].
    rewrite Hcut at 1. rewrite firstn_app, firstn_length, firstn_firstn. replace (Nat.min (S n) n) with n by lia.
    replace (S n - Nat.min n (length s)) with 1 by lia. reflexivity.
Qed.

Lemma skipn_next : forall (s : str) n c r, skipn n s = c :: r -> skipn (S n) s = r.
Proof. intros s n c r H. replace (S n) with (n + 1) by lia. rewrite <- skipn_add, H. reflexivity. Qed.

Lemma scan_fine : forall w s rest pos back acc acc' back' pos', scan w s rest pos back acc = (acc', back', pos') ->
  well_formed s -> skipn pos s = rest -> back <= pos -> pos <= length s -> start_at s back -> Forall (fine w s) acc ->
  start_at s back' /\ back' <= pos' /\ pos' = length s /\ Forall (fine w s) acc'.
Proof.
  intros w s rest. induction rest as [|c r IH]; intros pos back acc acc' back' pos' H Hs Hr Hb Hp Hst Hf; cbn [scan] in H.
  - injection H as <- <- <-. split; [exact Hst|]. split; [exact Hb|]. split; [|exact Hf].
    assert (Hl : length (skipn pos s) = 0) by (rewrite Hr; reflexivity). rewrite skipn_length in Hl. lia.
  - assert (Hlt : pos < length s). { assert (Hl : length (skipn pos s) = S (length r)) by (rewrite Hr; reflexivity). rewrite skipn_length in Hl. lia. }
    destruct (is_sep w c) eqn:Es.
    + eapply IH in H; eauto; try lia.
      * eapply skipn_next; eauto.
      * eapply start_after; eauto.
      * destruct (back =? pos) eqn:Eb; auto. apply Nat.eqb_neq in Eb. apply Forall_app. split; auto. constructor; [|constructor].
        eapply name_fine; eauto; try lia.
    + eapply IH in H; eauto; try lia. eapply skipn_next; eauto.
Qed.

Lemma clean_trim : forall w s l ty, well_formed s -> Forall (fine w s) l ->
  (forall c r, l = c :: r -> c_type c = ROOT_NAME -> well_formed (skipn (length (c_str c)) s)) -> clean w (trim (Path s l ty)).
Proof.
  intros w s l ty Hs Hf Hr. unfold trim. cbn [comps].
  assert (Hg : clean w (Path s l ty)).
  { split; cbn [pathname comps]; auto.
    - eapply Forall_impl; [|exact Hf]. intros c Hc. apply Hc.
    - eapply Forall_impl; [|exact Hf]. intros c Hc. apply Hc.
    - intros a c ->. apply Forall_app in Hf as [Hf _]. eapply Forall_impl; [|exact Hf]. intros x Hx. apply Hx.
    - intros a c -> He. apply Forall_app in Hf as [_ Hf]. inversion Hf as [|? ? Hx]; subst. exfalso. apply Hx; auto. }
  destruct l as [|c [|d r]]; auto. inversion Hf as [|? ? Hc]; subst. apply clean_plain, Hc.
Qed.

Lemma last_sep : forall w (s : str), match last (map Some s) None with Some c => is_sep w c | None => false end = true ->
  exists t x, s = t ++ [x] /\ is_ascii x = true.
Proof.
  intros w s H. destruct (snoc_cases _ s) as [->|(t & x & ->)]; [discriminate|]. rewrite map_app in H. cbn [map] in H. rewrite last_last in H.
  exists t, x. split; [reflexivity|eapply sep_ascii; exact H].
Qed.

Lemma clean_tail : forall w s pos cs, well_formed s -> pos <= length s -> start_at s pos -> Forall (fine w s) cs ->
  (forall c r, cs = c :: r -> c_type c = ROOT_NAME -> well_formed (skipn (length (c_str c)) s)) ->
  clean w (split_tail w s pos cs).
Proof.
  intros w s pos cs Hs Hp Hst Hf Hr. unfold split_tail.
  destruct (scan w s (skipn pos s) pos pos cs) as [[acc back] pos'] eqn:E.
  assert (Hacc : exists ns, acc = cs ++ ns /\ Forall (fun c => c_type c = FILENAME) ns).
  { clear - E. revert E. generalize (skipn pos s) as rest. intros rest. generalize pos at 2 as b. intros b. revert pos b cs.
    induction rest as [|c r IH]; intros pos b cs E; cbn [scan] in E; [injection E as <- <- <-; exists []; rewrite app_nil_r; auto|].
    destruct (is_sep w c); [|eapply IH; eauto]. apply IH in E as (ns & -> & Hn).
    destruct (b =? pos); [eauto|]. exists (filename_comp s b (pos - b) :: ns). rewrite <- app_assoc. split; auto. }
  apply scan_fine in E as (A & B & C & D); auto; try lia. subst pos'. destruct Hacc as (ns & Hacc & Hns).
  assert (Hroot : forall l x r, acc ++ l = x :: r -> (forall y, In y l -> c_type y = FILENAME) -> c_type x = ROOT_NAME -> well_formed (skipn (length (c_str x)) s)).
  { intros l x r Hx Hl Hrn. subst acc. destruct cs as [|c0 cs].
    - exfalso. assert (Hin : In x (ns ++ l)) by (cbn in Hx; rewrite Hx; left; reflexivity). apply in_app_iff in Hin as [Hin|Hin].
      + rewrite Forall_forall in Hns. specialize (Hns x Hin). congruence.
      + specialize (Hl x Hin). congruence.
    - cbn in Hx. injection Hx as -> Hx. eapply Hr; eauto. }
  destruct (back =? length s) eqn:Eb; cbn [negb].
  - assert (Hplain : clean w (trim (Path s acc MULTI))).
    { apply clean_trim; auto. intros c r Hc. apply (Hroot [] c r); [rewrite app_nil_r; exact Hc|intros y []]. }
    destruct (match last (map Some s) None with Some c => is_sep w c | None => false end) eqn:Els; [|exact Hplain].
    destruct (snoc_cases _ acc) as [Ea|(l & d & Ea)]; rewrite Ea in *; [exact Hplain|]. rewrite map_app. cbn [map]. rewrite last_last.
    destruct (ptype_eqb (c_type d) FILENAME) eqn:Ed; [|exact Hplain].
    assert (Hd : c_type d = FILENAME) by (destruct (c_type d); try discriminate Ed; reflexivity).
    unfold trim. cbn [comps]. destruct ((l ++ [d]) ++ [Comp [] FILENAME (length s)]) as [|c1 [|c2 r2]] eqn:E3.
    { destruct l; discriminate E3. } { destruct l as [|? [|? ?]]; discriminate E3. } rewrite <- E3.
    split; cbn [pathname comps]; auto.
    + apply Forall_app. split; [eapply Forall_impl; [|exact D]; intros x Hx; apply Hx|constructor; [apply wf_nil|constructor]].
    + apply Forall_app. split; [eapply Forall_impl; [|exact D]; intros x Hx; apply Hx|constructor; [|constructor]]. intros _ Hx. cbn in Hx. congruence.
    + intros a c Hx. apply snoc_inv in Hx as [<- _]. eapply Forall_impl; [|exact D]. intros x Hx. apply Hx.
    + intros a c Hx _. apply snoc_inv in Hx as [<- <-]. split; [reflexivity|]. split; [exists l, d; auto|]. eapply last_sep; exact Els.
    + intros c r Hx Hc. apply (Hroot [Comp [] FILENAME (length s)] c r); auto. intros y [<-|[]]; reflexivity.
  - apply Nat.eqb_neq in Eb. apply clean_trim; auto.
    + apply Forall_app. split; auto. constructor; [|constructor]. apply (name_fine w s back (length s) []); auto; try lia. apply skipn_all.
    + intros c r Hx. apply (Hroot [filename_comp s back (length s - back)] c r); auto. intros y [<-|[]]; reflexivity.
Qed.

Lemma start_0 : forall s, well_formed s -> start_at s 0.
Proof. intros s H. split; [exact H|left; reflexivity]. Qed.

Lemma dir_fine : forall w s n c r, skipn n s = c :: r -> is_sep w c = true -> fine w s (root_dir_comp w s n).
Proof.
  intros w s n c r Hn Hc. unfold fine, full, placed, root_dir_comp, substr. cbn [c_str c_type]. rewrite Hn. cbn [firstn].
  split; [|split; [destruct w; discriminate|discriminate]]. apply wf_to_preferred, wf_ascii. cbn. rewrite (sep_ascii _ _ Hc). reflexivity.
Qed.
(** A root name of [n] bytes, the rest of the text being well-formed. *)
Lemma root_fine : forall w s n, well_formed s -> well_formed (skipn n s) -> 0 < n -> s <> [] -> fine w s (root_name_comp w s n).
Proof.
  intros w s n Hs Hn H0 Hne. unfold fine, full, placed, root_name_comp, substr. cbn [c_str c_type skipn].
  split; [|split; [destruct n; [lia|]; destruct s; [congruence|]; destruct w; discriminate|discriminate]].
  apply wf_to_preferred, (wf_front _ (skipn n s)); [rewrite firstn_skipn; exact Hs|exact Hn].
Qed.
Lemma root_skip : forall w s n, n <= length s -> length (c_str (root_name_comp w s n)) = n.
Proof. intros w s n Hn. unfold root_name_comp, substr. cbn [c_str skipn]. rewrite length_preferred, firstn_length. lia. Qed.

Lemma clean_rooted : forall w c r, well_formed (c :: r) -> is_sep w c = true -> clean w (split_rooted w (c :: r)).
Proof.
  intros w c r Hs Hc. assert (Hd : fine w (c :: r) (root_dir_comp w (c :: r) 0)) by (eapply dir_fine; [reflexivity|exact Hc]).
  assert (Hr : forall x t, [root_dir_comp w (c :: r) 0] = x :: t -> c_type x = ROOT_NAME -> well_formed (skipn (length (c_str x)) (c :: r))).
  { intros x t Hx Ht. injection Hx as <- <-. discriminate Ht. }
  unfold split_rooted. destruct (forallb _ _); [apply clean_trim; auto|]. apply clean_tail; auto; [cbn; lia|].
  eapply start_after; [exact Hs|reflexivity|exact Hc].
Qed.

Theorem clean_split : forall w s, well_formed s -> clean w (split_components w s).
Proof.
  intros w s Hs. unfold split_components. destruct s as [|c0 s1]; [apply clean_plain, wf_nil|].
  assert (Hn : clean w (split_tail w (c0 :: s1) 0 [])) by (apply clean_tail; auto; [lia|apply start_0, Hs|discriminate]).
  destruct (is_sep w c0) eqn:E0.
  - pose proof (clean_rooted w c0 s1 Hs E0) as Hroot. destruct w; [exact Hroot|]. destruct s1 as [|c1 [|c2 r]]; auto.
    destruct (Ascii.eqb c1 c0); auto. destruct (is_sep Windows c2) eqn:E2; cbn [negb].
    + apply clean_tail; auto; [lia|apply start_0, Hs| |].
      * constructor; [eapply dir_fine; [reflexivity|exact E0]|constructor].
      * intros x t Hx Ht. injection Hx as <- <-. discriminate Ht.
    + set (s := c0 :: c1 :: c2 :: r) in *. change (skipn 3 s) with r. destruct (find_sep_spec Windows r 3) as (A & B & C).
      set (pos := find_sep Windows r 3) in *. assert (Hlen : length s = 3 + length r) by reflexivity.
      assert (Hcut : pos < length s -> exists c t, skipn pos s = c :: t /\ is_sep Windows c = true).
      { intros Hp. destruct C as (c & t & C1 & C2); [lia|]. exists c, t. split; auto. replace pos with (3 + (pos - 3)) by lia. rewrite <- skipn_add. exact C1. }
      assert (Hw : well_formed (skipn pos s)).
      { destruct (Nat.lt_ge_cases pos (length s)) as [Hp|Hp]; [|rewrite skipn_all2 by lia; apply wf_nil].
        destruct (Hcut Hp) as (c & t & Hk & Hc). rewrite <- (firstn_skipn pos s) in Hs. apply (wf_cut _ (skipn pos s)) in Hs; [apply Hs|].
        rewrite Hk. apply ascii_lead, (sep_ascii Windows), Hc. }
      assert (Hrt : forall l x t, root_name_comp Windows s pos :: l = x :: t -> c_type x = ROOT_NAME -> well_formed (skipn (length (c_str x)) s)).
      { intros l x t Hx _. injection Hx as <- _. rewrite root_skip by lia. exact Hw. }
      destruct (pos <? length s) eqn:Ep.
      * apply Nat.ltb_lt in Ep. destruct (Hcut Ep) as (c & t & Hk & Hc). rewrite (tail_sep Windows s pos _ c t Hk Hc).
        apply clean_tail; auto; [eapply start_after; eauto| |apply Hrt].
        constructor; [apply root_fine; auto; [lia|discriminate]|]. constructor; [eapply dir_fine; eauto|constructor].
      * apply Nat.ltb_ge in Ep. assert (Hp : pos = length s) by lia. rewrite Hp. clear Hcut. unfold split_tail. rewrite skipn_all. cbn [scan].
        rewrite Nat.eqb_refl. cbn [negb map last].
        assert (Hx : clean Windows (trim (Path s [root_name_comp Windows s (length s)] MULTI))).
        { apply clean_trim; auto; [constructor; [rewrite <- Hp; apply root_fine; auto; [lia|discriminate]|constructor]|]. rewrite <- Hp. apply Hrt. }
        destruct (match last (map Some s) None with Some c => _ | None => _ end); exact Hx.
  - destruct w; [exact Hn|]. destruct s1 as [|c1 r]; [exact Hn|]. destruct (Ascii.eqb_spec c1 colon) as [->|]; [|exact Hn].
    set (s := c0 :: colon :: r) in *.
    assert (Hw : well_formed (skipn 2 s)) by (apply (wf_split [c0] colon r eq_refl Hs)).
    assert (Hst : start_at s 2). { split; [exact Hw|]. right. exists [c0], colon. split; reflexivity. }
    apply clean_tail; auto; [cbn; lia| |].
    + constructor; [apply root_fine; auto; discriminate|]. destruct r as [|c2 r]; [constructor|]. destruct (is_sep Windows c2) eqn:E2; constructor; [|constructor].
      eapply dir_fine; [reflexivity|exact E2].
    + intros x t Hx _. injection Hx as <- _. rewrite root_skip by (cbn; lia). exact Hw.
Qed.

(** * The operations *)

Lemma clean_fin : forall w b p, clean w p -> clean w (fin w b p).
Proof. intros w b p H. unfold fin. destruct b; [exact H|apply clean_split, (u_text _ _ H)]. Qed.
Lemma clean_eta : forall w p, clean w p -> clean w (Path (pathname p) (comps p) (ptyp p)).
Proof. intros w [] H. exact H. Qed.
Lemma clean_elems : forall w p, clean w p -> Forall (clean w) (elems p).
Proof.
  intros w p H. unfold elems. rewrite Forall_forall. intros x Hx. destruct (ptyp p) eqn:Et.
  - apply in_map_iff in Hx as (c & <- & Hc). eapply clean_in; eauto.
  - destruct (empty p); [destruct Hx|destruct Hx as [<-|[]]; exact H].
  - destruct (empty p); [destruct Hx|destruct Hx as [<-|[]]; exact H].
  - destruct (empty p); [destruct Hx|destruct Hx as [<-|[]]; exact H].
Qed.

Lemma pref_idem : forall w s, to_preferred w (to_preferred w s) = to_preferred w s.
Proof.
  intros [] s; [reflexivity|]. cbn [to_preferred]. rewrite map_map. apply map_ext. intros c.
  destruct (Ascii.eqb c slash) eqn:E; [reflexivity|rewrite E; reflexivity].
Qed.
Lemma pref_app : forall w a b, to_preferred w (a ++ b) = to_preferred w a ++ to_preferred w b.
Proof. intros [] a b; [reflexivity|apply map_app]. Qed.
Lemma pref_firstn : forall w n s, to_preferred w (firstn n s) = firstn n (to_preferred w s).
Proof. intros [] n s; [reflexivity|]. cbn [to_preferred]. symmetry. apply firstn_map. Qed.
Lemma pref_skipn : forall w n s, to_preferred w (skipn n s) = skipn n (to_preferred w s).
Proof. intros [] n s; [reflexivity|]. cbn [to_preferred]. symmetry. apply skipn_map. Qed.
Lemma pref_one : forall w x, is_ascii x = true -> exists y, to_preferred w [x] = [y] /\ is_ascii y = true.
Proof. intros [] x H; [exists x; auto|]. cbn. destruct (Ascii.eqb x slash); eexists; split; try reflexivity. exact H. Qed.

Lemma clean_preferred : forall w p, clean w p -> clean w (make_preferred w p).
Proof.
  intros w p [H1 H2 H3 H4 H5 H6]. split; cbn [make_preferred comps pathname]; auto.
  - apply wf_to_preferred, H1.
  - eapply Forall_impl; [|exact H3]. intros c Hc Hf Hn. destruct (Hc Hf Hn) as (a & b & -> & Ha & Hb & Hx & He).
    exists (to_preferred w a), (to_preferred w b). split; [apply pref_app|]. split; [rewrite length_preferred; exact Ha|].
    split; [apply wf_to_preferred, Hb|]. split.
    + destruct Hx as [->|(a' & x & -> & Hx)]; [left; destruct w; reflexivity|right]. destruct (pref_one w x Hx) as (y & Hy & Hay).
      exists (to_preferred w a'), y. split; [rewrite pref_app, Hy; reflexivity|exact Hay].
    + rewrite <- pref_firstn, pref_idem. exact He.
  - intros l c Hl Hn. destruct (H5 l c Hl Hn) as (Hf & Hd & t & x & Ht & Hx). split; [exact Hf|]. split; [exact Hd|]. destruct (pref_one w x Hx) as (y & Hy & Hay).
    exists (to_preferred w t), y. split; [rewrite Ht, pref_app, Hy; reflexivity|exact Hay].
  - intros c r Hc Hr. rewrite <- pref_skipn. apply wf_to_preferred. eapply H6; eauto.
Qed.

(** Where a path has an element after the root, the first one is a name that is not empty. *)
Lemma first_full : forall w p c r, sound w p -> clean w p -> rel (comps p) = c :: r -> full c /\ placed w (pathname p) c.
Proof.
  intros w p c r Hs H Hr. destruct (rel_app (comps p)) as (pre & H1 & H2). rewrite Hr in H1. split.
  - destruct (snoc_cases _ r) as [->|(r' & e & ->)].
    + intros He. destruct (u_pair _ _ H pre c H1 He) as (_ & (l' & d & Hl & Hd) & _).
      destruct H2 as [->|[(a & -> & Ha)|(a & b & -> & Ha & Hb)]].
      * destruct l'; discriminate Hl.
      * destruct l' as [|? [|? ?]]; try discriminate Hl. injection Hl as ->. congruence.
      * destruct l' as [|? [|? [|? ?]]]; try discriminate Hl. injection Hl as -> ->. congruence.
    + assert (Hf : Forall full (pre ++ c :: r')) by (apply (u_full _ _ H _ e); rewrite H1, <- app_assoc; reflexivity).
      apply Forall_app in Hf as [_ Hf]. inversion Hf; assumption.
  - pose proof (u_place _ _ H) as Hp. rewrite H1 in Hp. apply Forall_app in Hp as [_ Hp]. inversion Hp; assumption.
Qed.

Lemma skipn_len : forall (a b : str) n, length a = n -> skipn n (a ++ b) = b.
Proof. intros a b n <-. rewrite skipn_app, skipn_all, Nat.sub_diag. reflexivity. Qed.
Lemma firstn_len : forall (a b : str) n, length a = n -> firstn n (a ++ b) = a.
Proof. intros a b n <-. rewrite firstn_app, firstn_all, Nat.sub_diag. cbn. apply app_nil_r. Qed.

Lemma clean_relative : forall w E p q, sound w p -> clean w p -> relative_path w E p = Ok q -> clean w q.
Proof.
  intros w E p q Hs H. unfold relative_path. fold (rel (comps p)).
  assert (Hd : match rel (comps p) with
      | [] => Ok (fin w (el_other E) path_default)
      | c :: _ => do t <- str_substr_from (pathname p) (c_pos c);; Ok (fin w (el_other E) (split_components w t)) end = Ok q -> clean w q).
  { destruct (rel (comps p)) as [|c r] eqn:Er; [intros Hx; injection Hx as <-; apply clean_fin, clean_default|].
    destruct (first_full w p c r Hs H Er) as [Hf Hp].
    assert (Hc : c_type c = FILENAME) by (pose proof (s_rel _ _ Hs) as Hx; rewrite Er in Hx; inversion Hx; assumption).
    destruct (Hp Hc Hf) as (a & b & Ht & Ha & Hb & _). unfold str_substr_from. destruct (_ <=? _); [|discriminate]. cbn [bind].
    intros Hx. injection Hx as <-. apply clean_fin, clean_split. rewrite Ht, skipn_len by exact Ha. exact Hb. }
  destruct (ptyp p); auto. intros Hx. injection Hx as <-. apply clean_fin, H.
Qed.

Lemma clean_filename : forall w p q, clean w p -> filename w p = Ok q -> clean w q.
Proof.
  intros w p q H. unfold filename. destruct (empty p); [intros Hx; injection Hx as <-; apply clean_default|].
  destruct (ptyp p); try (intros Hx; injection Hx as <-; (apply clean_default || exact H)).
  destruct (match last (map Some (pathname p)) None with Some c => _ | None => _ end); [intros Hx; injection Hx as <-; apply clean_default|].
  destruct (snoc_cases _ (comps p)) as [Ec|(l & c & Ec)]; rewrite Ec; [discriminate|]. rewrite map_app. cbn [map]. rewrite last_last.
  destruct (ptype_eqb (c_type c) FILENAME); intros Hx; injection Hx as <-; [|apply clean_default].
  apply (clean_in w p); auto. rewrite Ec, in_app_iff. right; left; reflexivity.
Qed.

Lemma wf_sep : forall w, well_formed [preferred_separator w].
Proof. intros []; apply wf_ascii; reflexivity. Qed.

Lemma clean_append : forall w E g p q r, clean w p -> clean w q -> path_append w E g p q = Ok r -> clean w r.
Proof.
  intros w E g p q r Hp Hq. unfold path_append. destruct (_ || _); [intros Hx; injection Hx as <-; exact Hq|].
  set (sep := if has_root_directory w E q then Ok false else _). set (lhs := if has_root_directory w E q then if negb _ then _ else _ else _).
  set (rhs := if ptype_eqb (ptyp q) ROOT_NAME then _ else _).
  assert (Hl : well_formed lhs).
  { subst lhs. destruct (has_root_directory w E q); [|apply (u_text _ _ Hp)]. destruct (negb _); [|apply (u_text _ _ Hp)].
    destruct (comps p) as [|c l] eqn:Ec; [apply wf_nil|]. destruct (ptype_eqb (c_type c) ROOT_NAME); [|apply wf_nil].
    pose proof (u_strs _ _ Hp) as Hx. rewrite Ec in Hx. inversion Hx; assumption. }
  assert (Hr : well_formed rhs).
  { subst rhs. destruct (ptype_eqb (ptyp q) ROOT_NAME); [apply wf_nil|]. destruct (comps q) as [|c l] eqn:Ec; [apply (u_text _ _ Hq)|].
    destruct (ptype_eqb (c_type c) ROOT_NAME) eqn:Et; [|apply (u_text _ _ Hq)]. eapply (u_root _ _ Hq); [exact Ec|]. destruct (c_type c); try discriminate Et; reflexivity. }
  destruct sep as [b| | |]; try discriminate. cbn [bind].
  assert (Hm : well_formed (if b then lhs ++ [preferred_separator w] else lhs)) by (destruct b; auto; apply wf_app; [exact Hl|apply wf_sep]).
  destruct g; cbn [swap fst]; intros Hx; injection Hx as <-.
  - apply clean_eta, clean_split, wf_app; [|exact Hr]. destruct b; [exact Hm|rewrite app_nil_r; exact Hm].
  - apply clean_split, wf_app; [exact Hm|exact Hr].
Qed.

Lemma clean_root_name : forall w E p, clean w p -> clean w (root_name w E p).
Proof.
  intros w E p H. unfold root_name. apply clean_fin. destruct (ptype_eqb (ptyp p) ROOT_NAME); auto.
  destruct (comps p) as [|c r] eqn:Ec; [apply clean_default|]. destruct (ptype_eqb (c_type c) ROOT_NAME); [|apply clean_default].
  apply (clean_in w p); auto. rewrite Ec. left; reflexivity.
Qed.
Lemma clean_root_directory : forall w E p, clean w p -> clean w (root_directory w E p).
Proof.
  intros w E p H. unfold root_directory. apply clean_fin.
  assert (Hd : clean w match skip_root_name (comps p) with c :: _ => if ptype_eqb (c_type c) ROOT_DIR then comp_path c else path_default | [] => path_default end).
  { destruct (skip_root_name (comps p)) as [|c r] eqn:Ec; [apply clean_default|]. destruct (ptype_eqb (c_type c) ROOT_DIR); [|apply clean_default].
    apply (clean_in w p); auto. apply skip_in. rewrite Ec. left; reflexivity. }
  destruct (ptyp p); auto. destruct (pathname p) as [|? [|c1 ?]]; try apply clean_default. destruct (Ascii.eqb c1 colon); [|apply clean_default].
  apply clean_split. destruct w; apply wf_ascii; reflexivity.
Qed.
Lemma clean_root_path : forall w E p, clean w p -> clean w (root_path w E p).
Proof.
  intros w E p H. unfold root_path. apply clean_fin.
  assert (Hd : clean w match comps p with
     | [] => path_default
     | c :: r => match c_type c with
                 | ROOT_NAME => match r with
                                | d :: _ => if ptype_eqb (c_type d) ROOT_DIR then split_components w (c_str c ++ [preferred_separator w]) else comp_path c
                                | [] => comp_path c end
                 | ROOT_DIR => comp_path c | _ => path_default end end).
  { destruct (comps p) as [|c r] eqn:Ec; [apply clean_default|].
    assert (Hc : clean w (comp_path c)) by (apply (clean_in w p); auto; rewrite Ec; left; reflexivity).
    destruct (c_type c); auto; try apply clean_default. destruct r as [|d r]; auto. destruct (ptype_eqb (c_type d) ROOT_DIR); auto.
    apply clean_split, wf_app; [apply (u_text _ _ Hc)|apply wf_sep]. }
  destruct (ptyp p); auto.
Qed.

(** What is left in front of a name that is erased with everything after it. *)
Lemma clean_cut : forall w p l c r, sound w p -> clean w p -> comps p = l ++ c :: r -> c_type c = FILENAME -> c_str c <> [] ->
  let t := firstn (c_pos c) (pathname p) in
  well_formed t /\ Forall (fun x => well_formed (c_str x)) l /\ Forall (placed w t) l /\ Forall full l /\
  (forall x y, l = x :: y -> c_type x = ROOT_NAME -> well_formed (skipn (length (c_str x)) t)) /\
  (forall l' d, l = l' ++ [d] -> c_type d = FILENAME -> exists t' x, t = t' ++ [x] /\ is_ascii x = true).
Proof.
  intros w p l c r Hs H Hc Hf Hn t.
  assert (Hin : In c (comps p)) by (rewrite Hc, in_app_iff; right; left; reflexivity).
  pose proof (u_place _ _ H) as Hpl. rewrite Forall_forall in Hpl. destruct (Hpl c Hin Hf Hn) as (a & b & Ht & Ha & Hb & Hx & _).
  assert (Hta : t = a) by (unfold t; rewrite Ht; apply firstn_len, Ha).
  pose proof (s_order _ _ Hs) as Ho. rewrite Hc in Ho. apply in_order_before in Ho.
  assert (Hful : Forall full l).
  { destruct (snoc_cases _ r) as [->|(r' & e & ->)].
    - apply (u_full _ _ H l c Hc).
    - assert (Hg : Forall full (l ++ c :: r')) by (apply (u_full _ _ H _ e); rewrite Hc, <- app_assoc; reflexivity). apply Forall_app in Hg. apply Hg. }
  assert (Hwt : well_formed t) by (rewrite Hta; apply (wf_front a b); [rewrite <- Ht; apply (u_text _ _ H)|exact Hb]).
  split; [exact Hwt|]. split; [pose proof (u_strs _ _ H) as Hg; rewrite Hc in Hg; apply Forall_app in Hg; apply Hg|].
  split.
  { rewrite Forall_forall. intros x Hxl Hxf Hxn. rewrite Forall_forall in Ho. specialize (Ho x Hxl).
    destruct (Hpl x) as (a1 & b1 & Ht1 & Ha1 & Hb1 & Hx1 & He1); auto; [rewrite Hc, in_app_iff; left; exact Hxl|].
    assert (Hb1s : b1 = skipn (c_pos x) a ++ b).
    { assert (Hq : skipn (c_pos x) (a ++ b) = b1) by (rewrite <- Ht, Ht1; apply skipn_len, Ha1).
      rewrite skipn_app in Hq. replace (c_pos x - length a) with 0 in Hq by lia. cbn [skipn] in Hq. symmetry; exact Hq. }
    assert (Haa : firstn (c_pos x) a = a1).
    { assert (Hq : firstn (c_pos x) (a ++ b) = a1) by (rewrite <- Ht, Ht1; apply firstn_len, Ha1).
      rewrite firstn_app in Hq. replace (c_pos x - length a) with 0 in Hq by lia. cbn [firstn] in Hq. rewrite app_nil_r in Hq. exact Hq. }
    exists a1, (skipn (c_pos x) a). split; [rewrite Hta, <- Haa; symmetry; apply firstn_skipn|]. split; [exact Ha1|].
    split; [apply (wf_front _ b); [rewrite <- Hb1s; exact Hb1|exact Hb]|]. split; [exact Hx1|].
    rewrite Hb1s, firstn_app, skipn_length in He1. replace (length (c_str x) - (length a - c_pos x)) with 0 in He1 by lia.
    cbn [firstn] in He1. rewrite app_nil_r in He1. exact He1. }
  split; [exact Hful|]. split.
  { intros x y Hl Hxr. subst l. pose proof (Forall_inv Ho) as Hxo. cbn beta in Hxo. pose proof (u_root _ _ H x (y ++ c :: r) Hc Hxr) as Hw. rewrite Hta.
    rewrite Ht, skipn_app in Hw. replace (length (c_str x) - length a) with 0 in Hw by lia. cbn [skipn] in Hw. apply (wf_front _ b Hw Hb). }
  intros l' d Hl Hd. rewrite Hta. destruct Hx as [->|Hx]; [exfalso|exact Hx]. subst l. apply Forall_app in Ho as [_ Ho]. pose proof (Forall_inv Ho) as Hdo. cbn beta in Hdo.
  apply Forall_app in Hful as [_ Hful]. pose proof (Forall_inv Hful) as Hdf. unfold full in Hdf. cbn in Ha. destruct (c_str d); [congruence|]. cbn in Hdo. lia.
Qed.

Lemma clean_front : forall w t l ty, well_formed t -> Forall (fun x => well_formed (c_str x)) l -> Forall (placed w t) l -> Forall full l ->
  (forall x y, l = x :: y -> c_type x = ROOT_NAME -> well_formed (skipn (length (c_str x)) t)) -> clean w (Path t l ty).
Proof.
  intros w t l ty H1 H2 H3 H4 H5. split; cbn [pathname comps]; auto.
  - intros a c ->. apply Forall_app in H4. apply H4.
  - intros a c -> He. apply Forall_app in H4 as [_ H4]. contradiction (Forall_inv H4 He).
Qed.
(** The same with an empty name added after a name. *)
Lemma clean_front_empty : forall w t l e ty, well_formed t -> Forall (fun x => well_formed (c_str x)) l -> Forall (placed w t) l -> Forall full l ->
  (forall x y, l = x :: y -> c_type x = ROOT_NAME -> well_formed (skipn (length (c_str x)) t)) -> c_str e = [] -> c_type e = FILENAME ->
  (exists l' d, l = l' ++ [d] /\ c_type d = FILENAME) -> (exists t' x, t = t' ++ [x] /\ is_ascii x = true) -> clean w (Path t (l ++ [e]) ty).
Proof.
  intros w t l e ty H1 H2 H3 H4 H5 He Hf Hd Ht. split; cbn [pathname comps]; auto.
  - apply Forall_app. split; auto. constructor; [rewrite He; apply wf_nil|constructor].
  - apply Forall_app. split; auto. constructor; [intros _ Hx; congruence|constructor].
  - intros a c Hx. apply snoc_inv in Hx as [<- _]. exact H4.
  - intros a c Hx _. apply snoc_inv in Hx as [<- <-]. auto.
  - intros c r Hx Hr. destruct l as [|x l]; [cbn in Hx; injection Hx as -> _; congruence|]. cbn in Hx. injection Hx as -> _. eapply H5; eauto.
Qed.

Lemma clean_remove : forall w p q, sound w p -> clean w p -> remove_filename w p = Ok q -> clean w q.
Proof.
  intros w p q Hs H. unfold remove_filename. destruct (ptyp p) eqn:Et; try (intros Hx; injection Hx as <-; exact H);
    [|intros Hx; injection Hx as <-; apply clean_split, wf_nil].
  destruct (snoc_cases _ (comps p)) as [Ec|(l & c & Ec)]; rewrite ?Ec; [intros Hx; injection Hx as <-; exact H|]. rewrite rev_app_distr. cbn [rev app].
  destruct (ptype_eqb (c_type c) FILENAME && negb (is_nil (c_str c))) eqn:Ef; [|intros Hx; injection Hx as <-; exact H].
  apply andb_true_iff in Ef as [Ef En]. assert (Hf : c_type c = FILENAME) by (destruct (c_type c); try discriminate Ef; reflexivity).
  assert (Hne : c_str c <> []) by (destruct (c_str c); [discriminate En|discriminate]).
  destruct (clean_cut w p l c [] Hs H Ec Hf Hne) as (K1 & K2 & K3 & K4 & K5 & K6).
  unfold str_erase. destruct (c_pos c <=? length (pathname p)); [|discriminate]. cbn [bind].
  destruct (snoc_cases _ l) as [Hl|(l' & d & Hl)]; [subst l; discriminate|]. assert (Hrv : rev l = d :: rev l') by (rewrite Hl, rev_app_distr; reflexivity).
  rewrite Hrv. rewrite <- Hrv, rev_involutive.
  destruct (ptype_eqb (c_type d) ROOT_DIR || ptype_eqb (c_type d) ROOT_NAME) eqn:Ed; intros Hx; injection Hx as <-.
  - unfold trim. cbn [comps]. destruct l as [|x [|y r]] eqn:El; [destruct l'; discriminate Hl| |apply clean_front; auto].
    inversion K2; subst. apply clean_plain. assumption.
  - assert (Hd : c_type d = FILENAME).
    { assert (Hty : c_type d <> MULTI). { pose proof (s_types _ _ Hs) as Hty. rewrite Ec, Hl in Hty. apply Forall_app in Hty as [Hty _]. apply Forall_app in Hty as [_ Hty]. inversion Hty; assumption. }
      destruct (c_type d); try discriminate Ed; congruence. }
    apply clean_front_empty; auto; [exists l', d; auto|eapply K6; eauto].
Qed.

Lemma clean_replace_filename : forall w E p r q, sound w p -> clean w p -> clean w r -> replace_filename w E p r = Ok q -> clean w q.
Proof.
  intros w E p r q Hs Hp Hr. unfold replace_filename. destruct (remove_filename w p) as [x| | |] eqn:Ex; try discriminate. cbn [bind].
  apply clean_append; auto. eapply clean_remove; eauto.
Qed.

(** The extension starts with a dot. *)
Lemma find_extension_dot : forall p x n, find_extension p = Some (x, Some n) -> exists a b, ext_str x = a ++ dot :: b /\ length a = n.
Proof.
  intros p x n. unfold find_extension. destruct (match ptyp p with FILENAME => _ | MULTI => _ | _ => _ end) as [y|]; [|discriminate].
  destruct (ext_str y) as [|c0 t] eqn:Ey; [discriminate|]. destruct (_ && _); [discriminate|].
  destruct (rfind dot (c0 :: t)) as [k|] eqn:Er; [|discriminate]. intros H.
  assert (Hk : y = x /\ k = n) by (destruct k; [discriminate|injection H as <- <-; auto]). destruct Hk as [-> ->].
  apply rfind_Some in Er as (a & b & Hab & Hl & _). rewrite Ey. exists a, b. auto.
Qed.
Lemma find_extension_wf : forall w p x o, clean w p -> find_extension p = Some (x, o) -> well_formed (ext_str x).
Proof.
  intros w p x o H. unfold find_extension.
  set (src := match ptyp p with FILENAME => _ | MULTI => _ | _ => _ end).
  assert (Hy : forall y, src = Some y -> well_formed (ext_str y)).
  { intros y. subst src. destruct (ptyp p); try discriminate; [|intros Hx; injection Hx as <-; apply (u_text _ _ H)].
    destruct (snoc_cases _ (comps p)) as [Hc|(l & c & Hc)]; rewrite Hc; [discriminate|]. rewrite map_app. cbn [map]. rewrite last_last.
    destruct (ptype_eqb (c_type c) FILENAME); [|discriminate]. intros Hx; injection Hx as <-. cbn [ext_str].
    pose proof (u_strs _ _ H) as Hs. rewrite Hc in Hs. apply Forall_app in Hs as [_ Hs]. inversion Hs; assumption. }
  destruct src as [y|]; [|discriminate]. specialize (Hy y eq_refl). destruct (ext_str y) as [|c0 t] eqn:Ey; [discriminate|].
  intros Hx. assert (Hyx : y = x). { destruct (_ && _); [congruence|]. destruct (rfind dot (c0 :: t)) as [[|k]|]; congruence. }
  rewrite <- Hyx, Ey. exact Hy.
Qed.

Lemma clean_stem : forall w p, clean w p -> clean w (stem w p).
Proof.
  intros w p H. unfold stem. destruct (find_extension p) as [[x [n|]]|] eqn:Ef; [| |apply clean_default].
  - pose proof (find_extension_wf w p x _ H Ef) as Hw. destruct (find_extension_dot p x n Ef) as (a & b & Ha & Hl).
    destruct n as [|n]; apply clean_split; [exact Hw|]. unfold substr. cbn [skipn]. rewrite Ha, firstn_len by exact Hl.
    rewrite Ha in Hw. apply (wf_split a dot b eq_refl Hw).
  - apply clean_split, (find_extension_wf w p x None H Ef).
Qed.
Lemma clean_extension : forall w p, clean w p -> clean w (extension w p).
Proof.
  intros w p H. unfold extension. destruct (find_extension p) as [[x [[|n]|]]|] eqn:Ef; try apply clean_default.
  pose proof (find_extension_wf w p x _ H Ef) as Hw. destruct (find_extension_dot p x _ Ef) as (a & b & Ha & Hl).
  apply clean_split. rewrite Ha, skipn_len by exact Hl. rewrite Ha in Hw. apply (wf_cut a (dot :: b) Hw). reflexivity.
Qed.

Lemma find_extension_back : forall p c o, find_extension p = Some (ExtBack c, o) -> c_type c = FILENAME /\ exists l, comps p = l ++ [c].
Proof.
  intros p c o. unfold find_extension. set (src := match ptyp p with FILENAME => _ | MULTI => _ | _ => _ end).
  assert (Hy : src = Some (ExtBack c) -> c_type c = FILENAME /\ exists l, comps p = l ++ [c]).
  { subst src. destruct (ptyp p); try discriminate. destruct (snoc_cases _ (comps p)) as [Hc|(l & d & Hc)]; rewrite Hc; [discriminate|].
    rewrite map_app. cbn [map]. rewrite last_last. destruct (c_type d) eqn:Ed; try discriminate. cbn. intros Hx. injection Hx as <-. eauto. }
  destruct src as [y|]; [|discriminate]. destruct (ext_str y) as [|c0 t] eqn:Ey; [discriminate|]. intros Hx. apply Hy. f_equal.
  destruct (_ && _); [congruence|]. destruct (rfind dot (c0 :: t)) as [[|k]|]; congruence.
Qed.

(** The byte of a text whose preferred form is a dot is a dot. *)
Lemma pref_dot : forall w a b s, to_preferred w s = to_preferred w (a ++ dot :: b) -> exists a' b', s = a' ++ dot :: b' /\ length a' = length a.
Proof.
  intros [] a b s H; cbn [to_preferred] in H; [exists a, b; auto|]. rewrite map_app in H. apply map_eq_app in H as (a' & r & -> & Ha & Hr).
  destruct r as [|x b']; [discriminate|]. cbn [map] in Hr. injection Hr as Hx _.
  assert (x = dot) by (destruct (Ascii.eqb_spec x slash) as [->|]; [discriminate Hx|exact Hx]). subst x.
  exists a', b'. split; [reflexivity|]. apply (f_equal (@length _)) in Ha. rewrite !map_length in Ha. exact Ha.
Qed.

(** What replace_extension erases from. *)
Lemma erased_wf : forall w p t, clean w p -> match find_extension p with
  | Some (ExtSelf _, Some n) => str_erase (pathname p) n
  | Some (ExtBack c, Some n) => str_erase (pathname p) (c_pos c + n)
  | _ => Ok (pathname p) end = Ok t -> well_formed t.
Proof.
  intros w p t H. pose proof (u_text _ _ H) as Hp.
  destruct (find_extension p) as [[x [n|]]|] eqn:Ef; [|destruct x; intros Hx; injection Hx as <-; exact Hp|intros Hx; injection Hx as <-; exact Hp].
  destruct (find_extension_dot p x n Ef) as (a & b & Ha & Hl). unfold str_erase. destruct x as [s|c]; cbn [ext_str] in *.
  - apply find_extension_in in Ef as [Hn Hx].
    destruct Hx as [Hx|(l & c & _ & Hx)]; [injection Hx as ->|discriminate]. destruct (_ <=? _); [|discriminate]. intros Hx. injection Hx as <-.
    rewrite Ha, firstn_len by exact Hl. rewrite Ha in Hp. apply (wf_split a dot b eq_refl Hp).
  - destruct (find_extension_back p c _ Ef) as (Hf & l & Hc). destruct (_ <=? _); [|discriminate]. intros Hx. injection Hx as <-.
    assert (Hne : c_str c <> []) by (rewrite Ha; destruct a; discriminate).
    pose proof (u_place _ _ H) as Hpl. rewrite Hc in Hpl. apply Forall_app in Hpl as [_ Hpl]. inversion Hpl as [|? ? Hpc]; subst.
    destruct (Hpc Hf Hne) as (u & v & Ht & Hu & Hv & _ & He). rewrite Ha in He. apply pref_dot in He as (a' & b' & He & Hla).
    rewrite <- (firstn_skipn (length (a ++ dot :: b)) v), He, <- app_assoc in Ht. cbn [app] in Ht. rewrite app_assoc in Ht.
    rewrite Ht, firstn_len by (rewrite app_length; lia). rewrite Ht in Hp. apply (wf_split _ dot _ eq_refl Hp).
Qed.

Lemma clean_replace_extension : forall w p r q, clean w p -> clean w r -> replace_extension w p r = Ok q -> clean w q.
Proof.
  intros w p r q H Hr. unfold replace_extension. pose proof (erased_wf w p) as Ht.
  destruct (match find_extension p with Some _ => _ | None => _ end) as [t| | |]; try discriminate. specialize (Ht t H eq_refl). cbn [bind].
  intros Hx. injection Hx as <-. apply clean_split, wf_app; [|apply (u_text _ _ Hr)]. destruct (pathname r) as [|c ?]; [exact Ht|].
  destruct (Ascii.eqb c dot); [exact Ht|]. apply wf_app; [exact Ht|apply wf_ascii; reflexivity].
Qed.

Lemma wf_append_sep : forall w t, well_formed t -> well_formed (append_sep_if_needed w t).
Proof. intros w t H. unfold append_sep_if_needed. destruct (last (map Some t) None); [|exact H]. destruct (_ || _); [exact H|apply wf_app; [exact H|apply wf_sep]]. Qed.
Lemma wf_rebuild : forall w l acc, Forall (fun c => well_formed (c_str c)) l -> well_formed acc -> well_formed (rebuild w l acc).
Proof.
  intros w. induction l as [|c [|d l] IH]; intros acc Hl Ha; [exact Ha| |]; inversion Hl; subst; [apply wf_app; assumption|].
  change (rebuild w (c :: d :: l) acc) with (rebuild w (d :: l) (append_sep_if_needed w (acc ++ c_str c))). apply IH; [assumption|].
  apply wf_append_sep, wf_app; assumption.
Qed.

Lemma clean_parent : forall w E p q, el_parent E = false -> clean w p -> parent_path w E p = Ok q -> clean w q.
Proof.
  intros w E p q HE H. unfold parent_path. destruct (has_relative_path w E p) as [b| | |]; try discriminate. cbn [bind].
  destruct b; cbn [negb]; [|intros Hx; injection Hx as <-; exact H]. destruct (ptyp p); try (intros Hx; injection Hx as <-; apply clean_default).
  destruct (drop_end (comps p)) as [l| | |] eqn:Ed; try discriminate. cbn [bind]. intros Hx. injection Hx as <-. rewrite HE. apply clean_split, wf_rebuild; [|apply wf_nil].
  pose proof (u_strs _ _ H) as Hs. unfold drop_end in Ed. destruct (rev (comps p)) as [|c r] eqn:Er; [discriminate|].
  apply Forall_rev in Hs. rewrite Er in Hs. inversion Hs as [|? ? _ Hs1]; subst.
  destruct (is_nil (c_str c)); [|injection Ed as <-; apply Forall_rev, Hs1]. destruct r as [|d r]; [discriminate|]. injection Ed as <-.
  inversion Hs1; subst. apply Forall_rev. assumption.
Qed.

Lemma clean_normal_trailing : forall w E ret p q, sound w ret -> clean w ret -> clean w p -> has_filename w ret = Ok false -> has_relative_path w E ret = Ok true ->
  normal_trailing w E ret p = Ok q -> clean w q.
Proof.
  intros w E ret p q Hs H Hp Hf Hr. destruct (normal_shape w E ret Hs Hf Hr) as (Ht & l & c & e & Hc & Hes & Het).
  unfold normal_trailing, it_end, it_begin. rewrite Ht.
  assert (Hlen : length (comps ret) = S (S (length l))) by (rewrite Hc, app_length; cbn; lia). rewrite Hlen.
  unfold it_dec at 1. rewrite Ht. cbn [bind]. unfold it_dec at 1. rewrite Ht. cbn [bind].
  unfold it_deref. rewrite Ht. assert (Hnth : nth_error (comps ret) (length l) = Some c) by (rewrite Hc, nth_error_app2, Nat.sub_diag by lia; reflexivity).
  rewrite Hnth. cbn [bind].
  assert (Hin : In c (comps ret)) by (rewrite Hc, in_app_iff; right; left; reflexivity).
  destruct (has_filename_ok w (comp_path c) (sound_in w ret c Hs Hin)) as (b & Hb). rewrite Hb. cbn [bind].
  destruct (b && negb (is_dotdot (comp_path c))) eqn:Eb; [|apply clean_append; auto]. apply andb_true_iff in Eb as [-> _].
  assert (Hcf : c_type c = FILENAME /\ c_str c <> []).
  { unfold has_filename, filename in Hb. destruct (empty (comp_path c)) eqn:Ee; [discriminate Hb|]. cbn [comp_path ptyp] in Hb.
    pose proof (s_types _ _ Hs) as Hty. rewrite Forall_forall in Hty. specialize (Hty c Hin).
    split; [destruct (c_type c); auto; try discriminate Hb; congruence|]. unfold empty in Ee. cbn in Ee. destruct (c_str c); discriminate. }
  destruct Hcf as [Hcf Hne].
  unfold it_equals. destruct (length l =? 0) eqn:El; [intros Hx; injection Hx as <-; apply clean_split, wf_nil|].
  cbn [it_cur bind]. rewrite Hnth. destruct (clean_cut w ret l c [e] Hs H Hc Hcf Hne) as (K1 & K2 & K3 & K4 & K5 & K6).
  unfold str_erase. destruct (c_pos c <=? length (pathname ret)); [|discriminate]. cbn [bind].
  destruct (snoc_cases _ l) as [->|(l' & d & Hl)]; [discriminate El|].
  unfold it_dec. rewrite Ht. assert (Hll : length l = S (length l')) by (rewrite Hl, app_length; cbn; lia). rewrite Hll. cbn [bind it_cur].
  assert (Hnd : nth_error (comps ret) (length l') = Some d).
  { rewrite Hc, Hl, <- app_assoc. rewrite nth_error_app2, Nat.sub_diag by lia. reflexivity. }
  rewrite Hnd. rewrite <- Hll. rewrite Hc, firstn_2, skipn_2.
  destruct (ptype_eqb (c_type d) FILENAME) eqn:Ed; intros Hx; injection Hx as <-; [|apply clean_front; auto].
  assert (Hd : c_type d = FILENAME) by (destruct (c_type d); try discriminate Ed; reflexivity).
  apply clean_front_empty; auto; [exists l', d; auto|eapply K6; eauto].
Qed.

Lemma clean_normal_step : forall w E ret p q, sound w ret -> clean w ret -> clean w p -> normal_step w E ret p = Ok q -> clean w q.
Proof.
  intros w E ret p q Hs H Hp. unfold normal_step.
  destruct (match w with Windows => _ | Posix => _ end); [apply clean_append; auto; apply clean_split, wf_to_preferred, (u_text _ _ Hp)|].
  destruct (is_dotdot p).
  - destruct (has_filename_ok w ret Hs) as (b & Hb). rewrite Hb. cbn [bind]. destruct b.
    + destruct (sound_filename w ret Hs) as (f & -> & _). cbn [bind]. destruct (negb (is_dotdot f)); [apply clean_remove; auto|apply clean_append; auto].
    + destruct (has_relative_ok w E ret Hs) as (r & Hr & _). rewrite Hr. cbn [bind]. destruct r; cbn [negb]; [apply clean_normal_trailing; auto|].
      destruct (negb (has_root_directory w E ret)); [apply clean_append; auto|intros Hx; injection Hx as <-; exact H].
  - destruct (is_dot p); apply clean_append; auto. apply clean_default.
Qed.
Lemma clean_normal_loop : forall w E l ret q, Forall (good w) l -> good w ret -> normal_loop w E l ret = Ok q -> good w q.
Proof.
  intros w E l. induction l as [|p l IH]; intros ret q Hl H; [intros Hx; injection Hx as <-; exact H|]. inversion Hl as [|? ? [Hps Hpc] Hl']; subst. cbn [normal_loop].
  destruct H as [Hs Hc]. destruct (sound_normal_step w E ret p Hs Hps) as (x & Ex & Hx). rewrite Ex. cbn [bind]. apply IH; auto. split; [exact Hx|].
  apply (clean_normal_step w E ret p x); auto.
Qed.
Lemma good_elems : forall w p, good w p -> Forall (good w) (elems p).
Proof.
  intros w p [H1 H2]. pose proof (sound_elems w p H1) as K1. pose proof (clean_elems w p H2) as K2. rewrite Forall_forall in *. intros x Hx. split; auto.
Qed.
Lemma good_default : forall w, good w path_default.
Proof. split; [apply sound_default|apply clean_default]. Qed.

Lemma clean_normal : forall w E p q, el_normal E = false -> good w p -> lexically_normal w E p = Ok q -> clean w q.
Proof.
  intros w E p q HE H. unfold lexically_normal. rewrite HE. destruct (empty p); [intros Hx; injection Hx as <-; apply (clean_split w []), wf_nil|].
  destruct (normal_loop w E (elems p) path_default) as [r| | |] eqn:El; try discriminate. cbn [bind].
  apply clean_normal_loop in El as [Hrs Hr]; [|apply good_elems, H|apply good_default].
  destruct (normal_finish w r) as [x| | |] eqn:Ef; try discriminate. cbn [bind]. intros Hx. injection Hx as <-. cbn [fin]. apply clean_split.
  unfold normal_finish in Ef.
  assert (Hone : (if empty r then Ok (split_components w [dot]) else Ok r) = Ok x -> well_formed (pathname x)).
  { destruct (empty r); intros Hx; injection Hx as <-; [|apply (u_text _ _ Hr)]. apply (u_text w _ (clean_split w [dot] (wf_ascii [dot] eq_refl))). }
  destruct (rev (comps r)) as [|b [|pv t]] eqn:Er; auto.
  destruct (is_nil (c_str b) && is_dotdot (comp_path pv)) eqn:Eb; [|injection Ef as <-; apply (u_text _ _ Hr)]. apply andb_true_iff in Eb as [Eb Epv].
  destruct (rev (pathname r)) as [|z y] eqn:Ep; [discriminate|]. injection Ef as <-. cbn [pathname].
  assert (Hcs : comps r = (rev t ++ [pv]) ++ [b]). { rewrite <- (rev_involutive (comps r)), Er. reflexivity. }
  assert (Hbe : c_str b = []) by (destruct (c_str b); [reflexivity|discriminate]).
  destruct (u_pair _ _ Hr _ _ Hcs Hbe) as (_ & _ & t0 & x0 & Ht & Hx).
  pose proof (u_text _ _ Hr) as Hw. rewrite Ht in Hw. rewrite Ht, rev_app_distr in Ep. cbn in Ep. injection Ep as _ <-. rewrite rev_involutive.
  apply (wf_split t0 x0 [] Hx Hw).
Qed.

Lemma clean_dotdots : forall w E n r q, clean w r -> append_dotdots w E n r = Ok q -> clean w q.
Proof.
  intros w E n. induction n as [|n IH]; intros r q H; [intros Hx; injection Hx as <-; exact H|]. cbn [append_dotdots].
  destruct (path_append w E true r (split_components w [dot; dot])) as [x| | |] eqn:Ex; try discriminate. cbn [bind]. apply IH.
  eapply clean_append; [exact H| |exact Ex]. apply clean_split, wf_ascii. reflexivity.
Qed.
Lemma clean_append_all : forall w E l r q, Forall (clean w) l -> clean w r -> append_all w E l r = Ok q -> clean w q.
Proof.
  intros w E l. induction l as [|a l IH]; intros r q Hl H; [intros Hx; injection Hx as <-; exact H|]. inversion Hl; subst. cbn [append_all].
  destruct (path_append w E true r a) as [x| | |] eqn:Ex; try discriminate. cbn [bind]. apply IH; auto. eapply clean_append; [exact H| |exact Ex]. assumption.
Qed.
Lemma mismatch_clean : forall w a b, Forall (clean w) a -> Forall (clean w) (fst (mismatch a b)).
Proof. intros w a. induction a as [|x a IH]; intros [|y b] H; cbn; auto. destruct (path_eq x y); auto. inversion H; auto. Qed.

Lemma clean_lexically_relative : forall w E p q r, clean w p -> lexically_relative w E p q = Ok r -> clean w r.
Proof.
  intros w E p q r Hp. unfold lexically_relative.
  assert (Hd : forall b x, clean w x -> Ok (fin w b x) = Ok r -> clean w r) by (intros b x Hx H; injection H as <-; apply clean_fin, Hx).
  destruct (path_ne _ _); [apply Hd, clean_default|]. destruct (negb _); [apply Hd, clean_default|]. destruct (_ && _); [apply Hd, clean_default|].
  pose proof (mismatch_clean w (elems p) (elems q) (clean_elems w p Hp)) as Hm. destruct (mismatch (elems p) (elems q)) as [a b]. cbn [fst] in Hm.
  assert (Hg : (if (0 <=? count_updots b)%Z then do r <- append_dotdots w E (Z.to_nat (count_updots b)) path_default;;
      do r' <- append_all w E a r;; Ok (fin w (el_other E) r') else Ok (fin w (el_other E) path_default)) = Ok r -> clean w r).
  { destruct (0 <=? count_updots b)%Z; [|apply Hd, clean_default].
    destruct (append_dotdots w E (Z.to_nat (count_updots b)) path_default) as [x| | |] eqn:Ex; try discriminate. cbn [bind].
    apply clean_dotdots in Ex; [|apply clean_default].
    destruct (append_all w E a x) as [y| | |] eqn:Ey; try discriminate. cbn [bind]. apply Hd. eapply clean_append_all; [exact Hm|exact Ex|exact Ey]. }
  destruct a; destruct b; auto. apply Hd, clean_split, wf_ascii. reflexivity.
Qed.
Lemma clean_proximate : forall w E p q r, clean w p -> lexically_proximate w E p q = Ok r -> clean w r.
Proof.
  intros w E p q r Hp. unfold lexically_proximate. destruct (lexically_relative w E p q) as [x| | |] eqn:Ex; try discriminate. cbn [bind].
  apply clean_lexically_relative in Ex; auto. destruct (is_nil (native x)); intros H; injection H as <-; [exact Hp|apply clean_fin, Ex].
Qed.
Lemma clean_assign : forall w p s, well_formed s -> clean w (assign_str w p s).
Proof. intros w p s H. apply clean_eta, clean_split, H. Qed.
Lemma clean_read : forall w p s, clean w p -> well_formed s -> clean w (fst (stream_in w p s)).
Proof.
  intros w p s Hp Hs. unfold stream_in. pose proof (wf_skip s Hs) as Hk. destruct (skip_ws s) as [|c r]; [exact Hp|].
  destruct (Ascii.eqb_spec c quote) as [->|Hq].
  - pose proof (wf_unquote (length r) r [] (le_n _) (wf_tail quote r eq_refl Hk)) as Hu. destruct (unquote r []) as [[t rest] []]; cbn [fst snd] in *; [|exact Hp].
    apply clean_assign, Hu. reflexivity.
  - pose proof (wf_take (c :: r) [] Hk) as Ht. destruct (take_word (c :: r) []) as [t rest]. cbn [fst] in *. apply clean_assign, Ht.
Qed.

(** * Histories *)

Definition all_clean (w : platform) (st : store) : Prop := forall x, clean w (st x).
Lemma all_clean_upd : forall w st x p, all_clean w st -> clean w p -> all_clean w (upd st x p).
Proof. intros w st x p H Hp y. unfold upd. destruct (y =? x); auto. Qed.
Lemma set_clean : forall w st st' x r, all_clean w st -> (forall q, r = Ok q -> clean w q) -> (do p <- r;; Ok (upd st x p)) = Ok st' -> all_clean w st'.
Proof. intros w st st' x r H Hr. destruct r as [q| | |]; try discriminate. cbn. intros Hx. injection Hx as <-. apply all_clean_upd; auto. Qed.

Lemma exec_clean : forall w E st c st', usable E (APlain c) = true -> given_text c -> all_sound w st -> all_clean w st -> exec w E st c = Ok st' -> all_clean w st'.
Proof.
  intros w E st c st' HU Hg Hs H.
  assert (Hok : forall p x, clean w p -> (do q <- Ok p;; Ok (upd st x q)) = Ok st' -> all_clean w st').
  { intros p x Hp. apply set_clean; auto. intros q Hq. injection Hq as <-. exact Hp. }
  assert (H2 : forall a b x y, clean w a -> clean w b -> Ok (upd (upd st y b) x a) = Ok st' -> all_clean w st').
  { intros a b x y Ha Hb Hx. injection Hx as <-. apply all_clean_upd; [apply all_clean_upd; auto|exact Ha]. }
  assert (Hn : clean w (split_components w [])) by apply clean_split, wf_nil.
  destruct c; cbn [exec move_assign move_ctor swap]; cbn [given_text] in Hg.
  - apply Hok, clean_default.
  - apply Hok, clean_assign, Hg.
  - apply Hok, H.
  - apply H2; [apply clean_eta, H|exact Hn].
  - apply H2; [apply clean_split, (u_text _ _ (H y))|exact Hn].
  - apply H2; apply clean_eta, H.
  - apply Hok, Hn.
  - apply Hok, clean_preferred, H.
  - apply set_clean; auto. intros q. apply clean_append; apply H.
  - apply set_clean; auto. intros q. unfold path_div. destruct (path_append w E true (st y) (st z)) as [a| | |] eqn:Ea; try discriminate. cbn [bind].
    intros Hx. injection Hx as <-. apply clean_fin. eapply clean_append; [apply (H y)|apply (H z)|exact Ea].
  - apply Hok, clean_split, wf_app; [apply (u_text _ _ (H x))|exact Hg].
  - apply set_clean; auto. intros q. apply clean_remove; auto.
  - apply set_clean; auto. intros q. apply clean_replace_filename; auto.
  - apply set_clean; auto. intros q. apply clean_replace_extension; auto.
  - apply Hok, clean_root_name, H.
  - apply Hok, clean_root_directory, H.
  - apply Hok, clean_root_path, H.
  - apply set_clean; auto. intros q. apply clean_relative; auto.
  - apply set_clean; auto. intros q. apply clean_parent; auto. apply negb_true_iff, HU.
  - apply set_clean; auto. intros q. apply clean_filename; auto.
  - apply Hok, clean_stem, H.
  - apply Hok, clean_extension, H.
  - apply set_clean; auto. intros q. apply clean_normal; [apply negb_true_iff, HU|split; auto].
  - apply set_clean; auto. intros q. apply clean_lexically_relative; auto.
  - apply set_clean; auto. intros q. apply clean_proximate; auto.
  - apply Hok. pose proof (clean_elems w (st y) (H y)) as He. destruct (nth_in_or_default n (elems (st y)) (st x)) as [Hi| ->]; auto.
    rewrite Forall_forall in He. auto.
  - apply Hok, clean_read; auto.
Qed.

(** ** Arguments that are the modified path or one of its elements *)

(** The path an argument shows has a well-formed text. *)
Definition shows_wf (p : path) (a : arg) : Prop := forall q, shows p a = Ok q -> well_formed (native q).

Lemma clean_concat_at : forall w p a r, well_formed (pathname p) -> shows_wf p a -> concat_at w p a = Ok r -> clean w r.
Proof.
  intros w p a r Hp Ha. unfold concat_at. destruct (shows p a) as [q| | |] eqn:Eq; try discriminate. cbn [bind]. intros Hx. injection Hx as <-.
  apply clean_split, wf_app; [exact Hp|apply Ha, Eq].
Qed.
Lemma clean_replace_extension_at : forall w p a r, clean w p -> (forall t, well_formed t -> shows_wf (Path t (comps p) (ptyp p)) a) ->
  replace_extension_at w p a = Ok r -> clean w r.
Proof.
  intros w p a r H Ha. unfold replace_extension_at. pose proof (erased_wf w p) as Ht.
  destruct (match find_extension p with Some _ => _ | None => _ end) as [t| | |]; try discriminate. specialize (Ht t H eq_refl). cbn [bind].
  destruct (shows (Path t (comps p) (ptyp p)) a) as [q| | |]; try discriminate. cbn [bind].
  assert (Hd : well_formed (t ++ [dot])) by (apply wf_app; [exact Ht|apply wf_ascii; reflexivity]).
  destruct (native q) as [|c s]; [|destruct (Ascii.eqb c dot)]; apply clean_concat_at; auto.
Qed.
Lemma shows_self : forall t cs ty, well_formed t -> shows_wf (Path t cs ty) Self.
Proof. intros t cs ty H q Hq. cbn in Hq. injection Hq as <-. exact H. Qed.
Lemma shows_other : forall p q, well_formed (native q) -> shows_wf p (Other q).
Proof. intros p q H r Hr. cbn in Hr. injection Hr as <-. exact H. Qed.
Lemma shows_elem : forall w p t ty n, clean w p -> shows_wf (Path t (comps p) ty) (Elem n).
Proof.
  intros w p t ty n H q Hq. cbn [shows comps] in Hq. destruct (nth_error (comps p) n) as [c|] eqn:En; try discriminate. injection Hq as <-.
  pose proof (u_strs _ _ H) as Hs. rewrite Forall_forall in Hs. apply (Hs c). eapply nth_error_In; exact En.
Qed.

Lemma clean_assign_at : forall w p a q, clean w p -> (a = Self \/ exists o, a = Other o /\ clean w o) -> assign_at p a = Ok q -> clean w q.
Proof.
  intros w p a q Hp [->|(o & -> & Ho)]; unfold assign_at; cbn [shows bind pathname comps ptyp]; intros Hx; injection Hx as <-; apply clean_eta; auto.
Qed.
Lemma clean_append_at : forall w E g p a q, clean w p -> (a = Self \/ exists o, a = Other o /\ clean w o) -> append_at w E g p a = Ok q -> clean w q.
Proof.
  intros w E g p a q Hp [->|(o & -> & Ho)].
  - destruct (C89_self w E g p) as [-> _]. apply clean_append; auto.
  - rewrite append_other. apply clean_append; auto.
Qed.

(** The texts a program puts into paths. *)
Definition given (a : astmt) : Prop := match a with APlain c => given_text c | _ => True end.

Lemma exec_alias_clean : forall w E st a st', usable E a = true -> given a -> all_sound w st -> all_clean w st -> exec_alias w E st a = Ok st' -> all_clean w st'.
Proof.
  intros w E st a st' Hu Hg Hs H.
  assert (Ha : forall x y, (if x =? y then Self else Other (st y)) = Self \/ exists q, (if x =? y then Self else Other (st y)) = Other q /\ clean w q).
  { intros x y. destruct (x =? y); eauto. }
  assert (Hel : forall x n f, (forall b q, (b = Self \/ (b = Elem n /\ exists c, nth_error (comps (st x)) n = Some c)) -> f (st x) b = Ok q -> clean w q) ->
     match element_of (st x) n with Some b => do p <- f (st x) b;; Ok (upd st x p) | None => Ok st end = Ok st' -> all_clean w st').
  { intros x n f Hf. unfold element_of. destruct (n <? length (elems (st x))) eqn:El; [|intros Hx; injection Hx as <-; exact H]. apply set_clean; auto.
    intros q. apply Hf. destruct (is_nil (comps (st x))) eqn:En; auto. right. split; auto. destruct (nth_error (comps (st x)) n) eqn:Ex; eauto. exfalso.
    apply nth_error_None in Ex. apply Nat.ltb_lt in El. unfold elems in El.
    assert (Ht : ptyp (st x) = MULTI) by (eapply sound_multi; [apply Hs|]; destruct (comps (st x)); [discriminate|discriminate]).
    rewrite Ht, map_length in El. lia. }
  assert (Htext : forall x, well_formed (pathname (st x))) by (intros x; apply (u_text _ _ (H x))).
  assert (Hself : forall x, shows_wf (st x) Self) by (intros x q Hq; cbn in Hq; injection Hq as <-; apply Htext).
  destruct a as [c|x y|x n|x n|x n]; cbn [given] in Hg.
  - pose proof (exec_clean w E st c st' Hu Hg Hs H) as Hplain.
    destruct c; try exact Hplain; cbn [exec_alias].
    + apply set_clean; auto. intros q. apply clean_assign_at; auto.
    + destruct (x =? y); [|exact Hplain]. apply set_clean; auto. intros q Hq. injection Hq as <-. apply clean_split, wf_nil.
    + destruct (x =? y); [|exact Hplain]. apply set_clean; auto. intros q Hq. injection Hq as <-. apply H.
    + apply set_clean; auto. intros q. apply clean_append_at; auto.
    + apply set_clean; auto. intros q. unfold replace_filename_at. destruct (remove_filename w (st x)) as [o| | |] eqn:Eo; try discriminate. cbn [bind].
      apply clean_append_at; auto. eapply clean_remove; [apply Hs|apply H|exact Eo].
    + apply set_clean; auto. intros q. apply clean_replace_extension_at; auto. intros t Ht. destruct (x =? y); [apply shows_self, Ht|apply shows_other, Htext].
  - cbn [exec_alias]. apply set_clean; auto. intros q. apply clean_concat_at; auto. destruct (x =? y); [apply Hself|apply shows_other, Htext].
  - apply Hel. intros b q [->|[-> (c & Hc)]]; [apply clean_append_at; auto|].
    unfold append_at. cbn [shows]. rewrite Hc. cbn [bind]. rewrite (element_relative w E (st x) n c (Hs x) Hc). apply clean_append; auto.
    eapply clean_in; [apply H|eapply nth_error_In; exact Hc].
  - apply Hel. intros b q [->|[-> _]]; apply clean_concat_at; auto. pose proof (shows_elem w (st x) (pathname (st x)) (ptyp (st x)) n (H x)) as Hx.
    destruct (st x). exact Hx.
  - apply Hel. intros b q [->|[-> _]]; apply clean_replace_extension_at; auto; intros t Ht; [apply shows_self, Ht|eapply shows_elem, H].
Qed.

Lemma wf_generic_loop : forall l s b, Forall (fun p => well_formed (native p)) l -> well_formed s -> well_formed (generic_loop l s b).
Proof.
  induction l as [|e l IH]; intros s b Hl Hs; [exact Hs|]. inversion Hl as [|? ? He Hl']; subst. cbn [generic_loop].
  assert (Hx : well_formed ((if b then s ++ [slash] else s) ++ pathname e)).
  { apply wf_app; [|exact He]. destruct b; [apply wf_app; [exact Hs|apply wf_slash]|exact Hs]. }
  destruct (ptyp e); apply IH; auto.
  - apply wf_app; [exact Hs|]. apply wf_forward, He.
  - apply wf_app; [exact Hs|apply wf_slash].
Qed.

(** On both systems, in every history of operations, also with arguments that are the modified path or one of its elements: when the texts
    put in are well-formed UTF-8, so are the text, the generic text, the elements and the streamed text of every path. Missing: the results of
    parent_path where the compiler elides the copy, which refute it (below), and those of lexically_normal; appending the first element of a
    path to the path itself, which is C89. *)
Theorem C96_both_systems_partial : forall w E l, forallb (usable E) l = true -> Forall given l -> exists st, exec_alias_all w E start l = Ok st /\
  forall x, well_formed (native (st x)) /\ well_formed (generic_string (st x)) /\ Forall well_formed (map native (elems (st x))) /\
    well_formed (stream_out (st x)).
Proof.
  intros w E l Hu Hg.
  assert (Hk : forall st, all_sound w st -> all_clean w st -> exists st', exec_alias_all w E st l = Ok st' /\ all_clean w st').
  { induction l as [|a l IH]; intros st Hs Hc; cbn [exec_alias_all]; [eauto|]. cbn [forallb] in Hu. apply andb_true_iff in Hu as [Ha Hl]. inversion Hg; subst.
    destruct (exec_alias_sound w E st a Ha Hs) as (st' & Ex & Hs'). rewrite Ex. cbn [bind]. apply IH; auto.
    eapply exec_alias_clean; [exact Ha|assumption|exact Hs|exact Hc|exact Ex]. }
  destruct (Hk start) as (st & Hst & Hc); [intros x; apply sound_default|intros x; apply clean_default|]. exists st. split; [exact Hst|]. intros x.
  assert (He : Forall (fun p => well_formed (native p)) (elems (st x))) by (eapply Forall_impl; [|apply clean_elems, Hc]; intros p Hp; apply (u_text _ _ Hp)).
  split; [apply (u_text _ _ (Hc x))|]. split; [apply wf_generic_loop; [exact He|apply wf_nil]|]. split; [apply Forall_map, He|].
  unfold stream_out. apply wf_cons; [reflexivity|]. apply wf_app; [|apply wf_ascii; reflexivity].
  apply (wf_body (length (pathname (st x)))); [apply le_n|apply (u_text _ _ (Hc x))].
Qed.

(** ** Elided results of parent_path *)

Definition no_sep (w : platform) (s : str) : Prop := forallb (fun c => negb (is_sep w c)) s = true.

Lemma scan_name : forall w n s rest pos back acc, no_sep w n -> scan w s (n ++ rest) pos back acc = scan w s rest (pos + length n) back acc.
Proof.
  intros w n. induction n as [|c n IH]; intros s rest pos back acc H; cbn [app length scan]; [rewrite Nat.add_0_r; reflexivity|].
  unfold no_sep in H. cbn [forallb] in H. apply andb_true_iff in H as [Hc H]. apply negb_true_iff in Hc. rewrite Hc, IH by exact H. rewrite Nat.add_succ_comm. reflexivity.
Qed.
Lemma no_sep_preferred : forall w s, no_sep w s -> to_preferred w s = s.
Proof.
  intros [] s H; [reflexivity|]. unfold no_sep in H. cbn [to_preferred]. induction s as [|c s IH]; [reflexivity|]. cbn [forallb map] in *. apply andb_true_iff in H as [Hc H].
  rewrite (IH H). cbn in Hc. apply negb_true_iff, orb_false_iff in Hc as [Hc _]. rewrite Hc. reflexivity.
Qed.

Lemma split_no_sep : forall w s, no_sep w s -> pathname (split_components w s) = s.
Proof.
  intros w s H. destruct s as [|c s]; [reflexivity|]. unfold split_components.
  assert (Hc : is_sep w c = false) by (unfold no_sep in H; cbn [forallb] in H; apply andb_true_iff in H as [H _]; apply negb_true_iff, H). rewrite Hc.
  assert (Hn : pathname (split_tail w (c :: s) 0 []) = c :: s).
  { unfold split_tail. cbn [skipn]. pose proof (scan_name w (c :: s) (c :: s) [] 0 0 [] H) as Hx. rewrite app_nil_r in Hx. rewrite Hx. cbn [scan Nat.add].
    replace (0 =? length (c :: s)) with false by (symmetry; apply Nat.eqb_neq; cbn; lia). cbn [negb app trim comps pathname filename_comp c_str substr skipn].
    unfold filename_comp, substr. cbn [c_str skipn]. rewrite Nat.sub_0_r. apply firstn_all. }
  destruct w; [exact Hn|]. destruct s as [|c1 r]; [exact Hn|]. destruct (Ascii.eqb c1 colon); [|exact Hn].
  assert (Hr : no_sep Windows r) by (unfold no_sep in *; cbn [forallb] in H; apply andb_true_iff in H as [_ H]; apply andb_true_iff in H as [_ H]; exact H).
  assert (Hx : match r with c2 :: _ => if is_sep Windows c2 then [root_dir_comp Windows (c :: c1 :: r) 2] else [] | [] => [] end = []).
  { destruct r as [|c2 r]; [reflexivity|]. unfold no_sep in Hr. cbn [forallb] in Hr. apply andb_true_iff in Hr as [Hr _]. apply negb_true_iff in Hr. rewrite Hr. reflexivity. }
  rewrite Hx. unfold split_tail. cbn [skipn]. pose proof (scan_name Windows r (c :: c1 :: r) [] 2 2 [root_name_comp Windows (c :: c1 :: r) 2] Hr) as Hsc.
  rewrite app_nil_r in Hsc. rewrite Hsc. cbn [scan]. destruct r as [|c2 r].
  - cbn [length Nat.add Nat.eqb negb]. assert (Hp : to_preferred Windows [c; c1] = [c; c1]) by (apply no_sep_preferred; exact H).
    destruct (match last (map Some [c; c1]) None with Some x => _ | None => _ end); cbn [map last root_name_comp c_type ptype_eqb trim comps pathname c_str];
      unfold root_name_comp, substr; cbn [c_str skipn firstn]; exact Hp.
  - replace (2 =? 2 + length (c2 :: r)) with false by (symmetry; apply Nat.eqb_neq; cbn; lia). cbn [negb app trim comps pathname]. reflexivity.
Qed.

Lemma tail_two : forall w s pos cs n m, skipn pos s = n ++ slash :: m -> no_sep w n -> n <> [] -> no_sep w m -> m <> [] ->
  split_tail w s pos cs = Path s (cs ++ [filename_comp s pos (length n); filename_comp s (S (pos + length n)) (length m)]) MULTI.
Proof.
  intros w s pos cs n m Hs Hn Hnn Hm Hmn. unfold split_tail. rewrite Hs, scan_name by exact Hn. cbn [scan].
  replace (is_sep w slash) with true by (destruct w; reflexivity).
  assert (Hln : 0 < length n) by (destruct n; [congruence|cbn; lia]). assert (Hlm : 0 < length m) by (destruct m; [congruence|cbn; lia]).
  replace (pos =? pos + length n) with false by (symmetry; apply Nat.eqb_neq; lia).
  pose proof (scan_name w m s [] (S (pos + length n)) (S (pos + length n)) (cs ++ [filename_comp s pos (pos + length n - pos)]) Hm) as Hx.
  rewrite app_nil_r in Hx. rewrite Hx. cbn [scan].
  replace (S (pos + length n) =? S (pos + length n) + length m) with false by (symmetry; apply Nat.eqb_neq; lia). cbn [negb].
  replace (pos + length n - pos) with (length n) by lia. replace (S (pos + length n) + length m - S (pos + length n)) with (length m) by lia.
  rewrite <- app_assoc. cbn [app]. unfold trim. cbn [comps]. destruct cs as [|a [|b cs]]; reflexivity.
Qed.

Lemma split_two : forall w n m, no_sep w n -> 2 < length n -> no_sep w m -> m <> [] -> pathname (split_components w (n ++ slash :: m)) = n ++ slash :: m.
Proof.
  intros w n m Hn Hl Hm Hmn. destruct n as [|c [|c1 [|c2 r]]]; cbn in Hl; try lia. cbn [app]. unfold split_components.
  pose proof Hn as Hn'. unfold no_sep in Hn'. cbn [forallb] in Hn'. apply andb_true_iff in Hn' as [Hc Hn']. apply andb_true_iff in Hn' as [_ Hn']. pose proof Hn' as Hr.
  apply andb_true_iff in Hn' as [Hc2 _]. apply negb_true_iff in Hc. apply negb_true_iff in Hc2. rewrite Hc, Hc2.
  assert (Hz : pathname (split_tail w (c :: c1 :: c2 :: r ++ slash :: m) 0 []) = c :: c1 :: c2 :: r ++ slash :: m).
  { rewrite (tail_two w (c :: c1 :: c2 :: r ++ slash :: m) 0 [] (c :: c1 :: c2 :: r) m); auto; discriminate. }
  destruct w; [exact Hz|]. destruct (Ascii.eqb c1 colon); [|exact Hz].
  rewrite (tail_two Windows (c :: c1 :: c2 :: r ++ slash :: m) 2 _ (c2 :: r) m); auto; discriminate.
Qed.

(** A directory below three slashes or more, and a name in it. *)
Definition below (k : nat) (n m : str) : str := slash :: slash :: slash :: repeat slash k ++ n ++ slash :: m.

Lemma below_skip : forall k n m, skipn (3 + k) (below k n m) = n ++ slash :: m.
Proof. intros. unfold below. cbn [Nat.add skipn]. rewrite skipn_app, repeat_length, Nat.sub_diag, skipn_all2 by (rewrite repeat_length; lia). reflexivity. Qed.

Lemma below_split : forall w k n m, no_sep w n -> n <> [] -> no_sep w m -> m <> [] ->
  split_components w (below k n m) =
    Path (below k n m) [Comp [preferred_separator w] ROOT_DIR 0; Comp n FILENAME (3 + k); Comp m FILENAME (4 + k + length n)] MULTI.
Proof.
  intros w k n m Hn Hnn Hm Hmn. assert (Hss : is_sep w slash = true) by (destruct w; reflexivity). pose proof (below_skip k n m) as H1.
  assert (H2 : skipn (S (3 + k + length n)) (below k n m) = m).
  { replace (S (3 + k + length n)) with ((3 + k) + (length n + 1)) by lia. rewrite <- skipn_add, H1, <- skipn_add, skipn_len by reflexivity. reflexivity. }
  assert (Hmore : forall j, j <= k -> forall cs, split_tail w (below k n m) (3 + j) cs = split_tail w (below k n m) (3 + k) cs).
  { intros j Hj cs. remember (k - j) as d eqn:Hd. revert j Hj Hd. induction d as [|d IH]; intros j Hj Hd; [replace j with k by lia; reflexivity|].
    rewrite (tail_sep w (below k n m) (3 + j) cs slash (repeat slash d ++ n ++ slash :: m)); [apply (IH (S j)); lia| |exact Hss].
    unfold below. cbn [Nat.add skipn]. rewrite skipn_app, repeat_length. replace (j - k) with 0 by lia. cbn [skipn].
    replace k with (j + S d) by lia. rewrite repeat_app, skipn_app, skipn_all2, repeat_length, Nat.sub_diag by (rewrite repeat_length; lia). reflexivity. }
  assert (Htail : split_tail w (below k n m) 1 [root_dir_comp w (below k n m) 0] =
    Path (below k n m) [Comp [preferred_separator w] ROOT_DIR 0; Comp n FILENAME (3 + k); Comp m FILENAME (4 + k + length n)] MULTI).
  { rewrite (tail_sep w (below k n m) 1 _ slash (slash :: repeat slash k ++ n ++ slash :: m) eq_refl Hss).
    rewrite (tail_sep w (below k n m) 2 _ slash (repeat slash k ++ n ++ slash :: m) eq_refl Hss).
    rewrite (Hmore 0) by lia. rewrite (tail_two w _ (3 + k) _ n m H1 Hn Hnn Hm Hmn). unfold filename_comp, substr. rewrite H1, H2.
    rewrite firstn_len, firstn_all by reflexivity. destruct w; reflexivity. }
  unfold split_components. unfold below at 1 2 3 4 5. rewrite Hss. fold (below k n m).
  assert (Hroot : split_rooted w (below k n m) = split_tail w (below k n m) 1 [root_dir_comp w (below k n m) 0]).
  { unfold split_rooted. replace (forallb _ (below k n m)) with false; [reflexivity|]. symmetry. unfold below. cbn [forallb]. rewrite !forallb_app.
    destruct n as [|a n]; [congruence|]. cbn [forallb]. replace (Ascii.eqb a slash) with false; [rewrite !andb_false_r; reflexivity|].
    unfold no_sep in Hn. cbn [forallb] in Hn. apply andb_true_iff in Hn as [Ha _]. apply negb_true_iff in Ha. destruct w; cbn in Ha; [auto|]. apply orb_false_iff in Ha as [Ha _]. auto. }
  destruct w; [rewrite Hroot; exact Htail|]. unfold below. fold (below k n m).
  change (Ascii.eqb slash slash) with true. change (is_sep Windows slash) with true. cbn [negb].
  rewrite (tail_sep Windows (below k n m) 0 _ slash (slash :: slash :: repeat slash k ++ n ++ slash :: m) eq_refl eq_refl). exact Htail.
Qed.

(** On both systems: the parent of such a path, kept as the compiler elides the copy, cuts the name of the directory when asked for its
    relative part. Any name in which a character lies across byte [2 + k] loses part of it. *)
Theorem C96_elided_parent_refuted : forall w E k n m b, el_parent E = true -> no_sep w n -> no_sep w m -> m <> [] ->
  nth_error n (2 + k) = Some b -> continuation b = true ->
  exists q r, parent_path w E (split_components w (below k n m)) = Ok q /\ native q = preferred_separator w :: n /\
    relative_path w E q = Ok r /\ native r = skipn (2 + k) n /\ ~ well_formed (native r).
Proof.
  intros w E k n m b HE Hn Hm Hmn Hb Hcb.
  assert (Hlk : 2 + k < length n) by (apply nth_error_Some; congruence).
  assert (Hnn : n <> []) by (intros ->; cbn in Hlk; lia).
  rewrite below_split by auto. set (p := Path (below k n m) _ MULTI).
  assert (Hlen : length (below k n m) = 4 + k + length n + length m) by (unfold below; cbn [length]; rewrite !app_length, repeat_length; cbn [length]; lia).
  assert (Hh : has_relative_path w E p = Ok true).
  { unfold has_relative_path, relative_path, p. cbn [ptyp comps skip_root_name skip_root_dir c_type ptype_eqb pathname c_pos].
    unfold str_substr_from. rewrite Hlen. replace (3 + k <=? 4 + k + length n + length m) with true by (symmetry; apply Nat.leb_le; lia). cbn [bind].
    rewrite below_skip. unfold fin. rewrite split_two by (auto; lia). unfold empty.
    destruct (el_other E); rewrite split_two by (auto; lia); destruct n; reflexivity. }
  unfold parent_path. rewrite Hh. cbn [bind negb]. unfold p. cbn [ptyp comps drop_end rev app c_str]. destruct m as [|m0 m']; [congruence|]. cbn [is_nil bind]. rewrite HE. unfold fin at 1.
  set (q := Path _ _ MULTI). assert (Hq : pathname q = preferred_separator w :: n).
  { unfold q. cbn [pathname rebuild c_str app]. unfold append_sep_if_needed. cbn [map last]. destruct w; reflexivity. }
  assert (Hcut : skipn (3 + k) (preferred_separator w :: n) = skipn (2 + k) n) by reflexivity.
  assert (Hns : no_sep w (skipn (2 + k) n)).
  { unfold no_sep in *. rewrite <- (firstn_skipn (2 + k) n), forallb_app in Hn. apply andb_true_iff in Hn. apply Hn. }
  exists q, (fin w (el_other E) (split_components w (skipn (2 + k) n))). split; [reflexivity|]. split; [exact Hq|]. split.
  { unfold relative_path. rewrite Hq. unfold q. cbn [ptyp comps skip_root_name skip_root_dir c_type ptype_eqb c_pos]. unfold str_substr_from.
    replace (3 + k <=? length (preferred_separator w :: n)) with true by (symmetry; apply Nat.leb_le; cbn [length]; lia). cbn [bind]. rewrite Hcut. reflexivity. }
  assert (Hnat : native (fin w (el_other E) (split_components w (skipn (2 + k) n))) = skipn (2 + k) n).
  { unfold native, fin. destruct (el_other E); [|rewrite (split_no_sep w (skipn (2 + k) n)) by exact Hns]; apply split_no_sep, Hns. }
  split; [exact Hnat|]. rewrite Hnat. intros Hw.
  destruct (nth_error_split n (2 + k) Hb) as (u & v & Hu & Hlu). rewrite Hu, skipn_len in Hw by exact Hlu. apply wf_head in Hw. congruence.
Qed.

(** * Examples *)

(** A host and a directory with an accented letter, and a name of an ideograph, a dot and the letter: the parent, the name without its
    extension, a directory appended to itself, the name appended once more. *)
Definition share : str := utf8 [92; 92; 233; 115; 47; 233; 47]%N.
Definition share_history : list astmt :=
  [APlain (SText 0 share); APlain (SConcat 0 kanji); APlain (SStem 1 0); APlain (SParentPath 2 0); APlain (SReplaceExtension 0 1);
   AAppendElement 0 1; APlain (SNormal 3 0); APlain (SRelativePath 4 0)].
Example C96_example_both : forall o, forallb (usable (Elision false false o)) share_history = true /\ Forall given share_history /\
  match exec_alias_all Windows (Elision false false o) start share_history with
  | Ok st => map (fun x => native (st x)) [0; 1; 2; 3; 4] =
      [utf8 [92; 92; 233; 115; 47; 233; 47; 26085; 46; 26085; 92; 233]; utf8 [26085]; utf8 [92; 92; 233; 115; 92; 92; 233];
       utf8 [92; 92; 233; 115; 92; 233; 92; 26085; 46; 26085; 92; 233]; utf8 [233; 47; 26085; 46; 26085; 92; 233]]%N
  | _ => False
  end.
Proof.
  intros o. split; [destruct o; reflexivity|]. split; [|destruct o; vm_compute; reflexivity].
  repeat constructor; cbn [given given_text]; try exact Logic.I.
  - exists [92; 92; 233; 115; 47; 233; 47]%N. split; [repeat constructor; unfold scalar; lia|reflexivity].
  - apply C96_example.
Qed.
(** The directory [aé] below three slashes: the relative part of the parent starts inside the letter. *)
Example C96_example_elided : forall w, no_sep w (utf8 [97; 233]%N) /\ no_sep w (lit "b") /\ nth_error (utf8 [97; 233]%N) 2 = Some (ascii_of_N 169) /\
  continuation (ascii_of_N 169) = true.
Proof. intros []; repeat split. Qed.

Print Assumptions C96_both_systems_partial.
Print Assumptions C96_elided_parent_refuted.
