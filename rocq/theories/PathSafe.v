(** No operation on paths fails, on either system, in any history (C97). *)
From Coq Require Import Ascii String Bool Arith NArith ZArith Lia List.
From Verif Require Import Str StrProofs PathModel PathReach AliasModel AliasProps AliasReach.
Import ListNotations.

(** * The condition every path meets *)

(** The element lies inside the text. *)
Definition within (t : str) (c : comp) : Prop := c_pos c + length (c_str c) <= length t.

(** Each element ends before the next one starts. *)
Fixpoint in_order (l : list comp) : Prop :=
  match l with c :: ((d :: _) as r) => c_pos c + length (c_str c) <= c_pos d /\ in_order r | _ => True end.

(** The last element lies inside the text, or it is an empty name after a name. *)
Definition ends_in (t : str) (l : list comp) : Prop :=
  match rev l with
  | [] => True
  | [c] => within t c
  | c :: d :: _ => within t c \/ (c_str c = [] /\ c_type c = FILENAME /\ c_type d = FILENAME /\ within t d)
  end.

(** The elements after the root name and the root directory. *)
Definition rel (l : list comp) : list comp := skip_root_dir (skip_root_name l).

(** The last character is a separator. *)
Definition trailing (w : platform) (t : str) : bool :=
  match last (map Some t) None with Some c => is_sep w c | None => false end.

Record sound (w : platform) (p : path) : Prop := Sound {
  s_single : ptyp p <> MULTI -> comps p = [];
  s_types : Forall (fun c => c_type c <> MULTI) (comps p);
  s_rel : Forall (fun c => c_type c = FILENAME) (rel (comps p));
  s_some : comps p = [] -> ptyp p = MULTI -> pathname p = [];
  s_alone : forall c, comps p = [c] -> c_type c <> FILENAME;
  s_order : in_order (comps p);
  s_end : ends_in (pathname p) (comps p);
  s_trail : forall l c, comps p = l ++ [c] -> c_type c = FILENAME -> c_str c <> [] -> trailing w (pathname p) = false }.

(** * Lists of elements *)

Lemma in_order_app : forall l c d r, in_order (l ++ c :: d :: r) <-> in_order (l ++ [c]) /\ c_pos c + length (c_str c) <= c_pos d /\ in_order (d :: r).
Proof.
  induction l as [|a l IH]; intros c d r; [cbn; tauto|].
  destruct l as [|b l].
  - cbn [app] in *. cbn [in_order]. tauto.
  - change ((a :: b :: l) ++ c :: d :: r) with (a :: b :: (l ++ c :: d :: r)).
    change ((a :: b :: l) ++ [c]) with (a :: b :: (l ++ [c])). cbn [in_order]. specialize (IH c d r).
    change ((b :: l) ++ c :: d :: r) with (b :: (l ++ c :: d :: r)) in IH. change ((b :: l) ++ [c]) with (b :: (l ++ [c])) in IH. tauto.
Qed.
Lemma in_order_front : forall l r, in_order (l ++ r) -> in_order l.
Proof.
  induction l as [|a l IH]; intros r H; [exact Logic.I|]. destruct l as [|b l]; [exact Logic.I|].
  cbn in H. cbn. split; [tauto|]. apply (IH r). tauto.
Qed.
Lemma in_order_before : forall l c r, in_order (l ++ c :: r) -> Forall (fun d => c_pos d + length (c_str d) <= c_pos c) l.
Proof.
  induction l as [|a l IH]; intros c r H; [constructor|]. constructor.
  - destruct l as [|b l]; [cbn in H; tauto|]. cbn in H. destruct H as [H1 H2].
    specialize (IH c r H2). inversion IH; subst. lia.
  - apply (IH c r). destruct l as [|b l]; [cbn in *; tauto|]. cbn in H. apply H.
Qed.
Lemma in_order_snoc : forall l c, in_order l -> Forall (fun d => c_pos d + length (c_str d) <= c_pos c) l -> in_order (l ++ [c]).
Proof.
  induction l as [|a l IH]; intros c H Hf; [exact Logic.I|]. inversion Hf as [|x y Ha Hl]; subst. destruct l as [|b l]; [cbn; auto|].
  cbn in H |- *. split; [tauto|]. apply IH; tauto.
Qed.

Lemma rel_app : forall l, exists pre, l = pre ++ rel l /\ (pre = [] \/ (exists c, pre = [c] /\ c_type c <> FILENAME) \/
  exists c d, pre = [c; d] /\ c_type c <> FILENAME /\ c_type d <> FILENAME).
Proof.
  intros l. unfold rel, skip_root_name, skip_root_dir. destruct l as [|c r]; [exists []; auto|].
  destruct (c_type c) eqn:Ec; cbn [ptype_eqb].
  - rewrite Ec. cbn. exists []. auto.
  - destruct r as [|d r]; [exists [c]; split; [reflexivity|]; right; left; exists c; split; congruence|].
    destruct (c_type d) eqn:Ed; cbn [ptype_eqb];
      try (exists [c]; split; [reflexivity|]; right; left; exists c; split; congruence).
    exists [c; d]. split; [reflexivity|]. right; right. exists c, d. split; [reflexivity|]. split; congruence.
  - rewrite Ec. cbn. exists [c]. split; [reflexivity|]. right; left. exists c. split; congruence.
  - rewrite Ec. cbn. exists []. auto.
Qed.

(** Every element but a stale last one lies inside. *)
Lemma ends_before : forall t l c d r, in_order l -> ends_in t l -> l = r ++ [c; d] -> within t c.
Proof.
  intros t l c d r Ho He ->. unfold ends_in in He. rewrite rev_app_distr in He. cbn in He.
  destruct He as [He|(_ & _ & _ & He)]; [|exact He].
  apply in_order_app in Ho as (_ & H & _). unfold within in *. lia.
Qed.
Lemma inside : forall t l a c r, in_order l -> ends_in t l -> l = a ++ c :: r -> r <> [] -> within t c.
Proof.
  intros t l a c r Ho He -> Hr. destruct (exists_last Hr) as (r' & d & ->). clear Hr.
  destruct r' as [|x r' _] using rev_ind.
  - apply (ends_before t _ c d a Ho He). reflexivity.
  - assert (Hx : within t x). { apply (ends_before t _ x d (a ++ c :: r') Ho He). repeat (rewrite <- ?app_assoc; cbn [app]). reflexivity. }
    replace (a ++ c :: (r' ++ [x]) ++ [d]) with ((a ++ c :: r') ++ x :: [d]) in Ho by (rewrite <- !app_assoc; reflexivity).
    apply in_order_before in Ho. rewrite Forall_app in Ho. destruct Ho as [_ Ho]. inversion Ho; subst. unfold within in *. lia.
Qed.

(** * SplitComponents *)

(** The elements found so far end at or before the position [b]. *)
Definition upto (b : nat) (l : list comp) : Prop := in_order l /\ Forall (fun c => c_pos c + length (c_str c) <= b) l.

Lemma upto_more : forall b b' l, upto b l -> b <= b' -> upto b' l.
Proof. intros b b' l [H1 H2] Hb. split; auto. eapply Forall_impl; [|exact H2]. cbn. intros. lia. Qed.
Lemma upto_snoc : forall b l c, upto b l -> b <= c_pos c -> upto (c_pos c + length (c_str c)) (l ++ [c]).
Proof.
  intros b l c [H1 H2] Hb. split.
  - apply in_order_snoc; auto. eapply Forall_impl; [|exact H2]. cbn. intros. lia.
  - apply Forall_app. split; [|constructor; auto]. eapply Forall_impl; [|exact H2]. cbn. intros. lia.
Qed.

Lemma scan_sound : forall w s rest pos back acc acc' back' pos', scan w s rest pos back acc = (acc', back', pos') ->
  back <= pos -> pos + length rest = length s -> upto back acc -> acc <> [] \/ back < pos \/ match rest with c :: _ => is_sep w c = false | [] => False end ->
  pos' = length s /\ (back <= back' /\ back' <= pos') /\ upto back' acc' /\ (acc' <> [] \/ back' < pos') /\
  (exists names, acc' = acc ++ names /\ Forall (fun c => c_type c = FILENAME) names) /\
  (rest <> [] -> back' < pos' -> match last (map Some rest) None with Some c => is_sep w c = false | None => False end).
Proof.
  intros w s rest. induction rest as [|c r IH]; intros pos back acc acc' back' pos' H Hb Hl Hu Hn; cbn [scan] in H.
  - injection H as <- <- <-. cbn in Hl. repeat split; try lia; auto; try apply Hu; [tauto| |congruence].
    exists []. rewrite app_nil_r. split; auto.
  - cbn in Hl. destruct (is_sep w c) eqn:Es.
    + set (acc1 := if back =? pos then acc else acc ++ [filename_comp s back (pos - back)]) in *.
      assert (Hu1 : upto (S pos) acc1).
      { subst acc1. destruct (back =? pos) eqn:Eb; [eapply upto_more; eauto|].
        apply Nat.eqb_neq in Eb. eapply upto_more; [apply (upto_snoc back); [exact Hu|apply le_n]|].
        unfold filename_comp, substr. cbn [c_pos c_str]. rewrite firstn_length. lia. }
      assert (Hn1 : acc1 <> []).
      { subst acc1. destruct (back =? pos) eqn:Eb; [|destruct acc; discriminate].
        apply Nat.eqb_eq in Eb. destruct Hn as [Hn|[Hn|Hn]]; [auto|lia|congruence]. }
      specialize (IH (S pos) (S pos) acc1 acc' back' pos' H (le_n _) ltac:(lia) Hu1 (or_introl Hn1)) as (A & B & C & D & (ns & N1 & N2) & F).
      split; [assumption|]. split; [lia|]. do 2 (split; [assumption|]). split.
      * subst acc1. destruct (back =? pos); [exists ns; auto|]. exists (filename_comp s back (pos - back) :: ns).
        rewrite N1, <- app_assoc. split; auto.
      * intros _ Hlt. destruct r as [|c2 r2]; [|cbn [map last] in *; apply F; [discriminate|exact Hlt]].
        cbn [scan] in H. injection H as <- <- <-. lia.
    + assert (Hlt0 : back < S pos) by lia.
      specialize (IH (S pos) back acc acc' back' pos' H ltac:(lia) ltac:(lia) Hu (or_intror (or_introl Hlt0))) as (A & B & C & D & N & F).
      do 5 (split; [assumption|]). intros _ Hlt. destruct r as [|c2 r2]; [cbn; exact Es|].
      cbn [map last] in *. apply F; [discriminate|exact Hlt].
Qed.

Lemma upto_end : forall t l b, upto b l -> b <= length t -> ends_in t l.
Proof.
  intros t l b [_ Hf] Hb. unfold ends_in. destruct (rev l) as [|c r] eqn:E; [exact Logic.I|].
  assert (Hc : within t c).
  { assert (In c l) by (rewrite in_rev, E; left; reflexivity). rewrite Forall_forall in Hf. specialize (Hf c H). unfold within. lia. }
  destruct r; auto.
Qed.

(** Root elements before the scan starts at [pos]. *)
Definition root_list (l : list comp) : Prop :=
  l = [] \/ (exists c, l = [c] /\ (c_type c = ROOT_NAME \/ c_type c = ROOT_DIR)) \/
  exists c d, l = [c; d] /\ c_type c = ROOT_NAME /\ c_type d = ROOT_DIR.

Lemma rel_roots : forall l names, root_list l -> Forall (fun c => c_type c = FILENAME) names -> rel (l ++ names) = names.
Proof.
  intros l names [->|[(c & -> & [Hc|Hc])|(c & d & -> & Hc & Hd)]] Hn; unfold rel, skip_root_name, skip_root_dir; cbn [app].
  - destruct names as [|a r]; auto. inversion Hn; subst. rewrite H1. cbn. rewrite H1. reflexivity.
  - rewrite Hc. cbn. destruct names as [|a r]; auto. inversion Hn; subst. rewrite H1. reflexivity.
  - rewrite Hc. cbn. rewrite Hc. reflexivity.
  - rewrite Hc. cbn. rewrite Hd. reflexivity.
Qed.
Lemma root_types : forall l names, root_list l -> Forall (fun c => c_type c = FILENAME) names -> Forall (fun c => c_type c <> MULTI) (l ++ names).
Proof.
  intros l names Hl Hn. apply Forall_app. split; [|eapply Forall_impl; [|exact Hn]; cbn; intros; congruence].
  destruct Hl as [->|[(c & -> & [Hc|Hc])|(c & d & -> & Hc & Hd)]]; repeat constructor; congruence.
Qed.

Lemma snoc_cases : forall A (l : list A), l = [] \/ exists a x, l = a ++ [x].
Proof. intros A l. destruct l as [|a l]; auto. right. destruct (@exists_last _ (a :: l)) as (b & x & ->); [discriminate|eauto]. Qed.
Lemma snoc_inv : forall A (a b : list A) x y, a ++ [x] = b ++ [y] -> a = b /\ x = y.
Proof. intros A a b x y H. apply app_inj_tail in H. exact H. Qed.

Lemma sound_trim : forall w s cs names, root_list cs -> Forall (fun c => c_type c = FILENAME) names -> cs ++ names <> [] ->
  in_order (cs ++ names) -> ends_in s (cs ++ names) ->
  (forall l c, cs ++ names = l ++ [c] -> c_type c = FILENAME -> c_str c <> [] -> trailing w s = false) ->
  sound w (trim (Path s (cs ++ names) MULTI)).
Proof.
  intros w s cs names Hc Hn Hne Ho He Ht. pose proof (root_types _ _ Hc Hn) as Hty. pose proof (rel_roots _ _ Hc Hn) as Hr.
  destruct (cs ++ names) as [|c [|d r]] eqn:E; [congruence| |].
  - cbn [trim comps]. inversion Hty; subst. split; cbn [comps ptyp pathname]; try constructor; auto; try discriminate.
    + congruence.
    + intros [|? ?] ? H; discriminate H.
  - cbn [trim comps]. split; cbn [comps ptyp pathname]; auto; try discriminate; try congruence.
Qed.

Lemma pref_is_sep : forall w c, Ascii.eqb c (preferred_separator w) = true -> is_sep w c = true.
Proof. intros [] c H; apply Ascii.eqb_eq in H; subst c; reflexivity. Qed.

Lemma last_map_skipn : forall (s : str) n, skipn n s <> [] -> last (map Some (skipn n s)) None = last (map Some s) None.
Proof.
  intros s n H. rewrite <- (firstn_skipn n s) at 2. destruct (exists_last H) as (a & x & ->).
  rewrite app_assoc, !map_app. cbn [map]. rewrite !last_last. reflexivity.
Qed.

Lemma sound_tail : forall w s pos cs, pos <= length s -> root_list cs -> upto pos cs ->
  (cs <> [] \/ match skipn pos s with c :: _ => is_sep w c = false | [] => False end) -> sound w (split_tail w s pos cs).
Proof.
  intros w s pos cs Hp Hc Hu Hn. unfold split_tail.
  destruct (scan w s (skipn pos s) pos pos cs) as [[acc back] pos'] eqn:E.
  apply scan_sound in E as (A & [B0 B] & C & D & (ns & N1 & N2) & F); auto; try (rewrite skipn_length; lia); [|tauto].
  subst pos'. subst acc.
  assert (Hsk : back < length s -> match last (map Some s) None with Some c => is_sep w c = false | None => False end).
  { intros Hlt. assert (Hs : skipn pos s <> []).
    { intros Hs. assert (H : length (skipn pos s) = 0) by (rewrite Hs; reflexivity). rewrite skipn_length in H. lia. }
    specialize (F Hs Hlt). rewrite last_map_skipn in F by exact Hs. exact F. }
  destruct (back =? length s) eqn:Eb; cbn [negb].
  - apply Nat.eqb_eq in Eb. subst back.
    assert (Hne : cs ++ ns <> []) by (destruct D as [D|D]; [exact D|lia]).
    assert (Hplain : (forall l c, cs ++ ns = l ++ [c] -> c_type c = FILENAME -> c_str c <> [] -> trailing w s = false) ->
       sound w (trim (Path s (cs ++ ns) MULTI))).
    { intros H. apply sound_trim; auto; [apply C|eapply upto_end; [exact C|auto]]. }
    unfold trailing in Hplain.
    destruct (last (map Some s) None) as [c|] eqn:El; [|apply Hplain; reflexivity].
    destruct (is_sep w c) eqn:Es.
    + destruct (exists_last Hne) as (l & x & Hx). rewrite Hx in *. rewrite map_app. cbn [map]. rewrite last_last.
      destruct (ptype_eqb (c_type x) FILENAME) eqn:Ex.
      * rewrite <- Hx in *. rewrite <- app_assoc. apply sound_trim; auto.
        -- apply Forall_app; split; auto.
        -- destruct cs; destruct ns; discriminate.
        -- rewrite app_assoc. apply (upto_snoc (length s) (cs ++ ns) (Comp [] FILENAME (length s)) C (le_n _)).
        -- rewrite app_assoc. eapply upto_end; [apply (upto_snoc (length s) (cs ++ ns) (Comp [] FILENAME (length s)) C (le_n _))|]. cbn. lia.
        -- intros l' c' H _ Hne'. rewrite app_assoc in H. apply snoc_inv in H as [_ <-]. cbn in Hne'. congruence.
      * apply Hplain. intros l' c' H Hf. apply snoc_inv in H as [_ <-]. rewrite Hf in Ex. discriminate.
    + apply Hplain. reflexivity.
  - apply Nat.eqb_neq in Eb. assert (Hlt : back < length s) by lia. specialize (Hsk Hlt).
    assert (Hu2 : upto (length s) ((cs ++ ns) ++ [filename_comp s back (length s - back)])).
    { eapply upto_more; [apply (upto_snoc back); [exact C|apply le_n]|].
      unfold filename_comp, substr. cbn [c_pos c_str]. rewrite firstn_length. lia. }
    rewrite <- app_assoc in *. apply sound_trim; auto.
    + apply Forall_app; split; auto.
    + destruct cs; destruct ns; discriminate.
    + apply Hu2.
    + eapply upto_end; [exact Hu2|auto].
    + intros _ _ _ _ _. unfold trailing. destruct (last (map Some s) None) as [c|]; [exact Hsk|reflexivity].
Qed.

(** A separator at the start of the scan changes nothing. *)
Lemma tail_sep : forall w s pos cs c r, skipn pos s = c :: r -> is_sep w c = true -> split_tail w s pos cs = split_tail w s (S pos) cs.
Proof.
  intros w s pos cs c r Hs Hc. unfold split_tail. rewrite Hs. cbn [scan]. rewrite Hc, Nat.eqb_refl.
  replace (skipn (S pos) s) with r; [reflexivity|].
  clear cs Hc. revert s Hs. induction pos as [|n IH]; intros [|a s] Hs; try discriminate.
  - cbn in *. congruence.
  - cbn [skipn] in *. apply (IH s Hs).
Qed.

Lemma length_preferred : forall w s, length (to_preferred w s) = length s.
Proof. intros [] s; cbn; auto. apply map_length. Qed.
Lemma length_substr : forall s a n, length (substr s a n) <= n.
Proof. intros. unfold substr. rewrite firstn_length. lia. Qed.

Lemma find_sep_spec : forall w rest pos, pos <= find_sep w rest pos /\ find_sep w rest pos <= pos + length rest /\
  (find_sep w rest pos < pos + length rest -> exists c r, skipn (find_sep w rest pos - pos) rest = c :: r /\ is_sep w c = true).
Proof.
  intros w rest. induction rest as [|c r IH]; intros pos; cbn [find_sep length].
  - repeat split; lia.
  - destruct (is_sep w c) eqn:E.
    + repeat split; try lia. intros _. rewrite Nat.sub_diag. cbn. eauto.
    + destruct (IH (S pos)) as (A & B & C). split; [lia|]. split; [lia|]. intros H.
      destruct C as (c' & r' & C1 & C2); [lia|]. exists c', r'. split; auto.
      replace (find_sep w r (S pos) - pos) with (S (find_sep w r (S pos) - S pos)) by lia. exact C1.
Qed.

Lemma upto_name : forall w s n, upto n [root_name_comp w s n].
Proof.
  intros. split; [exact Logic.I|]. constructor; [|constructor]. unfold root_name_comp. cbn [c_pos c_str]. rewrite length_preferred. apply length_substr.
Qed.
Lemma upto_dir : forall w s n, upto (S n) [root_dir_comp w s n].
Proof.
  intros. split; [exact Logic.I|]. constructor; [|constructor]. unfold root_dir_comp. cbn [c_pos c_str]. rewrite length_preferred.
  pose proof (length_substr s n 1). lia.
Qed.
Lemma upto_both : forall w s n, upto (S n) [root_name_comp w s n; root_dir_comp w s n].
Proof.
  intros. change [root_name_comp w s n; root_dir_comp w s n] with ([root_name_comp w s n] ++ [root_dir_comp w s n]).
  eapply upto_more; [apply (upto_snoc n); [apply upto_name|apply le_n]|].
  unfold root_dir_comp. cbn [c_pos c_str]. rewrite length_preferred. pose proof (length_substr s n 1). lia.
Qed.
Lemma roots_1n : forall w s n, root_list [root_name_comp w s n].
Proof. intros. right; left. eexists; split; [reflexivity|left; reflexivity]. Qed.
Lemma roots_1d : forall w s n, root_list [root_dir_comp w s n].
Proof. intros. right; left. eexists; split; [reflexivity|right; reflexivity]. Qed.
Lemma roots_2 : forall w s n, root_list [root_name_comp w s n; root_dir_comp w s n].
Proof. intros. right; right. do 2 eexists; split; [reflexivity|split; reflexivity]. Qed.

Lemma sound_rooted : forall w s, s <> [] -> sound w (split_rooted w s).
Proof.
  intros w s Hs. unfold split_rooted. destruct (forallb (fun c => Ascii.eqb c slash) s).
  - cbn [trim comps]. split; cbn [comps ptyp pathname]; try constructor; auto; try discriminate. intros [|? ?] ? H; discriminate H.
  - apply sound_tail; [destruct s; [congruence|cbn; lia]|apply roots_1d|apply upto_dir|left; discriminate].
Qed.

Lemma skipn_add : forall (s : str) a b, skipn a (skipn b s) = skipn (b + a) s.
Proof. intros s a b. revert s. induction b as [|b IH]; intros [|c s]; cbn; auto; destruct a; auto. Qed.

Theorem sound_split : forall w s, sound w (split_components w s).
Proof.
  intros w s. unfold split_components. destruct s as [|c0 s1].
  { split; cbn [comps ptyp pathname]; try constructor; auto; try discriminate. }
  destruct (is_sep w c0) eqn:E0.
  - destruct w; [apply sound_rooted; discriminate|]. destruct s1 as [|c1 [|c2 r]]; try (apply sound_rooted; discriminate).
    destruct (Ascii.eqb c1 c0); [|apply sound_rooted; discriminate]. destruct (is_sep Windows c2) eqn:E2; cbn [negb].
    + rewrite (tail_sep Windows (c0 :: c1 :: c2 :: r) 0 _ c0 (c1 :: c2 :: r) eq_refl E0).
      apply sound_tail; [cbn; lia|apply roots_1d|apply upto_dir|left; discriminate].
    + set (s := c0 :: c1 :: c2 :: r). change (skipn 3 s) with r. destruct (find_sep_spec Windows r 3) as (A & B & C).
      set (pos := find_sep Windows r 3) in *. assert (Hlen : length s = 3 + length r) by reflexivity.
      destruct (pos <? length s) eqn:Ep.
      * apply Nat.ltb_lt in Ep. destruct C as (c & r' & C1 & C2); [lia|].
        assert (Hsk : skipn pos s = c :: r').
        { replace pos with (3 + (pos - 3)) by lia. rewrite <- skipn_add. exact C1. }
        rewrite (tail_sep Windows s pos _ c r' Hsk C2). apply sound_tail; [lia|apply roots_2|apply upto_both|left; discriminate].
      * apply sound_tail; [lia|apply roots_1n|apply upto_name|left; discriminate].
  - destruct w.
    { apply sound_tail; [cbn; lia|left; reflexivity|split; [exact Logic.I|constructor]|right; exact E0]. }
    destruct s1 as [|c1 r].
    { apply sound_tail; [cbn; lia|left; reflexivity|split; [exact Logic.I|constructor]|right; exact E0]. }
    destruct (Ascii.eqb c1 colon).
    2:{ apply sound_tail; [cbn; lia|left; reflexivity|split; [exact Logic.I|constructor]|right; exact E0]. }
    destruct r as [|c2 r]; [apply sound_tail; [cbn; lia|apply roots_1n|apply upto_name|left; discriminate]|].
    destruct (is_sep Windows c2) eqn:E2.
    + rewrite (tail_sep Windows (c0 :: c1 :: c2 :: r) 2 _ c2 r eq_refl E2).
      apply sound_tail; [cbn; lia|apply roots_2|apply upto_both|left; discriminate].
    + apply sound_tail; [cbn; lia|apply roots_1n|apply upto_name|left; discriminate].
Qed.

(** * The operations *)

Lemma sound_default : forall w, sound w path_default.
Proof. intros w. split; cbn [path_default comps ptyp pathname]; try constructor; auto; discriminate. Qed.
Lemma sound_comp : forall w c, c_type c <> MULTI -> sound w (comp_path c).
Proof.
  intros w c Hc. split; cbn [comp_path comps ptyp pathname]; try constructor; auto; try discriminate; try congruence. intros [|? ?] ? H; discriminate H.
Qed.
Lemma sound_fin : forall w b p, sound w p -> sound w (fin w b p).
Proof. intros w b p H. unfold fin. destruct b; [exact H|apply sound_split]. Qed.
Lemma sound_in : forall w p c, sound w p -> In c (comps p) -> sound w (comp_path c).
Proof. intros w p c H Hc. apply sound_comp. pose proof (s_types _ _ H) as Ht. rewrite Forall_forall in Ht. auto. Qed.
Lemma sound_elems : forall w p, sound w p -> Forall (sound w) (elems p).
Proof.
  intros w p H. unfold elems. rewrite Forall_forall. intros x Hx. destruct (ptyp p) eqn:Et.
  - apply in_map_iff in Hx as (c & <- & Hc). eapply sound_in; eauto.
  - destruct (empty p); [destruct Hx|destruct Hx as [<-|[]]; exact H].
  - destruct (empty p); [destruct Hx|destruct Hx as [<-|[]]; exact H].
  - destruct (empty p); [destruct Hx|destruct Hx as [<-|[]]; exact H].
Qed.
Lemma sound_preferred : forall w p, sound w p -> sound w (make_preferred w p).
Proof.
  intros w p [H1 H2 H3 H4 H5 H6 H7 H8]. split; cbn [make_preferred comps ptyp pathname]; auto.
  - intros Hc Hm. rewrite (H4 Hc Hm). destruct w; reflexivity.
  - unfold ends_in in *. destruct (rev (comps p)) as [|c [|d r]]; auto; unfold within in *; rewrite length_preferred; auto.
  - intros l c Hc Hf Hne. specialize (H8 l c Hc Hf Hne). destruct w; auto. unfold trailing in *. cbn [to_preferred].

    destruct (snoc_cases _ (pathname p)) as [Hp|(t & x & Hp)]; rewrite Hp in *; [exact H8|]. rewrite !map_app in *. cbn [map] in *. rewrite last_last in *.
    cbn [is_sep] in *. destruct (Ascii.eqb x slash) eqn:Ex; [discriminate H8|]. rewrite Ex. exact H8.
Qed.

Lemma rel_front : forall (P : comp -> Prop) a r, Forall P (rel (a ++ r)) -> Forall P (rel a).
Proof.
  intros P a r. unfold rel. destruct a as [|c a]; [constructor|]. cbn [app skip_root_name].
  destruct (ptype_eqb (c_type c) ROOT_NAME) eqn:Ec.
  - destruct a as [|d a]; [constructor|]. cbn [app skip_root_dir]. destruct (ptype_eqb (c_type d) ROOT_DIR); intros H.
    + apply Forall_app in H. apply H.
    + inversion H; subst. constructor; auto. apply Forall_app in H3. apply H3.
  - cbn [skip_root_dir]. destruct (ptype_eqb (c_type c) ROOT_DIR); intros H.
    + apply Forall_app in H. apply H.
    + inversion H; subst. constructor; auto. apply Forall_app in H3. apply H3.
Qed.
Lemma rel_snoc : forall a x, c_type x = FILENAME -> rel (a ++ [x]) = rel a ++ [x].
Proof.
  intros a x Hx. unfold rel. destruct a as [|c a].
  - cbn. rewrite Hx. cbn. rewrite Hx. reflexivity.
  - cbn [app skip_root_name]. destruct (ptype_eqb (c_type c) ROOT_NAME).
    + destruct a as [|d a]; cbn [app skip_root_dir]; [rewrite Hx; reflexivity|]. destruct (ptype_eqb (c_type d) ROOT_DIR); reflexivity.
    + cbn [skip_root_dir]. destruct (ptype_eqb (c_type c) ROOT_DIR); reflexivity.
Qed.

Lemma sound_multi : forall w p, sound w p -> comps p <> [] -> ptyp p = MULTI.
Proof. intros w p H Hc. pose proof (s_single _ _ H) as H1. destruct (ptyp p); auto; contradiction Hc; apply H1; discriminate. Qed.

(** The last of the elements after the root is a name. *)
Lemma sound_last : forall w p l c, sound w p -> comps p = l ++ [c] -> rel (comps p) <> [] -> c_type c = FILENAME.
Proof.
  intros w p l c H Hc Hr. destruct (rel_app (comps p)) as (pre & H1 & _). pose proof (s_rel _ _ H) as H2.
  destruct (exists_last Hr) as (r & x & Hx). rewrite Hx, app_assoc in H1. rewrite Hc in H1. apply snoc_inv in H1 as [_ <-].
  rewrite Hx in H2. apply Forall_app in H2 as [_ H2]. inversion H2; auto.
Qed.

(** A last element that is not empty lies inside the text. *)
Lemma last_within : forall w p l c, sound w p -> comps p = l ++ [c] -> c_str c <> [] -> within (pathname p) c.
Proof.
  intros w p l c H Hc Hne. pose proof (s_end _ _ H) as He. unfold ends_in in He. rewrite Hc, rev_app_distr in He. cbn in He.
  destruct (rev l); auto. destruct He as [He|(He & _)]; [exact He|congruence].
Qed.

Lemma sound_relative : forall w E p, sound w p -> exists q, relative_path w E p = Ok q /\ sound w q.
Proof.
  intros w E p H. unfold relative_path. fold (rel (comps p)).
  assert (Hd : exists q, match rel (comps p) with
      | [] => Ok (fin w (el_other E) path_default)
      | c :: _ => do t <- str_substr_from (pathname p) (c_pos c);; Ok (fin w (el_other E) (split_components w t)) end = Ok q /\ sound w q).
  { destruct (rel (comps p)) as [|c r] eqn:Er; [eexists; split; [reflexivity|apply sound_fin, sound_default]|].
    assert (Hw : c_pos c <= length (pathname p)).
    { destruct (rel_app (comps p)) as (pre & H1 & H2). rewrite Er in H1.
      assert (Hw : within (pathname p) c); [|unfold within in Hw; lia]. destruct r as [|d r].
      - pose proof (s_end _ _ H) as He. unfold ends_in in He. rewrite H1, rev_app_distr in He. cbn in He.
        destruct H2 as [->|[(a & -> & Ha)|(a & b & -> & Ha & Hb)]]; cbn in He; auto; destruct He as [He|(_ & _ & He & _)]; auto; congruence.
      - eapply inside; [apply (s_order _ _ H)|apply (s_end _ _ H)|exact H1|discriminate]. }
    unfold str_substr_from. apply Nat.leb_le in Hw. rewrite Hw. cbn [bind]. eexists; split; [reflexivity|]. apply sound_fin, sound_split. }
  destruct (ptyp p); auto. eexists; split; [reflexivity|]. apply sound_fin, H.
Qed.

Lemma has_relative_ok : forall w E p, sound w p -> exists b, has_relative_path w E p = Ok b /\
  (b = true -> ptyp p = FILENAME \/ (ptyp p = MULTI /\ rel (comps p) <> [])).
Proof.
  intros w E p H. unfold has_relative_path. destruct (sound_relative w E p H) as (q & Hq & _). rewrite Hq. cbn [bind].
  eexists; split; [reflexivity|]. intros Hb. unfold relative_path in Hq. fold (rel (comps p)) in Hq.
  assert (Hd : rel (comps p) <> [] \/ ptyp p = FILENAME).
  { destruct (ptyp p); auto; left; intros Hr; rewrite Hr in Hq; injection Hq as <-; destruct (el_other E); discriminate Hb. }
  destruct Hd as [Hd|Hd]; auto. right. split; auto. eapply sound_multi; eauto. intros Hc. rewrite Hc in Hd. apply Hd. reflexivity.
Qed.

Lemma sound_filename : forall w p, sound w p -> exists q, filename w p = Ok q /\ sound w q.
Proof.
  intros w p H. unfold filename. destruct (empty p) eqn:Ee; [eexists; split; [reflexivity|apply sound_default]|].
  destruct (ptyp p) eqn:Et; try (eexists; split; [reflexivity|]; (apply sound_default || exact H)).
  destruct (match last (map Some (pathname p)) None with Some c => _ | None => _ end); [eexists; split; [reflexivity|apply sound_default]|].
  destruct (snoc_cases _ (comps p)) as [Ec|(l & c & Ec)];
    [|rewrite Ec].
  - pose proof (s_some _ _ H Ec Et) as Hp. unfold empty in Ee. rewrite Hp in Ee. discriminate.
  - rewrite map_app. cbn [map]. rewrite last_last. destruct (ptype_eqb (c_type c) FILENAME); eexists; (split; [reflexivity|]); [|apply sound_default].
    apply (sound_in w p); auto. rewrite Ec, in_app_iff. right; left; reflexivity.
Qed.
Lemma has_filename_ok : forall w p, sound w p -> exists b, has_filename w p = Ok b.
Proof. intros w p H. unfold has_filename. destruct (sound_filename w p H) as (q & -> & _). eexists; reflexivity. Qed.

Lemma sound_append : forall w E g p q, sound w p -> sound w q -> exists r, path_append w E g p q = Ok r /\ sound w r.
Proof.
  intros w E g p q Hp Hq. unfold path_append. destruct (_ || _); [exists q; auto|].
  destruct (has_filename_ok w p Hp) as (b & Hb). rewrite Hb. destruct (has_root_directory w E q); cbn [bind].
  - destruct g; cbn [swap fst]; eexists; (split; [reflexivity|]);
    match goal with |- sound _ (Path (pathname ?x) (comps ?x) (ptyp ?x)) => replace (Path (pathname x) (comps x) (ptyp x)) with x by (destruct x; reflexivity) | _ => idtac end; apply sound_split.
  - destruct g; cbn [swap fst]; eexists; (split; [reflexivity|]);
    match goal with |- sound _ (Path (pathname ?x) (comps ?x) (ptyp ?x)) => replace (Path (pathname x) (comps x) (ptyp x)) with x by (destruct x; reflexivity) | _ => idtac end; apply sound_split.
Qed.

Lemma sound_root_name : forall w E p, sound w p -> sound w (root_name w E p).
Proof.
  intros w E p H. unfold root_name. apply sound_fin. destruct (ptype_eqb (ptyp p) ROOT_NAME); auto.
  destruct (comps p) as [|c r] eqn:Ec; [apply sound_default|]. destruct (ptype_eqb (c_type c) ROOT_NAME); [|apply sound_default].
  apply (sound_in w p); auto. rewrite Ec. left; reflexivity.
Qed.
Lemma skip_in : forall l c, In c (skip_root_name l) -> In c l.
Proof. intros [|a l] c H; auto. cbn in H. destruct (ptype_eqb (c_type a) ROOT_NAME); auto. right; auto. Qed.
Lemma sound_root_directory : forall w E p, sound w p -> sound w (root_directory w E p).
Proof.
  intros w E p H. unfold root_directory. apply sound_fin.
  assert (Hd : sound w match skip_root_name (comps p) with c :: _ => if ptype_eqb (c_type c) ROOT_DIR then comp_path c else path_default | [] => path_default end).
  { destruct (skip_root_name (comps p)) as [|c r] eqn:Ec; [apply sound_default|]. destruct (ptype_eqb (c_type c) ROOT_DIR); [|apply sound_default].
    apply (sound_in w p); auto. apply skip_in. rewrite Ec. left; reflexivity. }
  destruct (ptyp p); auto. destruct (pathname p) as [|? [|c1 ?]]; try apply sound_default. destruct (Ascii.eqb c1 colon); [apply sound_split|apply sound_default].
Qed.
Lemma sound_root_path : forall w E p, sound w p -> sound w (root_path w E p).
Proof.
  intros w E p H. unfold root_path. apply sound_fin.
  assert (Hd : sound w match comps p with
     | [] => path_default
     | c :: r => match c_type c with
                 | ROOT_NAME => match r with
                                | d :: _ => if ptype_eqb (c_type d) ROOT_DIR then split_components w (c_str c ++ [preferred_separator w]) else comp_path c
                                | [] => comp_path c end
                 | ROOT_DIR => comp_path c | _ => path_default end end).
  { destruct (comps p) as [|c r] eqn:Ec; [apply sound_default|].
    assert (Hc : sound w (comp_path c)) by (apply (sound_in w p); auto; rewrite Ec; left; reflexivity).
    destruct (c_type c); auto; try apply sound_default. destruct r as [|d r]; auto. destruct (ptype_eqb (c_type d) ROOT_DIR); auto. apply sound_split. }
  destruct (ptyp p); auto.
Qed.

Lemma sound_remove : forall w p, sound w p -> exists q, remove_filename w p = Ok q /\ sound w q.
Proof.
  intros w p H. unfold remove_filename. destruct (ptyp p) eqn:Et; try (exists p; split; [reflexivity|exact H]); [|exists (clear w p); split; [reflexivity|apply sound_split]].
  destruct (snoc_cases _ (comps p)) as [Ec|(l & c & Ec)]; rewrite ?Ec; [exists p; auto|]. rewrite rev_app_distr. cbn [rev app].
  destruct (ptype_eqb (c_type c) FILENAME && negb (is_nil (c_str c))) eqn:Ef; [|exists p; auto].
  apply andb_true_iff in Ef as [Ef En]. assert (Hf : c_type c = FILENAME) by (destruct (c_type c); try discriminate Ef; reflexivity).
  assert (Hne : c_str c <> []) by (destruct (c_str c); [discriminate En|discriminate]).
  pose proof (last_within _ _ _ _ H Ec Hne) as Hw. unfold within in Hw. unfold str_erase. destruct (c_pos c <=? length (pathname p)) eqn:El; [|apply Nat.leb_gt in El; lia].
  cbn [bind]. destruct (snoc_cases _ l) as [Hl0|(l' & d & Hl0)]; subst l; [exfalso; exact (s_alone _ _ H c Ec Hf)|]. rename l' into l. rewrite rev_app_distr. cbn [rev app]. rewrite rev_involutive.
  pose proof (s_order _ _ H) as Ho. pose proof (s_rel _ _ H) as Hr. pose proof (s_types _ _ H) as Hty. rewrite Ec in Ho, Hr, Hty.
  assert (Hlen : length (firstn (c_pos c) (pathname p)) = c_pos c) by (rewrite firstn_length; lia).
  assert (Hb : Forall (fun x => c_pos x + length (c_str x) <= c_pos c) (l ++ [d])) by (apply (in_order_before _ c []); exact Ho).
  assert (Hol : in_order (l ++ [d])) by (eapply in_order_front; exact Ho).
  assert (Hup : upto (c_pos c) (l ++ [d])) by (split; auto). apply Forall_app in Hty as [Hty _].
  destruct (ptype_eqb (c_type d) ROOT_DIR || ptype_eqb (c_type d) ROOT_NAME) eqn:Ed.
  - assert (Hd : c_type d <> FILENAME) by (intros Hx; rewrite Hx in Ed; discriminate). eexists; split; [reflexivity|].
    assert (He : ends_in (firstn (c_pos c) (pathname p)) (l ++ [d])) by (eapply upto_end; [exact Hup|lia]).
    assert (Hl : forall (l' : list comp) c', l ++ [d] = l' ++ [c'] -> c_type c' = FILENAME -> c_str c' <> [] -> trailing w (firstn (c_pos c) (pathname p)) = false).
    { intros l' c' Hx Hc'. apply snoc_inv in Hx as [_ <-]. congruence. }
    unfold trim. cbn [comps]. destruct l as [|a l]; cbn [app].
    + apply (sound_comp w d). inversion Hty; auto.
    + destruct (l ++ [d]) as [|b r] eqn:Eb; [destruct l; discriminate|]. rewrite <- Eb in *. change (a :: l ++ [d]) with ((a :: l) ++ [d]).
      split; cbn [comps ptyp pathname]; auto; try congruence.
      * apply rel_front in Hr. exact Hr.
      * intros Hx. destruct l; discriminate Hx.
      * intros x Hx. destruct l; discriminate Hx.
  - eexists; split; [reflexivity|]. change ((l ++ [d]) ++ [Comp [] FILENAME (c_pos c)]) with ((l ++ [d]) ++ [Comp [] FILENAME (c_pos c)]).
    pose proof (upto_snoc (c_pos c) (l ++ [d]) (Comp [] FILENAME (c_pos c)) Hup (le_n _)) as Hu2. cbn in Hu2. rewrite Nat.add_0_r in Hu2.
    split; cbn [comps ptyp pathname]; try congruence.
    + apply Forall_app; split; auto. constructor; [discriminate|constructor].
    + rewrite rel_snoc by reflexivity. apply Forall_app; split; [apply rel_front in Hr; exact Hr|constructor; auto].
    + intros Hx. destruct l; discriminate Hx.
    + intros x Hx. destruct l as [|? [|? ?]]; discriminate Hx.
    + apply Hu2.
    + eapply upto_end; [exact Hu2|lia].
    + intros l' c' Hx _ Hn'. apply snoc_inv in Hx as [_ <-]. cbn in Hn'. congruence.
Qed.

Lemma sound_replace_filename : forall w E p r, sound w p -> sound w r -> exists q, replace_filename w E p r = Ok q /\ sound w q.
Proof.
  intros w E p r Hp Hr. unfold replace_filename. destruct (sound_remove w p Hp) as (q & -> & Hq). cbn [bind]. apply sound_append; auto.
Qed.

Lemma rfind_lt : forall c s n, rfind c s = Some n -> n < length s.
Proof. intros c s n H. apply rfind_Some in H. destruct H as (a & b & -> & Hl & _). rewrite app_length. cbn. lia. Qed.

Lemma find_extension_in : forall p x n, find_extension p = Some (x, Some n) ->
  n < length (ext_str x) /\ (x = ExtSelf (pathname p) \/ exists l c, comps p = l ++ [c] /\ x = ExtBack c).
Proof.
  intros p x n. unfold find_extension.
  set (src := match ptyp p with FILENAME => _ | MULTI => _ | _ => _ end).
  assert (Hs : forall y, src = Some y -> y = ExtSelf (pathname p) \/ exists l c, comps p = l ++ [c] /\ y = ExtBack c).
  { intros y. subst src. destruct (ptyp p); try discriminate; [|intros H; injection H as <-; auto].
    destruct (snoc_cases _ (comps p)) as [Hc|(l & c & Hc)]; rewrite Hc; [discriminate|].
    rewrite map_app. cbn [map]. rewrite last_last. destruct (ptype_eqb (c_type c) FILENAME); [|discriminate]. intros H; injection H as <-. right; eauto. }
  destruct src as [y|]; [|discriminate]. specialize (Hs y eq_refl). destruct (ext_str y) as [|c0 t] eqn:Ey; [discriminate|].
  destruct (_ && _); [discriminate|]. destruct (rfind dot (c0 :: t)) as [k|] eqn:Er; [|discriminate].
  intros H. assert (Hk : y = x /\ k = n) by (destruct k; [discriminate|injection H as <- <-; auto]). destruct Hk as [-> ->]. rewrite Ey.
  split; [eapply rfind_lt; eauto|exact Hs].
Qed.

Lemma sound_replace_extension : forall w p r, sound w p -> exists q, replace_extension w p r = Ok q /\ sound w q.
Proof.
  intros w p r H. unfold replace_extension.
  assert (Ht : exists t, match find_extension p with
      | Some (ExtSelf _, Some n) => str_erase (pathname p) n
      | Some (ExtBack c, Some n) => str_erase (pathname p) (c_pos c + n)
      | _ => Ok (pathname p) end = Ok t).
  { destruct (find_extension p) as [[x [n|]]|] eqn:Ef; try (destruct x); eauto; apply find_extension_in in Ef as [Hn Hx].
    - destruct Hx as [Hx|(l & c & _ & Hx)]; [injection Hx as ->|discriminate]. cbn in Hn. unfold str_erase.
      destruct (n <=? length (pathname p)) eqn:El; eauto. apply Nat.leb_gt in El. lia.
    - destruct Hx as [Hx|(l & c' & Hc & Hx)]; [discriminate|injection Hx as ->]. cbn in Hn.
      assert (Hw : within (pathname p) c') by (eapply last_within; eauto; destruct (c_str c'); [cbn in Hn; lia|discriminate]).
      unfold within in Hw. unfold str_erase. destruct (c_pos c' + n <=? length (pathname p)) eqn:El; eauto. apply Nat.leb_gt in El. lia. }
  destruct Ht as [t ->]. cbn [bind]. eexists; split; [reflexivity|apply sound_split].
Qed.

Lemma sound_parent : forall w E p, el_parent E = false -> sound w p -> exists q, parent_path w E p = Ok q /\ sound w q.
Proof.
  intros w E p HE H. unfold parent_path. destruct (has_relative_ok w E p H) as (b & -> & Hb). cbn [bind].
  destruct b; cbn [negb]; [|eauto]. destruct (Hb eq_refl) as [Ht|[Ht Hr]]; rewrite Ht; [eexists; split; [reflexivity|apply sound_default]|].
  destruct (snoc_cases _ (comps p)) as [Hc|(l & c & Hc)]; [rewrite Hc in Hr; contradiction Hr; reflexivity|].
  pose proof (sound_last _ _ _ _ H Hc Hr) as Hf. unfold drop_end. rewrite Hc, rev_app_distr. cbn [rev app].
  destruct (snoc_cases _ l) as [->|(l' & d & ->)]; [exfalso; exact (s_alone _ _ H c Hc Hf)|]. rewrite rev_app_distr. cbn [rev app].
  destruct (is_nil (c_str c)); cbn [bind]; rewrite HE; eexists; (split; [reflexivity|apply sound_split]).
Qed.

(** What lexically_normal meets where a path has no file name but a relative part. *)
Lemma normal_shape : forall w E p, sound w p -> has_filename w p = Ok false -> has_relative_path w E p = Ok true ->
  ptyp p = MULTI /\ exists l c e, comps p = l ++ [c; e] /\ c_str e = [] /\ c_type e = FILENAME.
Proof.
  intros w E p H Hf Hr. destruct (has_relative_ok w E p H) as (b & Hb & Ht). rewrite Hr in Hb. injection Hb as <-. specialize (Ht eq_refl).
  unfold has_filename, filename in Hf. destruct (empty p) eqn:Ee.
  { (* no text: the relative part would be empty *)
    destruct Ht as [Ht|[Ht Hr']].
    - unfold has_relative_path, relative_path in Hr. rewrite Ht in Hr. cbn in Hr. unfold empty in Ee.
      destruct (pathname p) eqn:Ep; [|discriminate]. unfold fin in Hr. destruct (el_other E); cbn in Hr; rewrite ?Ep in Hr; unfold empty in Hr; rewrite ?Ep in Hr; discriminate.
    - assert (Hs : relative_path w E p = Ok (fin w (el_other E) (split_components w []))).
      { destruct (sound_relative w E p H) as (q & Hq & _). rewrite Hq. unfold relative_path in Hq. rewrite Ht in Hq. fold (rel (comps p)) in Hq.
        destruct (rel (comps p)) as [|c r]; [congruence|]. unfold empty in Ee. destruct (pathname p); [|discriminate].
        unfold str_substr_from in Hq. destruct (c_pos c <=? length []) ; [|discriminate]. cbn [bind] in Hq.
        destruct (c_pos c); cbn [skipn] in Hq; congruence. }
      unfold has_relative_path in Hr. rewrite Hs in Hr. destruct (el_other E); discriminate. }
  destruct Ht as [Ht|[Ht Hr']].
  { rewrite Ht in Hf. cbn in Hf. rewrite Ee in Hf. discriminate. }
  split; [exact Ht|]. rewrite Ht in Hf.
  destruct (snoc_cases _ (comps p)) as [Hc|(l & e & Hc)]; [rewrite Hc in Hr'; contradiction Hr'; reflexivity|].
  pose proof (sound_last _ _ _ _ H Hc Hr') as He.
  destruct (snoc_cases _ l) as [->|(l' & c & ->)]; [exfalso; exact (s_alone _ _ H e Hc He)|]. rewrite <- app_assoc in Hc. cbn [app] in Hc.
  exists l', c, e. split; [exact Hc|]. split; [|exact He].
  destruct (c_str e) as [|x y] eqn:Es; auto. exfalso.
  assert (Htr : trailing w (pathname p) = false).
  { apply (s_trail _ _ H (l' ++ [c]) e); auto; [rewrite Hc, <- app_assoc; reflexivity|congruence]. }
  unfold trailing in Htr. rewrite Hc in Hf. replace (l' ++ [c; e]) with ((l' ++ [c]) ++ [e]) in Hf by (rewrite <- app_assoc; reflexivity).
  rewrite map_app in Hf. cbn [map] in Hf. rewrite last_last in Hf. rewrite He in Hf. cbn [ptype_eqb] in Hf.
  destruct (last (map Some (pathname p)) None) as [z|].
  - destruct (Ascii.eqb z (preferred_separator w)) eqn:Ez; [apply pref_is_sep in Ez; congruence|]. cbn in Hf. unfold empty in Hf. cbn in Hf. rewrite Es in Hf. discriminate.
  - cbn in Hf. unfold empty in Hf. cbn in Hf. rewrite Es in Hf. discriminate.
Qed.

Lemma firstn_2 : forall (l : list comp) c e, firstn (length l) (l ++ [c; e]) = l.
Proof. intros. rewrite firstn_app, firstn_all, Nat.sub_diag. cbn. apply app_nil_r. Qed.
Lemma skipn_2 : forall (l : list comp) c e, skipn (S (length l)) (l ++ [c; e]) = [e].
Proof. intros. replace (l ++ [c; e]) with ((l ++ [c]) ++ [e]) by (rewrite <- app_assoc; reflexivity). replace (S (length l)) with (length (l ++ [c])) by (rewrite app_length; cbn; lia). rewrite skipn_app, skipn_all, Nat.sub_diag. reflexivity. Qed.

Lemma sound_normal_trailing : forall w E ret p, sound w ret -> sound w p -> has_filename w ret = Ok false -> has_relative_path w E ret = Ok true ->
  exists q, normal_trailing w E ret p = Ok q /\ sound w q.
Proof.
  intros w E ret p H Hp Hf Hr. destruct (normal_shape w E ret H Hf Hr) as (Ht & l & c & e & Hc & Hes & Het).
  unfold normal_trailing, it_end, it_begin. rewrite Ht.
  assert (Hlen : length (comps ret) = S (S (length l))) by (rewrite Hc, app_length; cbn; lia). rewrite Hlen.
  unfold it_dec at 1. rewrite Ht. cbn [bind]. unfold it_dec at 1. rewrite Ht. cbn [bind].
  unfold it_deref. rewrite Ht. assert (Hnth : nth_error (comps ret) (length l) = Some c) by (rewrite Hc, nth_error_app2, Nat.sub_diag by lia; reflexivity).
  rewrite Hnth. cbn [bind].
  assert (Hin : In c (comps ret)) by (rewrite Hc, in_app_iff; right; left; reflexivity).
  destruct (has_filename_ok w (comp_path c) (sound_in w ret c H Hin)) as (b & Hb). rewrite Hb. cbn [bind].
  destruct (b && negb (is_dotdot (comp_path c))) eqn:Eb; [|apply sound_append; auto]. apply andb_true_iff in Eb as [-> _].
  assert (Hcf : c_type c = FILENAME).
  { unfold has_filename, filename in Hb. destruct (empty (comp_path c)); [discriminate Hb|]. cbn [comp_path ptyp] in Hb.
    pose proof (s_types _ _ H) as Hty. rewrite Forall_forall in Hty. specialize (Hty c Hin). destruct (c_type c); auto; try discriminate Hb. congruence. }
  unfold it_equals. destruct (length l =? 0) eqn:El; [eexists; split; [reflexivity|apply sound_split]|].
  cbn [it_cur bind]. rewrite Hnth.
  pose proof (ends_before _ _ _ _ _ (s_order _ _ H) (s_end _ _ H) Hc) as Hw. unfold within in Hw.
  unfold str_erase. destruct (c_pos c <=? length (pathname ret)) eqn:Ep; [|apply Nat.leb_gt in Ep; lia]. cbn [bind].
  destruct (snoc_cases _ l) as [->|(l' & d & Hl)]; [discriminate El|].
  unfold it_dec. rewrite Ht. assert (Hll : length l = S (length l')) by (rewrite Hl, app_length; cbn; lia). rewrite Hll. cbn [bind it_cur].
  assert (Hnd : nth_error (comps ret) (length l') = Some d).
  { rewrite Hc, Hl, <- app_assoc. rewrite nth_error_app2, Nat.sub_diag by lia. reflexivity. }
  rewrite Hnd. rewrite <- Hll. rewrite Hc, firstn_2, skipn_2.
  pose proof (s_order _ _ H) as Ho. pose proof (s_rel _ _ H) as Hre. pose proof (s_types _ _ H) as Hty. rewrite Hc in Ho, Hre, Hty.
  assert (Hb' : Forall (fun x => c_pos x + length (c_str x) <= c_pos c) l) by (apply (in_order_before l c [e]); exact Ho).
  assert (Hol : in_order l) by (eapply in_order_front; exact Ho). assert (Hup : upto (c_pos c) l) by (split; auto).
  assert (Hlt : length (firstn (c_pos c) (pathname ret)) = c_pos c) by (rewrite firstn_length; lia).
  assert (Htl : Forall (fun x => c_type x <> MULTI) l) by (apply Forall_app in Hty as [Hty _]; exact Hty).
  assert (Hrl : Forall (fun x => c_type x = FILENAME) (rel l)) by (apply rel_front in Hre; exact Hre).
  destruct (ptype_eqb (c_type d) FILENAME) eqn:Ed.
  - assert (Hd : c_type d = FILENAME) by (destruct (c_type d); try discriminate Ed; reflexivity).
    eexists; split; [reflexivity|]. split; cbn [comps ptyp pathname]; try congruence.
    + apply Forall_app; split; auto. constructor; [congruence|constructor].
    + rewrite rel_snoc by exact Het. apply Forall_app; split; auto.
    + intros Hx. destruct l; discriminate Hx.
    + intros x Hx. rewrite Hl in Hx. destruct l' as [|? [|? ?]]; discriminate Hx.
    + apply in_order_snoc; auto. apply in_order_app in Ho as (_ & Hce & _). eapply Forall_impl; [|exact Hb']. cbn. intros. lia.
    + unfold ends_in. rewrite Hl, !rev_app_distr. cbn. right. split; auto. split; auto. split; auto. unfold within. rewrite Hlt.
      rewrite Hl in Hb'. apply Forall_app in Hb' as [_ Hx]. inversion Hx; auto.
    + intros l1 c1 Hx _ Hn1. apply snoc_inv in Hx as [_ <-]. congruence.
  - eexists; split; [reflexivity|]. assert (Hd : c_type d <> FILENAME) by (intros Hx; rewrite Hx in Ed; discriminate).
    split; cbn [comps ptyp pathname]; auto; try congruence.
    + intros Hx. subst l. destruct l'; discriminate Hx.
    + intros x Hx. rewrite Hl in Hx. destruct l' as [|? [|? ?]]; try discriminate Hx. injection Hx as <-. exact Hd.
    + eapply upto_end; [exact Hup|lia].
    + intros l1 c1 Hx Hc1. rewrite Hl in Hx. apply snoc_inv in Hx as [_ <-]. congruence.
Qed.

Lemma sound_normal_step : forall w E ret p, sound w ret -> sound w p -> exists q, normal_step w E ret p = Ok q /\ sound w q.
Proof.
  intros w E ret p H Hp. unfold normal_step.
  destruct (match w with Windows => _ | Posix => _ end); [apply sound_append; auto; apply sound_split|].
  destruct (is_dotdot p).
  - destruct (has_filename_ok w ret H) as (b & Hb). rewrite Hb. cbn [bind]. destruct b.
    + destruct (sound_filename w ret H) as (f & -> & _). cbn [bind]. destruct (negb (is_dotdot f)); [apply sound_remove; auto|apply sound_append; auto].
    + destruct (has_relative_ok w E ret H) as (r & Hr & _). rewrite Hr. cbn [bind]. destruct r; cbn [negb]; [apply sound_normal_trailing; auto|].
      destruct (negb (has_root_directory w E ret)); [apply sound_append; auto|eauto].
  - destruct (is_dot p); apply sound_append; auto. apply sound_default.
Qed.
Lemma sound_normal_loop : forall w E l ret, Forall (sound w) l -> sound w ret -> exists q, normal_loop w E l ret = Ok q /\ sound w q.
Proof.
  intros w E l. induction l as [|p l IH]; intros ret Hl H; [exists ret; auto|]. inversion Hl; subst. cbn [normal_loop].
  destruct (sound_normal_step w E ret p H) as (q & -> & Hq); auto. cbn [bind]. apply IH; auto.
Qed.

Lemma sound_normal : forall w E p, el_normal E = false -> sound w p -> exists q, lexically_normal w E p = Ok q /\ sound w q.
Proof.
  intros w E p HE H. unfold lexically_normal. rewrite HE. destruct (empty p); [eexists; split; [reflexivity|apply sound_split]|].
  destruct (sound_normal_loop w E (elems p) path_default (sound_elems w p H) (sound_default w)) as (r & -> & Hr). cbn [bind].
  assert (Hf : exists q, normal_finish w r = Ok q).
  { unfold normal_finish. destruct (rev (comps r)) as [|b [|pv t]] eqn:Ec; try (destruct (empty r); eauto; fail).
    destruct (is_nil (c_str b) && is_dotdot (comp_path pv)) eqn:Eb; eauto. apply andb_true_iff in Eb as [_ Eb].
    assert (Hcs : comps r = rev t ++ [pv; b]). { rewrite <- (rev_involutive (comps r)), Ec. cbn. rewrite <- app_assoc. reflexivity. }
    pose proof (ends_before _ _ _ _ _ (s_order _ _ Hr) (s_end _ _ Hr) Hcs) as Hw. unfold within in Hw.
    unfold is_dotdot, native in Eb. cbn in Eb. destruct (c_str pv) as [|? [|? ?]]; try discriminate Eb. cbn in Hw.
    destruct (rev (pathname r)) eqn:Er; eauto. apply (f_equal (@length _)) in Er. rewrite rev_length in Er. cbn in Er. lia. }
  destruct Hf as (q & ->). cbn [bind]. eexists; split; [reflexivity|apply sound_split].
Qed.

Lemma sound_dotdots : forall w E n r, sound w r -> exists q, append_dotdots w E n r = Ok q /\ sound w q.
Proof.
  intros w E n. induction n as [|n IH]; intros r H; [exists r; auto|]. cbn [append_dotdots].
  destruct (sound_append w E true r (split_components w [dot; dot]) H (sound_split _ _)) as (q & -> & Hq). cbn [bind]. auto.
Qed.
Lemma sound_append_all : forall w E l r, Forall (sound w) l -> sound w r -> exists q, append_all w E l r = Ok q /\ sound w q.
Proof.
  intros w E l. induction l as [|a l IH]; intros r Hl H; [exists r; auto|]. inversion Hl; subst. cbn [append_all].
  destruct (sound_append w E true r a H) as (q & -> & Hq); auto. cbn [bind]. auto.
Qed.
Lemma mismatch_in : forall w a b, Forall (sound w) a -> Forall (sound w) (fst (mismatch a b)).
Proof. intros w a. induction a as [|x a IH]; intros [|y b] H; cbn; auto. destruct (path_eq x y); auto. inversion H; auto. Qed.

Lemma sound_lexically_relative : forall w E p q, sound w p -> sound w q -> exists r, lexically_relative w E p q = Ok r /\ sound w r.
Proof.
  intros w E p q Hp Hq. unfold lexically_relative.
  assert (Hd : forall b x, sound w x -> exists r, Ok (fin w b x) = Ok r /\ sound w r) by (intros b x Hx; eexists; split; [reflexivity|apply sound_fin; exact Hx]).
  destruct (path_ne _ _); [apply Hd, sound_default|]. destruct (negb _); [apply Hd, sound_default|]. destruct (_ && _); [apply Hd, sound_default|].
  pose proof (mismatch_in w (elems p) (elems q) (sound_elems w p Hp)) as Hm. destruct (mismatch (elems p) (elems q)) as [a b]. cbn [fst] in Hm.
  assert (Hg : exists r, (if (0 <=? count_updots b)%Z then do r <- append_dotdots w E (Z.to_nat (count_updots b)) path_default;;
      do r' <- append_all w E a r;; Ok (fin w (el_other E) r') else Ok (fin w (el_other E) path_default)) = Ok r /\ sound w r).
  { destruct (0 <=? count_updots b)%Z; [|apply Hd, sound_default].
    destruct (sound_dotdots w E (Z.to_nat (count_updots b)) path_default (sound_default w)) as (r & -> & Hr). cbn [bind].
    destruct (sound_append_all w E a r Hm Hr) as (r' & -> & Hr'). cbn [bind]. apply Hd, Hr'. }
  destruct a; destruct b; auto. apply Hd, sound_split.
Qed.
Lemma sound_proximate : forall w E p q, sound w p -> sound w q -> exists r, lexically_proximate w E p q = Ok r /\ sound w r.
Proof.
  intros w E p q Hp Hq. unfold lexically_proximate. destruct (sound_lexically_relative w E p q Hp Hq) as (r & -> & Hr). cbn [bind].
  destruct (is_nil (native r)); [eauto|]. eexists; split; [reflexivity|apply sound_fin; exact Hr].
Qed.
Lemma eta_sound : forall w p, sound w p -> sound w (Path (pathname p) (comps p) (ptyp p)).
Proof. intros w [] H. exact H. Qed.
Lemma sound_read : forall w p s, sound w p -> sound w (fst (stream_in w p s)).
Proof.
  intros w p s H. unfold stream_in. destruct (skip_ws s) as [|c r]; auto. destruct (Ascii.eqb c quote).
  - destruct (unquote r []) as [[t rest] ok]. destruct ok; cbn [fst]; auto. apply eta_sound, sound_split.
  - destruct (take_word (c :: r) []) as [t rest]. cbn [fst]. apply eta_sound, sound_split.
Qed.

Definition all_sound (w : platform) (st : store) : Prop := forall x, sound w (st x).
Lemma all_upd : forall w st x p, all_sound w st -> sound w p -> all_sound w (upd st x p).
Proof. intros w st x p H Hp y. unfold upd. destruct (y =? x); auto. Qed.
Lemma set_ok : forall w st x r, all_sound w st -> (exists q, r = Ok q /\ sound w q) -> exists st', (do p <- r;; Ok (upd st x p)) = Ok st' /\ all_sound w st'.
Proof. intros w st x r H (q & -> & Hq). cbn. eexists; split; [reflexivity|apply all_upd; auto]. Qed.
Lemma ok_sound : forall w q, sound w q -> exists r, Ok q = Ok r /\ sound w r.
Proof. eauto. Qed.

Lemma exec_sound : forall w E st c, usable E (APlain c) = true -> all_sound w st -> exists st', exec w E st c = Ok st' /\ all_sound w st'.
Proof.
  intros w E st c HU H.
  assert (Hs : forall s p, sound w (assign_str w p s)) by (intros; apply eta_sound, sound_split).
  destruct c; cbn [exec move_assign move_ctor swap];
    try (apply set_ok; auto).
  - apply ok_sound, sound_default.
  - apply ok_sound, Hs.
  - apply ok_sound, H.
  - eexists; split; [reflexivity|]. apply all_upd; [apply all_upd; [exact H|apply sound_split]|apply eta_sound, H].
  - eexists; split; [reflexivity|]. apply all_upd; [apply all_upd; [exact H|apply sound_split]|apply sound_split].
  - eexists; split; [reflexivity|]. apply all_upd; [apply all_upd; [exact H|apply eta_sound, H]|apply eta_sound, H].
  - apply ok_sound, sound_split.
  - apply ok_sound, sound_preferred; auto.
  - apply sound_append; auto.
  - unfold path_div. destruct (sound_append w E true (st y) (st z)) as (r & -> & Hr); auto. cbn [bind]. apply ok_sound, sound_fin, Hr.
  - apply ok_sound, sound_split.
  - apply sound_remove; auto.
  - apply sound_replace_filename; auto.
  - apply sound_replace_extension; auto.
  - apply ok_sound, sound_root_name; auto.
  - apply ok_sound, sound_root_directory; auto.
  - apply ok_sound, sound_root_path; auto.
  - apply sound_relative; auto.
  - apply sound_parent; auto. apply negb_true_iff, HU.
  - apply sound_filename; auto.
  - apply ok_sound. unfold stem. destruct (find_extension (st y)) as [[x0 [[|n]|]]|]; try apply sound_split. apply sound_default.
  - apply ok_sound. unfold extension. destruct (find_extension (st y)) as [[x0 [[|n]|]]|]; try apply sound_split; apply sound_default.
  - apply sound_normal; auto. apply negb_true_iff, HU.
  - apply sound_lexically_relative; auto.
  - apply sound_proximate; auto.
  - apply ok_sound. pose proof (sound_elems w (st y) (H y)) as He. destruct (nth_in_or_default n (elems (st y)) (st x)) as [Hi| ->]; auto.
    rewrite Forall_forall in He. auto.
  - apply ok_sound, sound_read; auto.
Qed.

(** * Arguments that are the modified path or one of its elements *)

Lemma shows_alias : forall w p a, sound w p -> (a = Self \/ exists q, a = Other q /\ sound w q) -> exists q, shows p a = Ok q /\ sound w q.
Proof. intros w p a Hp [->|(q & -> & Hq)]; cbn [shows]; eauto. Qed.
Lemma sound_assign_at : forall w p a, sound w p -> (a = Self \/ exists q, a = Other q /\ sound w q) -> exists q, assign_at p a = Ok q /\ sound w q.
Proof.
  intros w p a Hp [->|(q & -> & Hq)]; unfold assign_at; cbn [shows bind pathname comps ptyp]; eexists; (split; [reflexivity|apply eta_sound; auto]).
Qed.
Lemma sound_append_at : forall w E g p a, sound w p -> (a = Self \/ exists q, a = Other q /\ sound w q) -> exists q, append_at w E g p a = Ok q /\ sound w q.
Proof.
  intros w E g p a Hp [->|(q & -> & Hq)].
  - destruct (C89_self w E g p) as [-> _]. apply sound_append; auto.
  - rewrite append_other. apply sound_append; auto.
Qed.
Lemma sound_concat_at : forall w p a q, shows p a = Ok q -> exists r, concat_at w p a = Ok r /\ sound w r.
Proof. intros w p a q H. unfold concat_at. rewrite H. cbn [bind]. eexists; split; [reflexivity|apply sound_split]. Qed.
Lemma sound_replace_extension_at : forall w p a, sound w p -> (forall t, exists q, shows (Path t (comps p) (ptyp p)) a = Ok q) ->
  exists q, replace_extension_at w p a = Ok q /\ sound w q.
Proof.
  intros w p a H Ha. unfold replace_extension_at.
  destruct (sound_replace_extension w p path_default H) as (q0 & Hq0 & _). unfold replace_extension in Hq0.
  destruct (match find_extension p with Some _ => _ | None => _ end) as [t| | |]; try discriminate Hq0. cbn [bind].
  destruct (Ha t) as (q1 & ->). cbn [bind]. destruct (native q1) as [|c r].
  - destruct (Ha t) as (q2 & H2). eapply sound_concat_at; exact H2.
  - destruct (Ascii.eqb c dot).
    + destruct (Ha t) as (q2 & H2). eapply sound_concat_at; exact H2.
    + destruct (Ha (t ++ [dot])) as (q2 & H2). eapply sound_concat_at; exact H2.
Qed.

(** Only the first element can be an absolute path that replaces the whole path. *)
Lemma element_relative : forall w E p n c, sound w p -> nth_error (comps p) (S n) = Some c -> by_assignment w E p (comp_path c) = false.
Proof.
  intros w E p n c H Hn.
  assert (Hc : c_type c = FILENAME \/ (c_type c = ROOT_DIR /\ has_root_name p = true)).
  { pose proof (s_rel _ _ H) as Hr. unfold rel in Hr. destruct (comps p) as [|a r] eqn:Ec; [discriminate|]. cbn [nth_error] in Hn. cbn [skip_root_name] in Hr.
    destruct (ptype_eqb (c_type a) ROOT_NAME) eqn:Ea.
    - destruct r as [|d r]; [destruct n; discriminate|]. cbn [skip_root_dir] in Hr. destruct (ptype_eqb (c_type d) ROOT_DIR) eqn:Ed.
      + destruct n as [|n]; cbn in Hn.
        * injection Hn as <-. right. split; [destruct (c_type d); try discriminate Ed; reflexivity|]. unfold has_root_name. rewrite Ec, Ea. apply orb_true_r.
        * left. apply nth_error_In in Hn. rewrite Forall_forall in Hr. auto.
      + left. apply nth_error_In in Hn. rewrite Forall_forall in Hr. auto.
    - cbn [skip_root_dir] in Hr. left. apply nth_error_In in Hn. rewrite Forall_forall in Hr. destruct (ptype_eqb (c_type a) ROOT_DIR); auto.
      apply Hr. right; exact Hn. }
  unfold by_assignment. destruct Hc as [Hc|[Hc Hp]].
  - unfold is_absolute, has_root_directory, root_directory, has_root_name at 1 2 4, comp_path, fin. cbn [ptyp comps pathname]. rewrite Hc. cbn [ptype_eqb orb andb skip_root_name].
    destruct w; destruct (el_other E); reflexivity.
  - rewrite Hp. cbn [negb]. rewrite andb_false_r. unfold has_root_name at 1, comp_path. cbn [ptyp comps]. rewrite Hc. reflexivity.
Qed.

Lemma exec_alias_sound : forall w E st a, usable E a = true -> all_sound w st -> exists st', exec_alias w E st a = Ok st' /\ all_sound w st'.
Proof.
  intros w E st a Hu H.
  assert (Ha : forall x y, (if x =? y then Self else Other (st y)) = Self \/ exists q, (if x =? y then Self else Other (st y)) = Other q /\ sound w q).
  { intros x y. destruct (x =? y); eauto. }
  assert (Hel : forall x n f, (forall b, (b = Self \/ (b = Elem n /\ exists c, nth_error (comps (st x)) n = Some c)) -> exists q, f (st x) b = Ok q /\ sound w q) ->
     exists st', match element_of (st x) n with Some b => do p <- f (st x) b;; Ok (upd st x p) | None => Ok st end = Ok st' /\ all_sound w st').
  { intros x n f Hf. unfold element_of. destruct (n <? length (elems (st x))) eqn:El; [|eauto]. apply set_ok; auto. apply Hf.
    destruct (is_nil (comps (st x))) eqn:En; auto. right. split; auto. destruct (nth_error (comps (st x)) n) eqn:Ex; eauto. exfalso.
    apply nth_error_None in Ex. apply Nat.ltb_lt in El. unfold elems in El.
    assert (Ht : ptyp (st x) = MULTI) by (eapply sound_multi; [apply H|]; destruct (comps (st x)); [discriminate|discriminate]).
    rewrite Ht, map_length in El. lia. }
  destruct a as [c|x y|x n|x n|x n].
  - pose proof (exec_sound w E st c Hu H) as Hplain.
    destruct c; try exact Hplain; cbn [exec_alias].
    + apply set_ok; auto. apply sound_assign_at; auto.
    + destruct (x =? y); [|exact Hplain]. apply set_ok; auto. apply ok_sound, sound_split.
    + destruct (x =? y); [|exact Hplain]. apply set_ok; auto. apply ok_sound, H.
    + apply set_ok; auto. apply sound_append_at; auto.
    + apply set_ok; auto. unfold replace_filename_at. destruct (sound_remove w (st x) (H x)) as (q & -> & Hq). cbn [bind]. apply sound_append_at; auto.
    + apply set_ok; auto. apply sound_replace_extension_at; auto. intros t. destruct (x =? y); cbn; eauto.
  - cbn [exec_alias]. apply set_ok; auto. destruct (shows_alias w (st x) _ (H x) (Ha x y)) as (q & Hq & _). eapply sound_concat_at; exact Hq.
  - apply Hel. intros b [->|[-> (c & Hc)]]; [apply sound_append_at; auto|].
    unfold append_at. cbn [shows]. rewrite Hc. cbn [bind]. rewrite (element_relative w E (st x) n c (H x) Hc). apply sound_append; auto.
    eapply sound_in; [apply H|eapply nth_error_In; exact Hc].
  - apply Hel. intros b [->|[-> (c & Hc)]]; [eapply sound_concat_at; reflexivity|]. eapply sound_concat_at. cbn [shows]. rewrite Hc. reflexivity.
  - apply Hel. intros b [->|[-> (c & Hc)]]; apply sound_replace_extension_at; auto; intros t; cbn [shows comps]; eauto. rewrite Hc. eauto.
Qed.

(** * C97 *)

(** On both systems every history of operations ends without an exception, a failed assertion or undefined behaviour. Missing: the results of
    parent_path and lexically_normal where the compiler elides their copies, which refute it (below); appending the first element of a path to the
    path itself, which is C89. *)
Theorem C97_histories_partial : forall w E l, forallb (usable E) l = true -> exists st, exec_alias_all w E start l = Ok st.
Proof.
  intros w E l H. assert (Hg : forall st, all_sound w st -> exists st', exec_alias_all w E st l = Ok st').
  { induction l as [|a l IH]; intros st Hs; cbn [exec_alias_all]; [eauto|]. cbn [forallb] in H. apply andb_true_iff in H as [Ha Hl].
    destruct (exec_alias_sound w E st a Ha Hs) as (st' & -> & Hs'). cbn [bind]. apply IH; auto. }
  apply Hg. intros x. apply sound_default.
Qed.

(** Every query ends as well, on every path such a history makes, and so does every modification by a path of another history. *)
Theorem C97_queries_partial : forall w E l st x, forallb (usable E) l = true -> exec_alias_all w E start l = Ok st ->
  (exists r, relative_path w E (st x) = Ok r) /\ (exists b, has_relative_path w E (st x) = Ok b) /\
  (exists f, filename w (st x) = Ok f) /\ (exists b, has_filename w (st x) = Ok b) /\
  (el_parent E = false -> (exists q, parent_path w E (st x) = Ok q) /\ exists b, has_parent_path w E (st x) = Ok b) /\
  (el_normal E = false -> exists q, lexically_normal w E (st x) = Ok q) /\
  (forall y, exists q, lexically_relative w E (st x) (st y) = Ok q) /\ (forall y, exists q, lexically_proximate w E (st x) (st y) = Ok q).
Proof.
  intros w E l st x Hu Hx.
  assert (Hs : all_sound w st).
  { assert (Hg : forall st0, all_sound w st0 -> exec_alias_all w E st0 l = Ok st -> all_sound w st).
    { clear Hx. induction l as [|a l IH]; intros st0 Hs0 Hx; cbn [exec_alias_all] in Hx; [injection Hx as <-; exact Hs0|].
      cbn [forallb] in Hu. apply andb_true_iff in Hu as [Ha Hl].
      destruct (exec_alias_sound w E st0 a Ha Hs0) as (st' & Ex & Hs'). rewrite Ex in Hx. cbn [bind] in Hx. eapply IH; eauto. }
    eapply Hg; [|exact Hx]. intros y. apply sound_default. }
  repeat split.
  - destruct (sound_relative w E (st x) (Hs x)) as (q & Hq & _). eauto.
  - destruct (has_relative_ok w E (st x) (Hs x)) as (q & Hq & _). eauto.
  - destruct (sound_filename w (st x) (Hs x)) as (q & Hq & _). eauto.
  - apply has_filename_ok, Hs.
  - destruct (sound_parent w E (st x) H (Hs x)) as (q & Hq & _). eauto.
  - unfold has_parent_path. destruct (sound_parent w E (st x) H (Hs x)) as (q & -> & _). cbn. eauto.
  - intros HN. destruct (sound_normal w E (st x) HN (Hs x)) as (q & Hq & _). eauto.
  - intros y. destruct (sound_lexically_relative w E (st x) (st y) (Hs x) (Hs y)) as (q & Hq & _). eauto.
  - intros y. destruct (sound_proximate w E (st x) (st y) (Hs x) (Hs y)) as (q & Hq & _). eauto.
Qed.

(** ** Elided results of parent_path *)
Lemma scan_seps : forall w k s rest pos acc, scan w s (repeat slash k ++ rest) pos pos acc = scan w s rest (pos + k) (pos + k) acc.
Proof.
  intros w k. induction k as [|k IH]; intros s rest pos acc; cbn [repeat app scan]; [rewrite Nat.add_0_r; reflexivity|].
  replace (is_sep w slash) with true by (destruct w; reflexivity). rewrite Nat.eqb_refl, IH, Nat.add_succ_comm. reflexivity.
Qed.

(** Three slashes or more before a one-letter name with a file below it. *)
Definition deep (k : nat) (a b : ascii) : str := slash :: slash :: slash :: repeat slash k ++ [a; slash; b].

Lemma deep_split : forall w k a b, is_sep w a = false -> is_sep w b = false ->
  split_components w (deep k a b) =
    Path (deep k a b) [Comp [preferred_separator w] ROOT_DIR 0; Comp [a] FILENAME (3 + k); Comp [b] FILENAME (5 + k)] MULTI.
Proof.
  intros w k a b Ha Hb.
  assert (Htail : split_tail w (deep k a b) 1 [root_dir_comp w (deep k a b) 0] =
    Path (deep k a b) [Comp [preferred_separator w] ROOT_DIR 0; Comp [a] FILENAME (3 + k); Comp [b] FILENAME (5 + k)] MULTI).
  { unfold split_tail. change (skipn 1 (deep k a b)) with (repeat slash (S (S k)) ++ [a; slash; b]). rewrite scan_seps.
    cbn [scan]. rewrite Ha. replace (is_sep w slash) with true by (destruct w; reflexivity). rewrite Hb.
    replace (1 + S (S k) =? S (1 + S (S k))) with false by (symmetry; apply Nat.eqb_neq; lia).
    replace (S (S (1 + S (S k))) =? S (S (S (1 + S (S k))))) with false by (symmetry; apply Nat.eqb_neq; lia). cbn [negb].
    replace (S (1 + S (S k)) - (1 + S (S k))) with 1 by lia. replace (S (S (S (1 + S (S k)))) - S (S (1 + S (S k)))) with 1 by lia.
    cbn [app]. unfold trim. cbn [comps]. unfold filename_comp, substr.
    assert (H1 : skipn (1 + S (S k)) (deep k a b) = [a; slash; b]).
    { unfold deep. cbn [Nat.add skipn]. rewrite skipn_app, repeat_length, Nat.sub_diag, skipn_all2 by (rewrite repeat_length; lia). reflexivity. }
    assert (H2 : skipn (S (S (1 + S (S k)))) (deep k a b) = [b]).
    { replace (S (S (1 + S (S k)))) with ((1 + S (S k)) + 2) by lia. rewrite <- skipn_add, H1. reflexivity. }
    rewrite H1, H2. cbn [firstn]. f_equal. f_equal. destruct w; reflexivity. }
  unfold split_components. unfold deep at 1 2 3 4 5. replace (is_sep w slash) with true by (destruct w; reflexivity). fold (deep k a b).
  assert (Hroot : split_rooted w (deep k a b) = split_tail w (deep k a b) 1 [root_dir_comp w (deep k a b) 0]).
  { unfold split_rooted. replace (forallb _ (deep k a b)) with false; [reflexivity|]. symmetry. unfold deep. cbn [forallb]. rewrite forallb_app. cbn [forallb].
    replace (Ascii.eqb a slash) with false; [rewrite !andb_false_r; reflexivity|]. destruct w; cbn in Ha; [auto|]. apply orb_false_iff in Ha as [Ha _]. auto. }
  destruct w; [rewrite Hroot; exact Htail|]. unfold deep. cbn [Ascii.eqb Bool.eqb]. fold (deep k a b).
  change (Ascii.eqb slash slash) with true. change (is_sep Windows slash) with true. cbn [negb].
  rewrite (tail_sep Windows (deep k a b) 0 _ slash (slash :: slash :: repeat slash k ++ [a; slash; b]) eq_refl eq_refl). exact Htail.
Qed.

(** On both systems: the parent of such a path, kept as the compiler elides the copy, throws when asked for its relative part or its parent. *)
Theorem C97_elided_parent_refuted : forall w E k a b, el_parent E = true -> is_sep w a = false -> is_sep w b = false ->
  exists q, parent_path w E (split_components w (deep k a b)) = Ok q /\
    relative_path w E q = Throw out_of_range /\ has_relative_path w E q = Throw out_of_range /\
    parent_path w E q = Throw out_of_range /\ remove_filename w q = Throw out_of_range.
Proof.
  intros w E k a b HE Ha Hb. rewrite deep_split by auto. set (p := Path (deep k a b) _ MULTI).
  assert (Hr : relative_path w E p = Ok (fin w (el_other E) (split_components w [a; slash; b]))).
  { unfold relative_path, p. cbn [ptyp comps skip_root_name skip_root_dir c_type ptype_eqb pathname c_pos].
    unfold str_substr_from. assert (Hl : length (deep k a b) = 6 + k) by (unfold deep; cbn [length]; rewrite app_length, repeat_length; cbn; lia).
    rewrite Hl. replace (3 + k <=? 6 + k) with true by (symmetry; apply Nat.leb_le; lia). cbn [bind].
    replace (skipn (3 + k) (deep k a b)) with [a; slash; b]; [reflexivity|].
    unfold deep. cbn [Nat.add skipn]. rewrite skipn_app, repeat_length, Nat.sub_diag, skipn_all2 by (rewrite repeat_length; lia). reflexivity. }
  assert (Hs : split_components w [a; slash; b] = Path [a; slash; b] [Comp [a] FILENAME 0; Comp [b] FILENAME 2] MULTI).
  { unfold split_components. rewrite Ha. destruct w; cbn [is_sep] in Ha, Hb; change (Ascii.eqb slash colon) with false; cbv iota;
    unfold split_tail; cbn [skipn scan is_sep]; rewrite Ha, Hb; change (Ascii.eqb slash slash) with true; cbn [orb]; reflexivity. }
  assert (Hh : has_relative_path w E p = Ok true).
  { unfold has_relative_path. rewrite Hr. cbn [bind]. unfold fin. destruct (el_other E); rewrite ?Hs; cbn [pathname]; rewrite ?Hs; reflexivity. }
  unfold parent_path at 1. rewrite Hh. cbn [bind negb]. unfold p at 1 2. cbn [ptyp comps drop_end rev app is_nil c_str bind]. rewrite HE. unfold fin.
  eexists; split; [reflexivity|]. set (q := Path _ _ MULTI).
  assert (Hq : pathname q = [preferred_separator w; a]).
  { unfold q. cbn [pathname rebuild c_str app]. unfold append_sep_if_needed. cbn [map last]. destruct w; cbn; reflexivity. }
  assert (Hrq : relative_path w E q = Throw out_of_range).
  { unfold relative_path. rewrite Hq. unfold q. cbn [ptyp comps skip_root_name skip_root_dir c_type ptype_eqb c_pos]. reflexivity. }
  split; [exact Hrq|]. assert (Hhq : has_relative_path w E q = Throw out_of_range) by (unfold has_relative_path; rewrite Hrq; reflexivity).
  split; [exact Hhq|]. split; [unfold parent_path; rewrite Hhq; reflexivity|].
  unfold remove_filename. rewrite Hq. unfold q. cbn [ptyp comps rev app c_type ptype_eqb c_str is_nil negb andb c_pos]. reflexivity.
Qed.

(** A history on Windows: a host, a drive, dots, aliased arguments. *)
Definition windows_history : list astmt :=
  [APlain (SText 0 (lit "//host/a/../b.x/")); APlain (SNormal 1 0); APlain (SText 2 (lit "C:\d/e.x")); APlain (SParentPath 3 2); APlain (SAppend 3 3);
   APlain (SRemoveFilename 2); APlain (SReplaceFilename 2 0); APlain (SRelative 4 0 1); AAppendElement 1 1; APlain (SPreferred 0); APlain (SRelativePath 5 0)].
Example C97_example : forall o, forallb (usable (Elision false false o)) windows_history = true /\
  match exec_alias_all Windows (Elision false false o) start windows_history with
  | Ok st => map (fun x => native (st x)) [0; 1; 2; 3; 5] =
      [lit "\\host\a\..\b.x\"; lit "\\host\b.x\b.x"; lit "//host/a/../b.x/"; lit "C:\d"; lit "a\..\b.x\"]
  | _ => False
  end.
Proof. intros []; split; vm_compute; reflexivity. Qed.
Example C97_example_elided : parent_path Windows (Elision true true true) (split_components Windows (lit "///a/b")) =
  Ok (Path (lit "\a") [Comp (lit "\") ROOT_DIR 0; Comp (lit "a") FILENAME 3] MULTI) /\
  lit "///a/b" = deep 0 "a"%char "b"%char.
Proof. split; reflexivity. Qed.

Print Assumptions C97_histories_partial.
Print Assumptions C97_queries_partial.
Print Assumptions C97_elided_parent_refuted.
