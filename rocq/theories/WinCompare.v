(** Comparison and hashing of Windows paths, and the order the C++ standard asks for on both systems.
    Sources: fs_path.cpp:458-507 (compare), 612-625 (hash_value), fs_path.h:454-476 (operators). *)
From Coq Require Import Ascii String Bool Arith NArith ZArith Lia List.
From Verif Require Import Str PathModel PathSpec StrProofs PathProofs PathOps PathOps2 PathLaws WinPathProps WinPlace WinAppend WinParts
  WinNormal WinNormalProps.
Import ListNotations.

(** Path objects a program can hold on Windows: made from a text, default constructed, or returned by
    parent_path, lexically_normal or make_preferred, however those returns are compiled. *)
Inductive wheld : path -> Prop :=
| WText : forall s, wheld (split_components Windows s)
| WDefault : wheld path_default
| WParent : forall E s q, parent_path Windows E (split_components Windows s) = Ok q -> wheld q
| WNormal : forall E s q, no_hidden_drive s -> lexically_normal Windows E (split_components Windows s) = Ok q -> wheld q
| WPreferred : forall s, wheld (make_preferred Windows (split_components Windows s)).

(** ** What comparison relies on *)

Definition sound (p : path) : Prop :=
  match ptyp p with
  | MULTI => (comps p = [] <-> pathname p = []) /\ (forall c l, comps p = c :: l -> c_str c <> [])
  | _ => True
  end.

Lemma sound_shows : forall p, sound p -> shows p (map native (elems p)).
Proof.
  intros [t cs ty] H. unfold sound in H. cbn [ptyp comps pathname] in H. unfold shows, elems, empty. cbn [ptyp comps pathname].
  split; [reflexivity|]. destruct ty.
  2,3,4: destruct t as [|c t]; cbn; (split; [split; intros; (reflexivity || discriminate)|intros x r He; (discriminate || (injection He as <- _; discriminate))]).
  destruct H as [H1 H2]. rewrite map_map. split.
  - destruct cs as [|c l]; [rewrite (proj1 H1 eq_refl); cbn; tauto|]. cbn. split; [discriminate|]. destruct t; [|discriminate].
    intros _. pose proof (proj2 H1 eq_refl) as Hz. discriminate Hz.
  - intros x r He. destruct cs as [|c l]; [discriminate|]. cbn in He. injection He as <- _. apply (H2 c l eq_refl).
Qed.

Lemma win_elements_head : forall s x r, win_elements no_wsep s = x :: r -> x <> [].
Proof.
  intros s x r H. unfold win_elements in H. destruct (split_root no_wsep s) as [rn rest]. pose proof (wnames_nonempty rest) as Hw.
  destruct rn as [|a rn]; cbn [is_nil app] in H.
  - destruct (wstarts rest); cbn [app] in H; [injection H as <- _; discriminate|].
    destruct (wnames rest) as [|n l]; cbn [app is_nil negb] in H; [rewrite andb_false_r in H; discriminate|].
    injection H as <- _. inversion Hw; assumption.
  - injection H as <- _. discriminate.
Qed.

Lemma win_elements_nil : forall s, win_elements no_wsep s = [] <-> s = [].
Proof.
  intros s. split; [|intros ->; reflexivity]. intros H. unfold win_elements in H. destruct (split_root no_wsep s) as [rn rest] eqn:Hr.
  destruct (split_root_cases s rn rest Hr) as [Hs _]. destruct rn; [|discriminate]. cbn [is_nil app] in *. subst rest.
  destruct (wstarts s) eqn:Es; [discriminate|]. cbn [app] in H. apply app_eq_nil in H. destruct H as [H _]. apply unstarted_no_names; assumption.
Qed.

Lemma shows_text : forall s, shows (split_components Windows s) (win_elements no_wsep s).
Proof.
  intros s. split; [apply win_elems|]. split; [|intros; eapply win_elements_head; eassumption].
  rewrite win_elements_nil. unfold empty. fold (native (split_components Windows s)). rewrite win_native. unfold win_text.
  destruct (win_elements no_wsep s) as [|x [|y l]] eqn:E.
  - destruct s; cbn; split; congruence.
  - pose proof (win_elements_head s x [] E) as Hx. assert (Hs : s <> []) by (intros ->; discriminate E). destruct x; [congruence|]. cbn. split; [contradiction|discriminate].
  - assert (Hs : s <> []) by (intros ->; discriminate E). destruct s; [congruence|]. cbn. split; discriminate.
Qed.

Lemma rebuild_ne : forall l acc, acc <> [] -> rebuild Windows l acc <> [].
Proof.
  induction l as [|c l IH]; intros acc Ha; cbn [rebuild]; [exact Ha|]. destruct l as [|d l].
  - destruct acc; [congruence|discriminate].
  - apply IH. unfold append_sep_if_needed. destruct (last (map Some (acc ++ c_str c)) None); [destruct (_ || _)|]; destruct acc; try congruence; discriminate.
Qed.

Lemma rebuild_nil : forall l, (forall c r, l = c :: r -> c_str c <> []) -> (l = [] <-> rebuild Windows l [] = []).
Proof.
  intros [|c l] H; [tauto|]. specialize (H c l eq_refl). split; [discriminate|]. intros He. exfalso. revert He. cbn [rebuild app].
  destruct l as [|d l]; [exact H|]. apply rebuild_ne. unfold append_sep_if_needed.
  destruct (last (map Some (c_str c)) None); [destruct (_ || _)|]; destruct (c_str c); try congruence; discriminate.
Qed.

Lemma parent_shows : forall E s q, parent_path Windows E (split_components Windows s) = Ok q -> shows q (map native (elems q)).
Proof.
  intros E s q H. assert (Hp : forall t, shows (split_components Windows t) (map native (elems (split_components Windows t)))) by (intros; rewrite win_elems; apply shows_text).
  destruct s as [|a0 s0]; [unfold parent_path in H; cbn in H; unfold fin in H; destruct (el_other E); injection H as <-; repeat split; auto; discriminate|].
  remember (a0 :: s0) as s eqn:Es. assert (Hs : s <> []) by (subst; discriminate). clear a0 s0 Es.
  destruct (split_root no_wsep s) as [rn rest] eqn:Hr. unfold parent_path in H. rewrite (has_relative_split E s rn rest Hr) in H. cbn [bind] in H.
  destruct (wnames rest) as [|n ns] eqn:Hn; cbn [is_nil negb] in H.
  { injection H as <-. apply Hp. }
  destruct (ptyp (split_components Windows s)) eqn:Et.
  2,3,4: injection H as <-; repeat split; auto; discriminate.
  assert (Hcs : comps (split_components Windows s) = all_comps s).
  { rewrite wsplit_all in * by exact Hs. unfold trim in *. cbn [comps] in *. destruct (all_comps s) as [|c [|d l]] eqn:Ea; try reflexivity.
    exfalso. cbn [ptyp] in Et. assert (Hin : In c (all_comps s)) by (rewrite Ea; left; reflexivity). unfold all_comps in Hin. rewrite Hr in Hin.
    pose proof (wtok_types rest (length rn) []) as Ht. rewrite Forall_forall in Ht.
    apply in_app_or in Hin. destruct Hin as [Hin|Hin]; [unfold root_comps in Hin; destruct (is_nil rn), (wstarts rest); cbn in Hin; intuition (subst c; discriminate)|].
    apply in_app_or in Hin. destruct Hin as [Hin|Hin]; [rewrite (Ht c Hin) in Et; discriminate|].
    unfold trail in Hin. destruct (_ && _); [|destruct Hin]. destruct Hin as [<-|[]]. discriminate Et. }
  rewrite Hcs in H. unfold all_comps in H. rewrite Hr in H.
  destruct (drop_end_split s rn rest Hs Hr) as (l & Hl & Hm & _); [rewrite Hn; discriminate|]. rewrite Hl in H. cbn [bind] in H. injection H as <-.
  unfold fin. destruct (el_parent E); [|apply Hp]. apply sound_shows. unfold sound. cbn [ptyp comps pathname].
  assert (Hh : forall c r, root_comps rn rest ++ l = c :: r -> c_str c <> []).
  { intros c r He. unfold root_comps in He. destruct rn as [|b rn]; cbn [is_nil app] in He.
    - destruct (wstarts rest); cbn [app] in He; [injection He as <- _; discriminate|]. subst l. cbn [map] in Hm.
      assert (Hw : Forall (fun n => n <> []) (c_str c :: map c_str r)) by (rewrite Hm; apply Forall_removelast; apply wnames_nonempty). inversion Hw; assumption.
    - injection He as <- _. discriminate. }
  split; [|exact Hh]. apply rebuild_nil. exact Hh.
Qed.

Lemma normal_shows : forall E s q, no_hidden_drive s -> lexically_normal Windows E (split_components Windows s) = Ok q -> shows q (map native (elems q)).
Proof.
  intros E s q Hh Hq. destruct (C77_normal_form_partial E s Hh) as (q' & Hq' & _ & _ & He). rewrite Hq in Hq'. injection Hq' as <-.
  split; [reflexivity|]. rewrite He. change (fun c => negb (is_wsep c)) with no_wsep. split; [|intros; eapply win_elements_head; eassumption].
  rewrite win_elements_nil. unfold empty. fold (native q). destruct (native q); cbn; split; congruence.
Qed.

Lemma preferred_shows : forall s, shows (make_preferred Windows (split_components Windows s)) (map native (elems (make_preferred Windows (split_components Windows s)))).
Proof.
  intros s. destruct (C86_make_preferred s) as [Hn He]. cbv zeta in *. rewrite He, win_elems. destruct (shows_text s) as (_ & H1 & H2).
  split; [rewrite He; apply win_elems|]. split; [|exact H2]. rewrite H1. unfold empty. fold (native (make_preferred Windows (split_components Windows s))). rewrite Hn.
  fold (native (split_components Windows s)). destruct (native (split_components Windows s)); cbn; tauto.
Qed.

Lemma wheld_shows : forall p, wheld p -> shows p (map native (elems p)).
Proof.
  intros p [s| |E s q H|E s q Hh H|s].
  - rewrite win_elems. apply shows_text.
  - apply shows_default.
  - eapply parent_shows. exact H.
  - eapply normal_shows; eassumption.
  - apply preferred_shows.
Qed.

(** * C87 *)

(** compare orders by the elements one meets when iterating. *)
Theorem C87_compare_lexicographic : forall p q, wheld p -> wheld q ->
  Z.sgn (compare p q) = match lex_compare (map native (elems p)) (map native (elems q)) with Lt => -1 | Eq => 0 | Gt => 1 end%Z.
Proof.
  intros p q Hp Hq. apply wheld_shows in Hp, Hq. rewrite (compare_shows p q _ _ Hp Hq). destruct (lex_compare _ _); reflexivity.
Qed.

Theorem C87_compare_order : forall p q r, wheld p -> wheld q -> wheld r ->
  (compare p q = 0 <-> map native (elems p) = map native (elems q))%Z /\
  Z.sgn (compare q p) = (- Z.sgn (compare p q))%Z /\
  ((compare p q < 0 -> compare q r < 0 -> compare p r < 0)%Z) /\
  path_eq p q = (compare p q =? 0)%Z /\ path_ne p q = negb (compare p q =? 0)%Z /\
  path_lt p q = (compare p q <? 0)%Z /\ path_gt p q = (compare p q >? 0)%Z /\
  path_le p q = (compare p q <=? 0)%Z /\ path_ge p q = (compare p q >=? 0)%Z.
Proof.
  intros p q r Hp Hq Hr. apply wheld_shows in Hp, Hq, Hr.
  set (e := map native (elems p)) in *. set (f := map native (elems q)) in *. set (g := map native (elems r)) in *.
  pose proof (compare_shows p q _ _ Hp Hq) as C1. pose proof (compare_shows q p _ _ Hq Hp) as C2.
  pose proof (compare_shows q r _ _ Hq Hr) as C3. pose proof (compare_shows p r _ _ Hp Hr) as C4.
  pose proof (path_eq_shows p q _ _ Hp Hq) as Heq.
  assert (A : Z.sgn (compare q p) = (- Z.sgn (compare p q))%Z).
  { rewrite C1, C2, (lex_compare_antisym e f). destruct (lex_compare e f); reflexivity. }
  split; [|split; [exact A|split]].
  - unfold path_eq in Heq. rewrite Z.eqb_eq in Heq. exact Heq.
  - intros L1 L2.
    assert (H1 : lex_compare e f = Lt) by (destruct (lex_compare e f); cbn in C1; auto; lia).
    assert (H2 : lex_compare f g = Lt) by (destruct (lex_compare f g); cbn in C3; auto; lia).
    rewrite (lex_compare_lt_trans _ _ _ H1 H2) in C4. cbn in C4. lia.
  - unfold path_ne, path_le, path_ge, path_gt, path_lt, path_eq.
    repeat split; try reflexivity; destruct (compare p q), (compare q p); cbn in A; try lia; reflexivity.
Qed.

(** Equality does not depend on the kind of separators, nor on how many stand together after the root. *)
Theorem C87_equal_texts : forall s t,
  (path_eq (split_components Windows s) (split_components Windows t) = true <->
   win_elements (fun c => negb (is_wsep c)) s = win_elements (fun c => negb (is_wsep c)) t) /\
  (mixed_start s = false -> path_eq (split_components Windows s) (split_components Windows (preferred s)) = true).
Proof.
  intros s t. change (fun c => negb (is_wsep c)) with no_wsep. split; [apply (path_eq_shows _ _ _ _ (shows_text s) (shows_text t))|].
  intros Hm. apply (path_eq_shows _ _ _ _ (shows_text s) (shows_text (preferred s))). rewrite <- !win_elems, <- (C86_make_preferred_path_partial s Hm).
  symmetry. apply C86_make_preferred.
Qed.

Theorem C87_hash_consistent : forall (h : str -> N) p q, wheld p -> wheld q ->
  path_eq p q = true -> hash_value h p = hash_value h q.
Proof.
  intros h p q Hp Hq H. apply wheld_shows in Hp, Hq. pose proof (path_eq_shows p q _ _ Hp Hq) as He. apply He in H.
  rewrite (hash_shows h p _ eq_refl), (hash_shows h q _ eq_refl), H. reflexivity.
Qed.

Example C87_example :
  path_eq (split_components Windows (lit "C:/a//b")) (split_components Windows (lit "C:\a\b")) = true /\
  native (split_components Windows (lit "C:/a//b")) <> native (split_components Windows (lit "C:\a\b")) /\
  wheld (Path (lit "C:\a") [Comp (lit "C:") ROOT_NAME 0; Comp (lit "\") ROOT_DIR 2; Comp (lit "a") FILENAME 4] MULTI) /\
  (compare (split_components Windows (lit "C:\a")) (split_components Windows (lit "c:\a")) < 0)%Z /\
  mixed_start (lit "C:/a//b") = false.
Proof.
  split; [reflexivity|]. split; [discriminate|]. split; [|split; reflexivity].
  apply (WParent (Elision true true true) (lit "C:\/a/b")). reflexivity.
Qed.

(** ** The order of the C++ standard *)

(** [fs.path.compare]: by root name; then paths without a root directory come first; then by the
    elements of the relative path. *)
Definition standard_compare (s t : str) : comparison :=
  let (rn1, r1) := split_root (fun c => negb (is_wsep c)) s in
  let (rn2, r2) := split_root (fun c => negb (is_wsep c)) t in
  match str_compare (preferred rn1) (preferred rn2) with
  | Eq => match wstarts r1, wstarts r2 with
          | false, true => Lt
          | true, false => Gt
          | _, _ => lex_compare (wnames r1 ++ (if wends r1 && negb (is_nil (wnames r1)) then [[]] else []))
                                (wnames r2 ++ (if wends r2 && negb (is_nil (wnames r2)) then [[]] else []))
          end
  | c => c
  end.

(** The order is the standard's when both paths have a root name or neither has one, and, with the same
    root names, both have a root directory or neither has one. Missing: the other pairs, refuted below. *)
Theorem C87_standard_order_partial : forall s t,
  let rn1 := fst (split_root (fun c => negb (is_wsep c)) s) in let rn2 := fst (split_root (fun c => negb (is_wsep c)) t) in
  (rn1 = [] <-> rn2 = []) ->
  (preferred rn1 = preferred rn2 -> wstarts (snd (split_root (fun c => negb (is_wsep c)) s)) = wstarts (snd (split_root (fun c => negb (is_wsep c)) t))) ->
  Z.sgn (compare (split_components Windows s) (split_components Windows t)) = match standard_compare s t with Lt => -1 | Eq => 0 | Gt => 1 end%Z.
Proof.
  intros s t. change (fun c => negb (is_wsep c)) with no_wsep. cbv zeta. intros Hrn Hd. rewrite (compare_shows _ _ _ _ (shows_text s) (shows_text t)).
  assert (K : lex_compare (win_elements no_wsep s) (win_elements no_wsep t) = standard_compare s t).
  { unfold win_elements, standard_compare. change (fun c => negb (is_wsep c)) with no_wsep.
    destruct (split_root no_wsep s) as [rn1 r1]. destruct (split_root no_wsep t) as [rn2 r2]. cbn [fst snd] in *.
    destruct rn1 as [|a rn1].
    - rewrite (proj1 Hrn eq_refl) in *. rewrite str_compare_refl. cbn [is_nil app]. rewrite (Hd eq_refl). destruct (wstarts r2); cbn [app lex_compare]; [rewrite str_compare_refl|]; reflexivity.
    - destruct rn2 as [|b rn2]; [destruct Hrn as [_ Hrn]; discriminate Hrn; reflexivity|]. cbn [is_nil app lex_compare].
      destruct (str_compare (preferred (a :: rn1)) (preferred (b :: rn2))) eqn:Ec; try reflexivity.
      apply str_compare_eq in Ec. rewrite (Hd Ec). destruct (wstarts r2); cbn [app lex_compare]; [rewrite str_compare_refl|]; reflexivity. }
  rewrite K. destruct (standard_compare s t); reflexivity.
Qed.

(** A name that starts after the backslash in the character set, as every lower-case letter does, is
    placed after every path with a root directory; the standard puts it before. *)
Theorem C87_standard_order_refuted : forall c n s, (N_of_ascii backslash < N_of_ascii c)%N -> wplain (c :: n) -> no_drive (c :: n) ->
  split_root (fun c => negb (is_wsep c)) s = ([], s) -> wstarts s = true ->
  path_lt (split_components Windows s) (split_components Windows (c :: n)) = true /\ standard_compare (c :: n) s = Lt.
Proof.
  intros c n s Hlt Hp Hdr Hr Hs. change (fun c => negb (is_wsep c)) with no_wsep in *.
  assert (Hc : is_wsep c = false) by (apply wplain_cons in Hp; tauto).
  assert (Hrn : split_root no_wsep (c :: n) = ([], c :: n)).
  { destruct n as [|d n]; [reflexivity|]. cbn [split_root]. rewrite Hc. cbn [andb]. cbn in Hdr. destruct (Ascii.eqb_spec d colon); [congruence|]. rewrite andb_false_r. reflexivity. }
  split.
  - rewrite (path_lt_shows _ _ _ _ (shows_text s) (shows_text (c :: n))). unfold win_elements. rewrite Hr, Hrn, Hs. cbn [is_nil wstarts app]. rewrite Hc.
    cbn [app]. rewrite (wnames_plain (c :: n)) by (discriminate || exact Hp). cbn [app lex_compare str_compare]. unfold char_compare.
    assert (N.compare (N_of_ascii backslash) (N_of_ascii c) = Lt) as -> by (apply N.compare_lt_iff; exact Hlt). reflexivity.
  - unfold standard_compare. change (fun c => negb (is_wsep c)) with no_wsep. rewrite Hr, Hrn, Hs. cbn [preferred map str_compare wstarts]. rewrite Hc. reflexivity.
Qed.

(** A name that starts after the drive letter is placed after every path on that drive. *)
Theorem C87_standard_drive_refuted : forall a c n r, is_wsep a = false -> (N_of_ascii a < N_of_ascii c)%N -> wplain (c :: n) -> no_drive (c :: n) ->
  path_lt (split_components Windows (a :: colon :: r)) (split_components Windows (c :: n)) = true /\ standard_compare (c :: n) (a :: colon :: r) = Lt.
Proof.
  intros a c n r Ha Hlt Hp Hdr.
  assert (Hc : is_wsep c = false) by (apply wplain_cons in Hp; tauto).
  assert (Hrn : split_root no_wsep (c :: n) = ([], c :: n)).
  { destruct n as [|d n]; [reflexivity|]. cbn [split_root]. rewrite Hc. cbn [andb]. cbn in Hdr. destruct (Ascii.eqb_spec d colon); [congruence|]. rewrite andb_false_r. reflexivity. }
  assert (Hra : split_root no_wsep (a :: colon :: r) = ([a; colon], r)).
  { cbn [split_root]. rewrite Ha. cbn [andb]. unfold no_wsep. rewrite Ha. reflexivity. }
  assert (Hpa : preferred [a; colon] = [a; colon]) by (cbn; rewrite (plain_nosep a Ha); reflexivity).
  split.
  - rewrite (path_lt_shows _ _ _ _ (shows_text (a :: colon :: r)) (shows_text (c :: n))). unfold win_elements. rewrite Hra, Hrn, Hpa. cbn [is_nil wstarts app]. rewrite Hc.
    cbn [app]. rewrite (wnames_plain (c :: n)) by (discriminate || exact Hp). cbn [app lex_compare str_compare]. unfold char_compare.
    assert (N.compare (N_of_ascii a) (N_of_ascii c) = Lt) as -> by (apply N.compare_lt_iff; exact Hlt). reflexivity.
  - unfold standard_compare. change (fun c => negb (is_wsep c)) with no_wsep. rewrite Hra, Hrn, Hpa. reflexivity.
Qed.

(** On POSIX a name that starts after '/' in the character set is placed after every absolute path. *)
Theorem C87_posix_order_refuted : forall c n s, (N_of_ascii slash < N_of_ascii c)%N -> starts_slash s = true ->
  path_lt (mkpath s) (mkpath (c :: n)) = true /\ path_lt (mkpath (c :: n)) (mkpath s) = false.
Proof.
  intros c n s Hlt Hs.
  assert (Hc : starts_slash (c :: n) = false) by (cbn; unfold is_slash; apply Ascii.eqb_neq; intros ->; lia).
  assert (Hn : exists m l, names (c :: n) = (c :: m) :: l).
  { unfold names. cbn [pieces]. cbn in Hc. rewrite Hc. destruct (pieces n) as [|x y]; cbn; eauto. }
  destruct Hn as (m & l & Hn).
  assert (K : lex_compare (elements s) (elements (c :: n)) = Lt).
  { unfold elements. rewrite Hs, Hc, Hn. cbn [app lex_compare str_compare]. unfold char_compare.
    assert (N.compare (N_of_ascii slash) (N_of_ascii c) = Lt) as -> by (apply N.compare_lt_iff; exact Hlt). reflexivity. }
  rewrite !(path_lt_shows _ _ _ _ (shows_mkpath _) (shows_mkpath _)), K, (lex_compare_antisym (elements s)), K. split; reflexivity.
Qed.

Example C87_order_example :
  path_lt (split_components Windows (lit "\z")) (split_components Windows (lit "a")) = true /\
  path_lt (split_components Windows (lit "\z")) (split_components Windows (lit "A")) = false /\
  path_lt (split_components Windows (lit "D:\z")) (split_components Windows (lit "a")) = true /\
  standard_compare (lit "a") (lit "\z") = Lt /\ standard_compare (lit "C:b") (lit "C:\a") = Lt /\
  path_lt (mkpath (lit "/z")) (mkpath (lit "a")) = true /\ path_lt (mkpath (lit "-")) (mkpath (lit "/z")) = true /\
  no_drive (lit "a") /\ wplain (lit "a").
Proof. repeat split; reflexivity. Qed.

Print Assumptions C87_compare_lexicographic.
Print Assumptions C87_compare_order.
Print Assumptions C87_equal_texts.
Print Assumptions C87_hash_consistent.
Print Assumptions C87_standard_order_partial.
Print Assumptions C87_standard_order_refuted.
Print Assumptions C87_standard_drive_refuted.
Print Assumptions C87_posix_order_refuted.
