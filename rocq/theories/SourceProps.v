(** C95: the same characters make the same path, in whatever form they are given. *)
From Coq Require Import Ascii String Bool Arith NArith ZArith Lia List.
From Verif Require Import Str PathModel PathSpec StrProofs PathProofs PathOps PathOps2 PathMisc PathReach PathProps WinPathProps WinGeneric SourceModel Utf8.
Import ListNotations.

(** * Specification *)

Section Spec.
Variable narrow : wide -> list N -> str.

(** The text a source stands for: a string all of its characters, also NUL; a pointer or an iterator those in front of the
    first NUL; wide characters converted. *)
Inductive holds : source -> str -> Prop :=
| H_string : forall s, holds (SrcString s) s
| H_pointer : forall s rest, ~ In "000"%char s -> holds (SrcPointer (s ++ "000"%char :: rest)) s
| H_iterator : forall s rest, ~ In "000"%char s -> holds (SrcIterator (s ++ "000"%char :: rest)) s
| H_wide_string : forall k w, holds (SrcWideString k w) (narrow k w)
| H_wide_pointer : forall k w rest, ~ In 0%N w -> holds (SrcWidePointer k (w ++ 0%N :: rest)) (narrow k w)
| H_wide_iterator : forall k w rest, ~ In 0%N w -> holds (SrcWideIterator k (w ++ 0%N :: rest)) (narrow k w).

Inductive range_holds : range -> str -> Prop :=
| R_range : forall s, range_holds (Range s) s
| R_wide : forall k w, range_holds (WideRange k w) (narrow k w).
End Spec.

(** The units of a text in the strings of a wide character type: wchar_t has 16 bits on Windows and 32 elsewhere. *)
Definition units (pl : platform) (k : wide) (cs : list N) : list N :=
  match k, pl with
  | WChar, Windows | Char16, _ => utf16 cs
  | WChar, Posix | Char32, _ => cs
  end.

(** What nowide promises: well-formed text is converted without loss, both ways. *)
Definition narrows (pl : platform) (narrow : wide -> list N -> str) : Prop :=
  forall k cs, Forall scalar cs -> narrow k (units pl k cs) = utf8 cs.
Definition widens (pl : platform) (widen : str -> list N) : Prop :=
  forall cs, Forall scalar cs -> widen (utf8 cs) = units pl WChar cs.

(** Half a surrogate pair on its own is no character: U+FFFD takes its place. *)
Definition replaces (narrow : wide -> list N -> str) : Prop :=
  forall u, (55296 <= u < 57344)%N -> narrow Char16 [u] = utf8 [65533%N].

(** * Proofs *)

Lemma until_ok : forall A (nul : A -> bool) z, nul z = true -> forall l rest, (forall c, In c l -> nul c = false) ->
  until_nul nul (l ++ z :: rest) = Ok l.
Proof.
  intros A nul z Hz. induction l as [|c l IH]; intros rest H; cbn [app until_nul].
  - rewrite Hz. reflexivity.
  - rewrite (H c (or_introl eq_refl)), IH by (intros; apply H; right; assumption). reflexivity.
Qed.

Lemma until_inv : forall A (nul : A -> bool) l r, until_nul nul l = r ->
  (r = UB /\ forall c, In c l -> nul c = false) \/
  (exists a z rest, r = Ok a /\ l = a ++ z :: rest /\ nul z = true /\ forall c, In c a -> nul c = false).
Proof.
  intros A nul. induction l as [|c l IH]; intros r H; cbn [until_nul] in H.
  - left. split; [auto|]. intros c [].
  - destruct (nul c) eqn:Hc.
    + right. exists [], c, l. split; [auto|]. split; [reflexivity|]. split; [exact Hc|]. intros x [].
    + destruct (IH _ eq_refl) as [[E Hl]|(a & z & rest & E & -> & Hz & Ha)]; rewrite E in H; cbn [bind] in H.
      * left. split; [auto|]. intros x [->|Hx]; auto.
      * right. exists (c :: a), z, rest. split; [auto|]. split; [reflexivity|]. split; [exact Hz|]. intros x [->|Hx]; auto.
Qed.

Lemma nul_char_in : forall s, ~ In "000"%char s -> forall c, In c s -> nul_char c = false.
Proof. intros s H c Hc. unfold nul_char. apply Ascii.eqb_neq. intros ->. auto. Qed.

Lemma nul_wide_in : forall w, ~ In 0%N w -> forall c, In c w -> nul_wide c = false.
Proof. intros w H c Hc. unfold nul_wide. apply N.eqb_neq. intros ->. auto. Qed.

Section Proofs.
Variable narrow : wide -> list N -> str.

Lemma convert_holds : forall src s, holds narrow src s -> convert narrow src = Ok s.
Proof.
  intros src s H. destruct H; cbn [convert convert_range].
  - reflexivity.
  - apply (until_ok _ nul_char); [reflexivity|apply nul_char_in; assumption].
  - rewrite (until_ok _ nul_char) by (try reflexivity; apply nul_char_in; assumption). reflexivity.
  - reflexivity.
  - rewrite (until_ok _ nul_wide) by (try reflexivity; apply nul_wide_in; assumption). reflexivity.
  - rewrite (until_ok _ nul_wide) by (try reflexivity; apply nul_wide_in; assumption). reflexivity.
Qed.

Lemma convert_inv : forall src, convert narrow src = UB \/ exists s, holds narrow src s.
Proof.
  assert (C : forall l, until_nul nul_char l = UB \/ exists a rest, l = a ++ "000"%char :: rest /\ ~ In "000"%char a).
  { intros l. destruct (until_inv _ nul_char l _ eq_refl) as [[E _]|(a & z & rest & _ & -> & Hz & Ha)]; [left; exact E|right].
    exists a, rest. apply Ascii.eqb_eq in Hz. subst z. split; [reflexivity|]. intros H. apply Ha in H. discriminate. }
  assert (W : forall l, until_nul nul_wide l = UB \/ exists a rest, l = a ++ 0%N :: rest /\ ~ In 0%N a).
  { intros l. destruct (until_inv _ nul_wide l _ eq_refl) as [[E _]|(a & z & rest & _ & -> & Hz & Ha)]; [left; exact E|right].
    exists a, rest. apply N.eqb_eq in Hz. subst z. split; [reflexivity|]. intros H. apply Ha in H. discriminate. }
  intros [s|k w|mem|k mem|l|k l]; cbn [convert].
  - right. eexists. constructor.
  - right. eexists. constructor.
  - destruct (C mem) as [->|(a & rest & -> & Ha)]; [left; reflexivity|right]. exists a. constructor. exact Ha.
  - destruct (W mem) as [->|(a & rest & -> & Ha)]; [left; reflexivity|right]. exists (narrow k a). constructor. exact Ha.
  - destruct (C l) as [->|(a & rest & -> & Ha)]; [left; reflexivity|right]. exists a. constructor. exact Ha.
  - destruct (W l) as [->|(a & rest & -> & Ha)]; [left; reflexivity|right]. exists (narrow k a). constructor. exact Ha.
Qed.

(** Every form in which a text [s] can be given makes the path of [s], and the members that take a text do with it
    what they do with the path or the characters. *)
Theorem C95_any_source : forall pl E src s p, holds narrow src s ->
  path_of narrow pl src = Ok (split_components pl s) /\
  assign_source narrow pl p src = Ok (split_components pl s) /\
  append_source narrow pl E p src = path_append pl E true p (split_components pl s) /\
  concat_source narrow pl p src = Ok (path_concat pl p s).
Proof.
  intros pl E src s p H. apply convert_holds in H. unfold assign_source, append_source, concat_source, path_of. rewrite H. cbn [bind].
  split; [reflexivity|]. split; [|split; reflexivity]. unfold move_assign. cbn [fst]. destruct (split_components pl s). reflexivity.
Qed.

Theorem C95_any_range : forall pl E r s p, range_holds narrow r s ->
  path_of_range narrow pl r = split_components pl s /\
  assign_range narrow pl p r = split_components pl s /\
  append_range narrow pl E p r = path_append pl E true p (split_components pl s) /\
  concat_range narrow pl p r = path_concat pl p s.
Proof.
  intros pl E r s p H. unfold assign_range, append_range, concat_range, path_of_range. destruct H; cbn [convert_range];
    (split; [reflexivity|split; [|split; reflexivity]]); unfold move_assign; cbn [fst]; destruct (split_components pl _); reflexivity.
Qed.

(** Characters without a NUL at the end are read past their end, and nothing else goes wrong. *)
Theorem C95_unterminated : forall pl E src p,
  ((forall s, ~ holds narrow src s) <-> path_of narrow pl src = UB) /\
  ((forall s, ~ holds narrow src s) -> assign_source narrow pl p src = UB /\ append_source narrow pl E p src = UB /\ concat_source narrow pl p src = UB).
Proof.
  intros pl E src p.
  assert (H : (forall s, ~ holds narrow src s) -> convert narrow src = UB).
  { intros H. destruct (convert_inv src) as [H1|[s Hs]]; [exact H1|]. exfalso. exact (H s Hs). }
  split; [split|].
  - intros Hn. unfold path_of. rewrite (H Hn). reflexivity.
  - intros Hu s Hs. unfold path_of in Hu. rewrite (convert_holds _ _ Hs) in Hu. discriminate.
  - intros Hn. unfold assign_source, append_source, concat_source, path_of. rewrite (H Hn). repeat split.
Qed.

(** A text without NUL is the same path from a string, a pointer, an iterator and a range. *)
Theorem C95_no_nul : forall pl s rest, ~ In "000"%char s ->
  path_of narrow pl (SrcPointer (s ++ "000"%char :: rest)) = path_of narrow pl (SrcString s) /\
  path_of narrow pl (SrcIterator (s ++ "000"%char :: rest)) = path_of narrow pl (SrcString s) /\
  path_of_range narrow pl (Range s) = split_components pl s.
Proof.
  intros pl s rest H. unfold path_of. rewrite (convert_holds _ _ (H_pointer narrow s rest H)), (convert_holds _ _ (H_iterator narrow s rest H)).
  split; [reflexivity|]. split; reflexivity.
Qed.

(** With a NUL the string keeps what follows it, the pointer does not. *)
Theorem C95_nul : forall pl s t, ~ In "000"%char s ->
  path_of narrow pl (SrcString (s ++ "000"%char :: t)) = Ok (split_components pl (s ++ "000"%char :: t)) /\
  path_of narrow pl (SrcPointer (s ++ "000"%char :: t)) = Ok (split_components pl s).
Proof.
  intros pl s t H. unfold path_of. rewrite (convert_holds _ _ (H_pointer narrow s t H)). split; reflexivity.
Qed.

(** Wide text of any kind makes the path of the same text in UTF-8. *)
Theorem C95_wide : forall pl k cs rest, narrows pl narrow -> Forall scalar cs ->
  path_of narrow pl (SrcWideString k (units pl k cs)) = Ok (split_components pl (utf8 cs)) /\
  path_of_range narrow pl (WideRange k (units pl k cs)) = split_components pl (utf8 cs) /\
  (~ In 0%N cs -> path_of narrow pl (SrcWidePointer k (units pl k cs ++ 0%N :: rest)) = Ok (split_components pl (utf8 cs)) /\
                  path_of narrow pl (SrcWideIterator k (units pl k cs ++ 0%N :: rest)) = Ok (split_components pl (utf8 cs))).
Proof.
  intros pl k cs rest Hn Hcs. unfold path_of, path_of_range. cbn [convert convert_range]. rewrite (Hn k cs Hcs). split; [reflexivity|]. split; [reflexivity|].
  intros Hz. assert (Hu : ~ In 0%N (units pl k cs)).
  { assert (H16 : ~ In 0%N (utf16 cs)).
    { intros H. unfold utf16 in H. apply in_flat_map in H. destruct H as (c & Hc & Hin). unfold utf16_char in Hin.
      destruct (c <? 65536)%N; [destruct Hin as [Hin|[]]; subst; auto|]. destruct Hin as [H|[H|[]]]; nlia. }
    destruct k, pl; assumption. }
  assert (K : until_nul nul_wide (units pl k cs ++ 0%N :: rest) = Ok (units pl k cs)).
  { apply until_ok; [reflexivity|apply nul_wide_in; exact Hu]. }
  rewrite K. cbn [bind convert_range]. rewrite (Hn k cs Hcs). split; reflexivity.
Qed.

Variable widen : str -> list N.

(** A path read out as a wide string and made again is a path of the same text. *)
Theorem C95_wide_round_trip : forall pl p, narrows pl narrow -> widens pl widen -> well_formed (native p) ->
  path_of narrow pl (SrcWideString WChar (wstring widen p)) = Ok (split_components pl (native p)).
Proof.
  intros pl p Hn Hw (cs & Hcs & He). unfold path_of. cbn [convert convert_range bind]. f_equal. f_equal.
  unfold wstring. fold (native p). destruct (native p) as [|c s] eqn:Hp.
  - specialize (Hn WChar [] (Forall_nil _)). destruct pl; exact Hn.
  - rewrite He, (Hw cs Hcs). apply Hn. exact Hcs.
Qed.

(** On POSIX: the very same path. *)
Theorem C95_wide_round_trip_path : forall s, narrows Posix narrow -> widens Posix widen -> well_formed s ->
  path_of narrow Posix (SrcWideString WChar (wstring widen (mkpath s))) = Ok (mkpath s).
Proof.
  intros s Hn Hw Hs. assert (Ht : well_formed (native (mkpath s))).
  { rewrite native_mkpath. unfold reported_text. destruct (_ && _); [apply wf_ascii; reflexivity|exact Hs]. }
  rewrite C95_wide_round_trip by assumption.
  f_equal. apply mkpath_native.
Qed.

(** generic_wstring() is the text in generic form, converted. *)
Theorem C95_generic : forall pl s cs, widens pl widen -> Forall scalar cs ->
  (match pl with Posix => squeezed s | Windows => generic_text s end) = utf8 cs -> generic_wstring widen (split_components pl s) = units pl WChar cs.
Proof.
  intros pl s cs Hw Hcs H. unfold generic_wstring. rewrite <- (Hw cs Hcs), <- H. f_equal. destruct pl; [apply generic_mkpath|apply C76_generic].
Qed.

(** A wide string made a path and read out again is the same string, but for runs of slashes standing alone. *)
Theorem C95_wide_kept : forall cs, narrows Posix narrow -> widens Posix widen -> Forall scalar cs -> only_slashes (utf8 cs) = false ->
  exists p, path_of narrow Posix (SrcWideString WChar cs) = Ok p /\ wstring widen p = cs.
Proof.
  intros cs Hn Hw Hcs Ho. destruct (C95_wide Posix WChar cs [] Hn Hcs) as (H & _). cbn [units] in H. eexists. split; [exact H|].
  assert (Hnat : pathname (mkpath (utf8 cs)) = utf8 cs) by (destruct (C01_text_kept (utf8 cs)) as (_ & K & _); apply K; exact Ho).
  unfold wstring. rewrite Hnat. destruct (utf8 cs) eqn:Hu; [discriminate|]. rewrite <- Hu. apply (Hw cs Hcs).
Qed.

(** A text that does not end in a separator is reported in full. *)
Lemma text_length : forall pl a c, is_wsep c = false -> length (native (split_components pl (a ++ [c]))) = length (a ++ [c]).
Proof.
  intros pl a c Hc. destruct pl.
  - fold (mkpath (a ++ [c])). rewrite native_mkpath. unfold reported_text.
    assert (Ho : only_slashes (a ++ [c]) = false).
    { unfold only_slashes. rewrite forallb_app. cbn [forallb]. unfold is_wsep in Hc. apply orb_false_elim in Hc. destruct Hc as [Hc _].
      unfold is_slash. rewrite Hc. cbn. apply andb_false_r. }
    rewrite Ho, andb_false_r. reflexivity.
  - rewrite win_native. unfold win_text, win_elements. set (s := a ++ [c]).
    assert (He : wends s = false) by (unfold wends, s; rewrite rev_app_distr; cbn [rev app wstarts]; exact Hc).
    assert (Hs : s <> []) by (unfold s; destruct a; discriminate).
    destruct (split_root no_wsep s) as [rn rest] eqn:Hr. destruct (wsplit s rn rest Hs Hr) as [Hsr _].
    assert (Her : wends rest = false).
    { destruct rest as [|x r] using rev_ind; [reflexivity|]. unfold wends in *. rewrite Hsr in He. rewrite app_assoc, rev_app_distr in He.
      rewrite rev_app_distr. exact He. }
    rewrite Her. cbn [andb]. rewrite app_nil_r.
    assert (Hnone : wnames rest = [] -> rest = []).
    { intros Hn. destruct rest as [|x r] using rev_ind; [reflexivity|]. exfalso. apply wnames_none in Hn. rewrite forallb_app in Hn. apply andb_prop in Hn. destruct Hn as [_ Hn].
      cbn [forallb] in Hn. rewrite andb_true_r in Hn. unfold wends in Her. rewrite rev_app_distr in Her. cbn [rev app wstarts] in Her. congruence. }
    destruct rn as [|r0 rn]; cbn [is_nil app].
    + cbn [app] in Hsr. subst rest. destruct (wstarts s) eqn:Hst; cbn [app].
      * destruct (wnames s) as [|n l] eqn:Hn; [specialize (Hnone eq_refl); congruence|]. reflexivity.
      * destruct (wnames s) as [|n [|m l]] eqn:Hn; [reflexivity| |reflexivity]. rewrite (single_name s n Hst He Hn). reflexivity.
    + destruct (wstarts rest) eqn:Hst; cbn [app]; [reflexivity|]. destruct (wnames rest) as [|n l] eqn:Hn; [|reflexivity].
      rewrite (Hnone eq_refl), app_nil_r in Hsr. rewrite Hsr. apply map_length.
Qed.

(** A character outside the basic plane added one UTF-16 unit at a time is lost: the pair added at once keeps the character,
    each half on its own becomes a replacement character. *)
Theorem C95_halves_refuted : forall pl p c, narrows pl narrow -> replaces narrow -> scalar c -> (65536 <= c)%N -> exists hi lo,
  units pl Char16 [c] = [hi; lo] /\
  concat_range narrow pl p (WideRange Char16 [hi; lo]) = path_concat pl p (utf8 [c]) /\
  native (concat_char narrow pl (concat_char narrow pl p Char16 hi) Char16 lo) <> native (path_concat pl p (utf8 [c])).
Proof.
  intros pl p c Hn Hr Hc Hbig. exists (55296 + (c - 65536) / 1024)%N, (56320 + (c - 65536) mod 1024)%N.
  assert (Hu : units pl Char16 [c] = [55296 + (c - 65536) / 1024; 56320 + (c - 65536) mod 1024]%N).
  { assert (H : utf16 [c] = [55296 + (c - 65536) / 1024; 56320 + (c - 65536) mod 1024]%N).
    { unfold utf16, utf16_char. cbn [flat_map]. destruct (N.ltb_spec c 65536); [lia|reflexivity]. }
    destruct pl; exact H. }
  split; [exact Hu|].
  assert (H1 : narrow Char16 [55296 + (c - 65536) / 1024; 56320 + (c - 65536) mod 1024]%N = utf8 [c]).
  { rewrite <- Hu. apply Hn. constructor; [exact Hc|constructor]. }
  unfold concat_char, concat_range. cbn [convert_range]. rewrite H1. split; [reflexivity|].
  assert (Hb : ((c - 65536) / 1024 < 1024)%N) by (apply N.div_lt_upper_bound; unfold scalar in Hc; lia).
  assert (Hm : ((c - 65536) mod 1024 < 1024)%N) by (apply N.mod_lt; lia).
  rewrite !Hr by (nlia). intros Heq. apply (f_equal (@length ascii)) in Heq. unfold path_concat in Heq.
  assert (L2 : exists x, utf8 [65533%N] = x ++ ["189"%char] /\ length x = 2) by (eexists [_; _]; split; reflexivity).
  destruct L2 as (x & Hx & Hlx). rewrite Hx, !app_assoc in Heq. rewrite text_length in Heq by reflexivity.
  assert (L4 : exists y d, utf8 [c] = y ++ [d] /\ length y = 3 /\ is_wsep d = false).
  { unfold utf8. cbn [flat_map]. rewrite app_nil_r. unfold utf8_char.
    destruct (N.ltb_spec c 128); [lia|]. destruct (N.ltb_spec c 2048); [lia|]. destruct (N.ltb_spec c 65536); [lia|]. cbn [map].
    eexists [_; _; _], _. split; [reflexivity|]. split; [reflexivity|].
    assert (Hcont : continuation (ascii_of_N (128 + c mod 64)) = true) by (apply cont_of; pose proof (N.mod_lt c 64 ltac:(lia)); nlia).
    unfold is_wsep. destruct (Ascii.eqb_spec (ascii_of_N (128 + c mod 64)) slash) as [Hz|_]; [rewrite Hz in Hcont; discriminate|].
    destruct (Ascii.eqb_spec (ascii_of_N (128 + c mod 64)) backslash) as [Hz|_]; [rewrite Hz in Hcont; discriminate|]. reflexivity. }
  destruct L4 as (y & d & Hy & Hly & Hd). rewrite Hy, !app_assoc in Heq. rewrite text_length in Heq by exact Hd.
  rewrite !app_length in Heq. fold (native (split_components pl ((pathname p ++ x) ++ ["189"%char]))) in Heq. rewrite text_length in Heq by reflexivity.
  rewrite !app_length in Heq. cbn [length] in Heq. lia.
Qed.
End Proofs.

Lemma elements_slash_slash : forall t, elements (slash :: slash :: t) = elements (slash :: t).
Proof.
  intros t. unfold elements. replace (ends_slash (slash :: slash :: t)) with (ends_slash (slash :: t)); [reflexivity|].
  unfold ends_slash. cbn [rev]. destruct (rev t) as [|x l]; reflexivity.
Qed.

(** Characters added in pieces: the same elements, and the same text unless there were only slashes so far. *)
Theorem C95_in_pieces : forall p a b,
  map native (elems (path_concat Posix (path_concat Posix p a) b)) = map native (elems (path_concat Posix p (a ++ b))) /\
  (only_slashes (native p ++ a) = false \/ length (native p ++ a) <= 1 -> path_concat Posix (path_concat Posix p a) b = path_concat Posix p (a ++ b)).
Proof.
  intros p a b. split.
  - destruct (C11_concat (path_concat Posix p a) b) as (_ & _ & ->). destruct (C11_concat p a) as (_ & -> & _). destruct (C11_concat p (a ++ b)) as (_ & _ & ->).
    rewrite app_assoc. generalize (native p ++ a). intros t. unfold reported_text.
    destruct (negb (is_nil t) && only_slashes t) eqn:Ho; [|reflexivity]. apply andb_prop in Ho. destruct Ho as [Hn Ho].
    induction t as [|c t IH]; [discriminate|]. unfold only_slashes in Ho. cbn [forallb] in Ho. apply andb_prop in Ho. destruct Ho as [Hc Ho].
    unfold is_slash in Hc. apply Ascii.eqb_eq in Hc. subst c. destruct t as [|d t]; [reflexivity|]. rewrite IH by auto.
    unfold only_slashes in Ho. cbn [forallb] in Ho. apply andb_prop in Ho. destruct Ho as [Hd _]. unfold is_slash in Hd. apply Ascii.eqb_eq in Hd. subst d.
    cbn [app]. rewrite elements_slash_slash. reflexivity.
  - intros H. unfold path_concat. fold (native p). fold (native (split_components Posix (native p ++ a))). fold (mkpath (native p ++ a)). rewrite native_mkpath.
    unfold reported_text. destruct (negb (is_nil (native p ++ a)) && only_slashes (native p ++ a)) eqn:Ho; [|rewrite app_assoc; reflexivity].
    apply andb_prop in Ho. destruct Ho as [Hn Ho]. destruct H as [H|H]; [congruence|]. rewrite app_assoc. destruct (native p ++ a) as [|c [|d t]]; [discriminate| |cbn in H; lia].
    unfold only_slashes in Ho. cbn [forallb] in Ho. rewrite andb_true_r in Ho. apply Ascii.eqb_eq in Ho. subst c. reflexivity.
Qed.

(** On Windows a host is lost when its two separators are added one after the other. *)
Theorem C95_host_in_pieces_refuted : forall h, h <> [] -> wplain h ->
  map native (elems (path_concat Windows path_default (backslash :: backslash :: h))) = [backslash :: backslash :: h] /\
  map native (elems (path_concat Windows (path_concat Windows (path_concat Windows path_default [backslash]) [backslash]) h)) = [[backslash]; h].
Proof.
  intros h Hn Hp. unfold path_concat. cbn [path_default pathname app].
  change (pathname (split_components Windows (pathname (split_components Windows [backslash]) ++ [backslash])) ++ h) with (backslash :: h).
  rewrite !win_elems. unfold win_elements. destruct h as [|c h]; [congruence|].
  pose proof (wnames_plain (c :: h) Hn Hp) as Hw. pose proof Hp as Hp'. unfold wplain in Hp'. cbn [forallb] in Hp'. apply andb_prop in Hp'. destruct Hp' as [Hc Hh].
  pose proof Hc as Hc'. unfold no_wsep in Hc'. apply negb_true_iff in Hc'.
  assert (Hword : forall x, forallb no_wsep x = true -> word x = x /\ after_word x = []).
  { induction x as [|y x IH]; intros H; [auto|]. cbn [forallb] in H. apply andb_prop in H. destruct H as [Hy H]. unfold no_wsep in Hy. apply negb_true_iff in Hy.
    cbn [word after_word]. rewrite Hy. destruct (IH H) as [-> ->]. auto. }
  assert (Hpref : preferred (backslash :: backslash :: c :: h) = backslash :: backslash :: c :: h).
  { unfold preferred. cbn [map]. assert (K : forall x, forallb no_wsep x = true -> map (fun z => if Ascii.eqb z slash then backslash else z) x = x).
    { induction x as [|y x IH]; intros H; [reflexivity|]. cbn [forallb] in H. apply andb_prop in H. destruct H as [Hy H]. cbn [map]. rewrite (IH H). f_equal.
      unfold no_wsep, is_wsep in Hy. apply negb_true_iff, orb_false_elim in Hy. destruct Hy as [-> _]. reflexivity. }
    pose proof (K (c :: h) Hp) as Kc. cbn [map] in Kc. rewrite Kc. reflexivity. }
  split.
  - cbn [split_root]. destruct (Hword (c :: h) Hp) as [-> ->]. cbn [is_wsep is_nil negb andb]. change (is_wsep backslash && Ascii.eqb backslash backslash && true) with true. cbn match.
    rewrite Hpref. reflexivity.
  - assert (Hne : Ascii.eqb backslash c = false) by (destruct (Ascii.eqb_spec backslash c) as [<-|]; [discriminate|reflexivity]).
    cbn [split_root]. rewrite Hne, andb_false_r. cbn [andb]. change (no_wsep backslash) with false. cbn [andb is_nil app wstarts].
    change (is_wsep backslash) with true. cbn match.
    assert (Hnames : wnames (backslash :: c :: h) = [c :: h]).
    { change (backslash :: c :: h) with ([] ++ backslash :: c :: h). rewrite wnames_app_sep by reflexivity. rewrite Hw. reflexivity. }
    assert (Hends : wends (backslash :: c :: h) = false).
    { unfold wends. cbn [rev]. assert (Hall : forallb no_wsep (rev (c :: h)) = true) by (apply forallb_forall; intros z Hz; apply (proj1 (forallb_forall _ _) Hp); apply in_rev; exact Hz).
      cbn [rev] in Hall. destruct (rev h ++ [c]) as [|z l] eqn:Hrev; [destruct (rev h); discriminate|]. cbn [app wstarts]. cbn [forallb] in Hall. apply andb_prop in Hall.
      destruct Hall as [Hz _]. unfold no_wsep in Hz. apply negb_true_iff in Hz. exact Hz. }
    rewrite Hnames, Hends. reflexivity.
Qed.

(** * Examples *)

(** A nowide that keeps its promises. *)
Fixpoint chars_of_utf16 (l : list N) : list N :=
  match l with
  | [] => []
  | u :: r =>
      if ((55296 <=? u) && (u <? 56320))%N then
        match r with
        | v :: r' => if ((56320 <=? v) && (v <? 57344))%N then (65536 + (u - 55296) * 1024 + (v - 56320))%N :: chars_of_utf16 r'
                     else 65533%N :: chars_of_utf16 r
        | [] => [65533%N]
        end
      else (if ((56320 <=? u) && (u <? 57344))%N then 65533%N else u) :: chars_of_utf16 r
  end.

Fixpoint chars_of_utf8 (l : list N) : list N :=
  match l with
  | [] => []
  | a :: r =>
      if (a <? 128)%N then a :: chars_of_utf8 r
      else match r with
           | [] => [65533%N]
           | b :: r =>
               if (a <? 224)%N then ((a - 192) * 64 + (b - 128))%N :: chars_of_utf8 r
               else match r with
                    | [] => [65533%N]
                    | c :: r =>
                        if (a <? 240)%N then ((a - 224) * 4096 + (b - 128) * 64 + (c - 128))%N :: chars_of_utf8 r
                        else match r with
                             | [] => [65533%N]
                             | d :: r => ((a - 240) * 262144 + (b - 128) * 4096 + (c - 128) * 64 + (d - 128))%N :: chars_of_utf8 r
                             end
                    end
           end
  end.

Definition a_narrow (pl : platform) (k : wide) (w : list N) : str :=
  match k, pl with
  | WChar, Windows | Char16, _ => utf8 (chars_of_utf16 w)
  | _, _ => utf8 w
  end.
Definition a_widen (pl : platform) (s : str) : list N := units pl WChar (chars_of_utf8 (map N_of_ascii s)).

Lemma utf16_back : forall cs, Forall scalar cs -> chars_of_utf16 (utf16 cs) = cs.
Proof.
  induction cs as [|c cs IH]; intros H; [reflexivity|]. inversion H as [|? ? Hc Hcs]; subst. cbn [utf16 flat_map]. fold (utf16 cs). unfold scalar in Hc.
  unfold utf16_char. destruct (N.ltb_spec c 65536); cbn [app chars_of_utf16].
  - destruct (N.leb_spec 55296 c), (N.ltb_spec c 56320), (N.leb_spec 56320 c), (N.ltb_spec c 57344); cbn [andb]; try lia; rewrite (IH Hcs); reflexivity.
  - assert (Hb : ((c - 65536) / 1024 < 1024)%N) by (apply N.div_lt_upper_bound; lia).
    assert (Hm : ((c - 65536) mod 1024 < 1024)%N) by (apply N.mod_lt; lia).
    pose proof (N.div_mod (c - 65536) 1024 ltac:(lia)) as Hd.
    set (q := ((c - 65536) / 1024)%N) in *. set (r := ((c - 65536) mod 1024)%N) in *. clearbody q r.
    destruct (N.leb_spec 55296 (55296 + q)); [|lia]. destruct (N.ltb_spec (55296 + q) 56320); [|lia]. cbn [andb].
    destruct (N.leb_spec 56320 (56320 + r)); [|lia]. destruct (N.ltb_spec (56320 + r) 57344); [|lia]. cbn [andb]. rewrite (IH Hcs). f_equal. lia.
Qed.

Lemma utf8_back : forall cs, Forall scalar cs -> chars_of_utf8 (map N_of_ascii (utf8 cs)) = cs.
Proof.
  intros cs H. assert (Hb : map N_of_ascii (utf8 cs) = flat_map utf8_char cs).
  { rewrite utf8_bytes, map_map. rewrite <- (map_id (flat_map utf8_char cs)) at 2. apply map_ext_in. intros n Hn. apply in_flat_map in Hn. destruct Hn as (c & Hc & Hn).
    rewrite Forall_forall in H. apply n_of. pose proof (bytes_small c (H c Hc)) as Hs. rewrite Forall_forall in Hs. apply Hs. exact Hn. }
  rewrite Hb. clear Hb. induction cs as [|c cs IH]; [reflexivity|]. inversion H as [|? ? Hc Hcs]; subst. cbn [flat_map]. specialize (IH Hcs). apply scalar_small in Hc. set (tl8 := flat_map utf8_char cs) in *. clearbody tl8.
  pose proof (N.div_mod c 64 ltac:(lia)). pose proof (N.div_mod (c / 64) 64 ltac:(lia)). pose proof (N.div_mod (c / 4096) 64 ltac:(lia)).
  assert (c / 4096 = c / 64 / 64)%N by (rewrite N.div_div by lia; reflexivity). assert (c / 262144 = c / 4096 / 64)%N by (rewrite N.div_div by lia; reflexivity).
  assert (c < 2048 -> c / 64 < 32)%N by (intros; apply N.div_lt_upper_bound; lia). assert (c < 65536 -> c / 4096 < 16)%N by (intros; apply N.div_lt_upper_bound; lia).
  unfold utf8_char. destruct (N.ltb_spec c 128); [|destruct (N.ltb_spec c 2048); [|destruct (N.ltb_spec c 65536)]]; cbn [app chars_of_utf8].
  - destruct (N.ltb_spec c 128); [|lia]. rewrite IH. reflexivity.
  - destruct (N.ltb_spec (192 + c / 64) 128); [nlia|]. destruct (N.ltb_spec (192 + c / 64) 224); [|nlia]. rewrite IH. f_equal. nlia.
  - destruct (N.ltb_spec (224 + c / 4096) 128); [nlia|]. destruct (N.ltb_spec (224 + c / 4096) 224); [nlia|]. destruct (N.ltb_spec (224 + c / 4096) 240); [|nlia].
    rewrite IH. f_equal. nlia.
  - destruct (N.ltb_spec (240 + c / 262144) 128); [nlia|]. destruct (N.ltb_spec (240 + c / 262144) 224); [nlia|]. destruct (N.ltb_spec (240 + c / 262144) 240); [nlia|].
    rewrite IH. f_equal. nlia.
Qed.

Example C95_a_nowide : forall pl, narrows pl (a_narrow pl) /\ widens pl (a_widen pl) /\ replaces (a_narrow pl).
Proof.
  intros pl. split; [|split].
  - intros k cs H. destruct k, pl; cbn [a_narrow units]; rewrite ?utf16_back by exact H; reflexivity.
  - intros cs H. unfold a_widen. rewrite utf8_back by exact H. reflexivity.
  - intros u Hu. assert (H : chars_of_utf16 [u] = [65533%N]).
    { cbn [chars_of_utf16]. destruct (N.leb_spec 55296 u), (N.ltb_spec u 56320), (N.leb_spec 56320 u), (N.ltb_spec u 57344); cbn [andb]; try lia; reflexivity. }
    destruct pl; cbn [a_narrow]; rewrite H; reflexivity.
Qed.

Definition euro_text : list N := [47; 8364; 47; 128512]%N.

Example C95_example_sources :
  holds (a_narrow Posix) (SrcPointer (lit "a/b" ++ "000"%char :: lit "c")) (lit "a/b") /\
  path_of (a_narrow Posix) Posix (SrcPointer (lit "a/b" ++ "000"%char :: lit "c")) = Ok (mkpath (lit "a/b")) /\
  path_of (a_narrow Posix) Posix (SrcIterator (lit "a/b")) = UB /\
  (forall s, ~ holds (a_narrow Posix) (SrcIterator (lit "a/b")) s) /\
  path_of (a_narrow Posix) Posix (SrcString (lit "a" ++ "000"%char :: lit "b")) = Ok (mkpath (lit "a" ++ "000"%char :: lit "b")).
Proof.
  split; [apply H_pointer; intros H; repeat destruct H as [H|H]; try discriminate; destruct H|]. split; [reflexivity|]. split; [reflexivity|]. split; [|reflexivity].
  apply (C95_unterminated (a_narrow Posix) Posix (Elision false false false) (SrcIterator (lit "a/b")) path_default). reflexivity.
Qed.

Example C95_example_wide : Forall scalar euro_text /\ utf8 euro_text = map ascii_of_N [47; 226; 130; 172; 47; 240; 159; 152; 128]%N /\
  utf16 euro_text = [47; 8364; 47; 55357; 56832]%N /\ only_slashes (utf8 euro_text) = false /\
  path_of (a_narrow Posix) Posix (SrcWideString WChar euro_text) = Ok (mkpath (utf8 euro_text)) /\
  map native (elems (mkpath (utf8 euro_text))) = [lit "/"; utf8 [8364%N]; utf8 [128512%N]] /\
  wstring (a_widen Posix) (mkpath (utf8 euro_text)) = euro_text /\ wstring (a_widen Windows) (split_components Windows (utf8 euro_text)) = utf16 euro_text.
Proof.
  split; [repeat constructor; unfold scalar; lia|]. repeat split; vm_compute; reflexivity.
Qed.

Example C95_example_generic : squeezed (utf8 [97; 47; 47; 8364]%N) = utf8 [97; 47; 8364]%N /\ generic_text (utf8 [97; 92; 8364]%N) = utf8 [97; 47; 8364]%N /\ Forall scalar [97; 47; 8364]%N.
Proof. split; [vm_compute; reflexivity|]. split; [vm_compute; reflexivity|repeat constructor; unfold scalar; lia]. Qed.

Example C95_example_halves : native (concat_char (a_narrow Windows) Windows (concat_char (a_narrow Windows) Windows (split_components Windows (lit "a")) Char16 55357) Char16 56832)
  = lit "a" ++ utf8 [65533; 65533]%N /\
  native (concat_range (a_narrow Windows) Windows (split_components Windows (lit "a")) (WideRange Char16 [55357; 56832]%N)) = lit "a" ++ utf8 [128512]%N.
Proof. split; vm_compute; reflexivity. Qed.

Example C95_example_pieces : only_slashes (native (mkpath (lit "//a")) ++ lit "/b") = false /\
  path_concat Posix (path_concat Posix (mkpath (lit "//a")) (lit "/b")) (lit "c") = mkpath (lit "//a/bc") /\
  (lit "host" <> [] /\ wplain (lit "host")).
Proof. split; [reflexivity|]. split; [reflexivity|]. split; [discriminate|reflexivity]. Qed.
Print Assumptions C95_any_source.
Print Assumptions C95_any_range.
Print Assumptions C95_unterminated.
Print Assumptions C95_no_nul.
Print Assumptions C95_nul.
Print Assumptions C95_wide.
Print Assumptions C95_wide_round_trip.
Print Assumptions C95_wide_round_trip_path.
Print Assumptions C95_wide_kept.
Print Assumptions C95_generic.
Print Assumptions C95_halves_refuted.
Print Assumptions C95_in_pieces.
Print Assumptions C95_host_in_pieces_refuted.
