(** C76: the generic form of a path on Windows.
    Sources: fs_path.h:594-625 (make_generic, generic_string). *)
From Coq Require Import Ascii String Bool Arith NArith ZArith Lia List.
From Verif Require Import Str PathModel PathSpec StrProofs PathProofs PathOps WinPathProps WinPlace WinAppend.
Import ListNotations.

(** ** Specification *)

(** Forward slashes for backslashes. *)
Definition forward (s : str) : str := map (fun c => if Ascii.eqb c backslash then slash else c) s.

(** Names separated by forward slashes. *)
Fixpoint gjoin (ns : list str) : str :=
  match ns with
  | [] => []
  | [n] => n
  | n :: r => n ++ slash :: gjoin r
  end.

(** The generic form of the text [s]: drive or host, one slash for the root directory, the names with
    one slash between them, and a slash at the end when a separator ends [s]. *)
Definition generic_text (s : str) : str :=
  let (rn, rest) := split_root no_wsep s in
  forward rn ++ (if wstarts rest then [slash] else []) ++ gjoin (wnames rest) ++
  (if wends rest && negb (is_nil (wnames rest)) then [slash] else []).

(** ** Proofs *)

Lemma gjoin_cons : forall n ns, ns <> [] -> gjoin (n :: ns) = n ++ slash :: gjoin ns.
Proof. intros n [|m r] H; [congruence|reflexivity]. Qed.

Lemma gjoin_trailing : forall ns, ns <> [] -> gjoin (ns ++ [[]]) = gjoin ns ++ [slash].
Proof.
  induction ns as [|n [|m r] IH]; intros H; [congruence|reflexivity|].
  change ((n :: m :: r) ++ [[]]) with (n :: ((m :: r) ++ [[]])). rewrite gjoin_cons by (destruct r; discriminate).
  rewrite IH by discriminate. change (gjoin (n :: m :: r)) with (n ++ slash :: gjoin (m :: r)). rewrite <- app_assoc. reflexivity.
Qed.

Lemma generic_files : forall cs acc, Forall (fun c => c_type c = FILENAME) cs ->
  generic_loop (map comp_path cs) acc true = acc ++ concat (map (fun c => slash :: c_str c) cs).
Proof.
  induction cs as [|c r IH]; intros acc H; [cbn; rewrite app_nil_r; reflexivity|].
  inversion H as [|? ? Hc Hr]; subst. cbn [map generic_loop comp_path ptyp]. rewrite Hc. cbn [ptype_eqb pathname].
  rewrite IH by exact Hr. cbn [concat]. rewrite <- !app_assoc. reflexivity.
Qed.

Lemma gjoin_concat : forall n ns, gjoin (n :: ns) = n ++ concat (map (cons slash) ns).
Proof.
  intros n ns. revert n. induction ns as [|m r IH]; intros n; [cbn; rewrite app_nil_r; reflexivity|].
  change (gjoin (n :: m :: r)) with (n ++ slash :: gjoin (m :: r)). rewrite IH. reflexivity.
Qed.

Lemma generic_first : forall cs acc, Forall (fun c => c_type c = FILENAME) cs ->
  generic_loop (map comp_path cs) acc false = acc ++ gjoin (map c_str cs).
Proof.
  intros [|c r] acc H; [cbn; rewrite app_nil_r; reflexivity|]. inversion H as [|? ? Hc Hr]; subst.
  cbn [map generic_loop comp_path ptyp]. rewrite Hc. cbn [ptype_eqb pathname]. rewrite generic_files by exact Hr.
  rewrite gjoin_concat, map_map, <- app_assoc. reflexivity.
Qed.

Lemma forward_preferred : forall rn, forward (preferred rn) = forward rn.
Proof. intros rn. unfold forward, preferred. rewrite map_map. apply map_ext. intros c. destruct (Ascii.eqb_spec c slash) as [->|]; reflexivity. Qed.

Lemma trail_types : forall rest off n, Forall (fun c => c_type c = FILENAME) (wtok off [] rest ++ trail rest n).
Proof.
  intros. apply Forall_app. split; [apply wtok_types|]. unfold trail. destruct (_ && _); repeat constructor.
Qed.

Lemma trail_join : forall rest off n, gjoin (map c_str (wtok off [] rest ++ trail rest n)) =
  gjoin (wnames rest) ++ (if wends rest && negb (is_nil (wnames rest)) then [slash] else []).
Proof.
  intros. rewrite map_app, wtok_names by reflexivity. cbn [app]. unfold trail.
  destruct (wends rest && negb (is_nil (wnames rest))) eqn:E; cbn [map c_str]; [|rewrite !app_nil_r; reflexivity].
  apply gjoin_trailing. intros H. rewrite H, andb_false_r in E. discriminate.
Qed.

(** The generic form, for every text. *)
Theorem C76_generic : forall s, generic_string (split_components Windows s) = generic_text s.
Proof.
  intros s. destruct s as [|a0 s0]; [reflexivity|]. remember (a0 :: s0) as s eqn:Es. assert (Hs : s <> []) by (subst; discriminate). clear a0 s0 Es.
  unfold generic_text. destruct (split_root no_wsep s) as [rn rest] eqn:Hr. destruct (wsplit s rn rest Hs Hr) as [_ Hsp].
  set (cs := wtok (length rn) [] rest ++ trail rest (length s)) in *.
  assert (Ht : Forall (fun c => c_type c = FILENAME) cs) by apply trail_types.
  pose proof (trail_join rest (length rn) (length s)) as Hj. fold cs in Hj. rewrite <- Hj. clear Hj.
  assert (Hmul : generic_loop (map comp_path (root_comps rn rest ++ cs)) [] false =
    forward rn ++ (if wstarts rest then [slash] else []) ++ gjoin (map c_str cs)).
  { unfold root_comps. rewrite <- (forward_preferred rn). destruct rn as [|b rn].
    - cbn [is_nil app preferred map forward]. destruct (wstarts rest); cbn [app map].
      + cbn [generic_loop comp_path ptyp c_type app]. rewrite generic_first by exact Ht. reflexivity.
      + rewrite generic_first by exact Ht. reflexivity.
    - cbn [is_nil app]. destruct (wstarts rest); cbn [app map].
      + cbn [generic_loop comp_path ptyp pathname c_str c_type app]. rewrite generic_first by exact Ht. rewrite <- app_assoc. reflexivity.
      + cbn [generic_loop comp_path ptyp pathname c_str c_type app]. rewrite generic_first by exact Ht. reflexivity. }
  rewrite <- Hmul. clear Hmul. rewrite Hsp. unfold generic_string.
  destruct (root_comps rn rest ++ cs) as [|c [|d l]] eqn:El.
  - rewrite trim_other by (cbn; lia). reflexivity.
  - rewrite trim_single. unfold elems. cbn [ptyp].
    assert (Hne : c_str c <> [] /\ c_type c <> MULTI).
    { assert (Hin : In c (root_comps rn rest ++ cs)) by (rewrite El; left; reflexivity).
      split.
      - apply (win_elements_single no_wsep s). rewrite <- all_comps_elements. unfold all_comps. rewrite Hr. fold cs. rewrite El. reflexivity.
      - apply in_app_or in Hin. destruct Hin as [Hin|Hin].
        + unfold root_comps in Hin. apply in_app_or in Hin. destruct (is_nil rn), (wstarts rest), Hin as [Hin|Hin]; cbn in Hin; try tauto; destruct Hin as [<-|[]]; discriminate.
        + rewrite Forall_forall in Ht. rewrite (Ht c Hin). discriminate. }
    destruct Hne as [Hne Hty]. unfold empty. cbn [pathname]. destruct (is_nil (c_str c)) eqn:En; [destruct (c_str c); [congruence|discriminate]|].
    cbn [map]. unfold comp_path. destruct (c_type c); try reflexivity. congruence.
  - rewrite trim_other by (cbn; lia). reflexivity.
Qed.

Lemma forward_no_backslash : forall s, ~ In backslash (forward s).
Proof.
  intros s H. unfold forward in H. apply in_map_iff in H. destruct H as (c & Hc & _). destruct (Ascii.eqb c backslash) eqn:E; [discriminate|]. rewrite Hc, Ascii.eqb_refl in E. discriminate.
Qed.

Lemma plain_no_backslash : forall n, wplain n -> ~ In backslash n.
Proof.
  intros n Hn Hin. unfold wplain in Hn. rewrite forallb_forall in Hn. specialize (Hn _ Hin). discriminate.
Qed.

Lemma gjoin_no_backslash : forall ns, Forall wname ns -> ~ In backslash (gjoin ns).
Proof.
  induction ns as [|n [|m r] IH]; intros H Hin; inversion H as [|? ? [_ Hp] Hr]; subst.
  - contradiction.
  - exact (plain_no_backslash n Hp Hin).
  - change (gjoin (n :: m :: r)) with (n ++ slash :: gjoin (m :: r)) in Hin. apply in_app_or in Hin. destruct Hin as [Hin|[Hin|Hin]].
    + exact (plain_no_backslash n Hp Hin).
    + discriminate.
    + exact (IH Hr Hin).
Qed.

(** No backslash is left. *)
Theorem C76_no_backslash : forall s, ~ In backslash (generic_string (split_components Windows s)).
Proof.
  intros s. rewrite C76_generic. unfold generic_text. destruct (split_root no_wsep s) as [rn rest].
  rewrite !in_app_iff. intros [H|[H|[H|H]]].
  - exact (forward_no_backslash rn H).
  - destruct (wstarts rest); [|contradiction]. destruct H as [H|[]]; discriminate.
  - exact (gjoin_no_backslash _ (wnames_all rest) H).
  - destruct (_ && _); [|contradiction]. destruct H as [H|[]]; discriminate.
Qed.

(** *** A text without backslashes has the elements of the same text with backslashes *)

Lemma sep_preferred : forall c, is_wsep (if Ascii.eqb c slash then backslash else c) = is_wsep c.
Proof. intros c. apply preferred_sep_bool. Qed.

Lemma wpieces_preferred : forall s, wpieces (preferred s) = wpieces s.
Proof.
  induction s as [|c s IH]; [reflexivity|]. change (preferred (c :: s)) with ((if Ascii.eqb c slash then backslash else c) :: preferred s).
  cbn [wpieces]. rewrite sep_preferred, IH. destruct (is_wsep c) eqn:Ec; [reflexivity|]. rewrite (plain_nosep c Ec). reflexivity.
Qed.

Lemma wstarts_preferred : forall s, wstarts (preferred s) = wstarts s.
Proof. intros [|c s]; [reflexivity|]. apply sep_preferred. Qed.

Lemma wends_preferred : forall s, wends (preferred s) = wends s.
Proof. intros s. unfold wends. unfold preferred. rewrite <- map_rev. apply wstarts_preferred. Qed.

Lemma word_preferred : forall s, word (preferred s) = word s /\ after_word (preferred s) = preferred (after_word s).
Proof.
  induction s as [|c s [IH1 IH2]]; [split; reflexivity|]. change (preferred (c :: s)) with ((if Ascii.eqb c slash then backslash else c) :: preferred s).
  cbn [word after_word]. rewrite sep_preferred. destruct (is_wsep c) eqn:Ec; [split; reflexivity|]. rewrite (plain_nosep c Ec), IH1, IH2. auto.
Qed.

Lemma split_root_preferred : forall s rn rest, ~ In backslash s -> split_root no_wsep s = (rn, rest) ->
  split_root no_wsep (preferred s) = (preferred rn, preferred rest).
Proof.
  intros [|a [|b r]] rn rest Hb Hr.
  - cbn in Hr. injection Hr as <- <-. reflexivity.
  - cbn in Hr. injection Hr as <- <-. reflexivity.
  - unfold preferred. cbn [map]. change (map (fun c => if Ascii.eqb c slash then backslash else c) r) with (preferred r).
    cbn [split_root] in *. rewrite sep_preferred. destruct (word_preferred r) as [-> ->].
    assert (Heq : Ascii.eqb (if Ascii.eqb a slash then backslash else a) (if Ascii.eqb b slash then backslash else b) = Ascii.eqb a b).
    { assert (Ha : a <> backslash) by (intros ->; apply Hb; left; reflexivity). assert (Hb' : b <> backslash) by (intros ->; apply Hb; right; left; reflexivity).
      destruct (Ascii.eqb_spec a slash) as [->|Na], (Ascii.eqb_spec b slash) as [->|Nb]; try reflexivity.
      - rewrite (proj2 (Ascii.eqb_neq slash b)) by congruence. apply Ascii.eqb_neq. congruence.
      - rewrite (proj2 (Ascii.eqb_neq a slash)) by congruence. apply Ascii.eqb_neq. congruence. }
    rewrite Heq. destruct (is_wsep a && Ascii.eqb a b && negb (is_nil (word r))).
    + injection Hr as <- <-. pose proof (preferred_plain (word r) (word_plain r)) as Hw. unfold preferred in *. cbn [map]. rewrite Hw. reflexivity.
    + unfold no_wsep in *. rewrite sep_preferred. destruct (negb (is_wsep a) && Ascii.eqb b colon) eqn:Ed.
      * apply andb_prop in Ed. destruct Ed as [Ed1 Ed2]. apply Ascii.eqb_eq in Ed2. subst b. cbn in *. rewrite Ed1. injection Hr as <- <-. reflexivity.
      * injection Hr as <- <-. assert (Hx : Ascii.eqb (if Ascii.eqb b slash then backslash else b) colon = Ascii.eqb b colon) by (destruct (Ascii.eqb_spec b slash) as [->|]; reflexivity).
        rewrite Hx, Ed. reflexivity.
Qed.

Lemma elements_preferred : forall s, ~ In backslash s -> win_elements no_wsep (preferred s) = win_elements no_wsep s.
Proof.
  intros s Hb. destruct (split_root no_wsep s) as [rn rest] eqn:Hr.
  rewrite (win_elements_parts _ _ _ (split_root_preferred s rn rest Hb Hr)), (win_elements_parts _ _ _ Hr).
  rewrite preferred_twice, wstarts_preferred, wends_preferred. unfold wnames. rewrite wpieces_preferred. reflexivity.
Qed.

Lemma preferred_app : forall a b, preferred (a ++ b) = preferred a ++ preferred b.
Proof. intros. unfold preferred. apply map_app. Qed.

Lemma preferred_gjoin : forall ns, Forall wname ns -> preferred (gjoin ns) = wjoin ns.
Proof.
  induction ns as [|n [|m r] IH]; intros H; [reflexivity| |]; inversion H as [|? ? [_ Hp] Hr]; subst.
  - apply preferred_plain. exact Hp.
  - change (gjoin (n :: m :: r)) with (n ++ [slash] ++ gjoin (m :: r)). rewrite !preferred_app, (IH Hr), (preferred_plain n Hp). reflexivity.
Qed.

Lemma split_parts_ok : forall s rn rest, split_root no_wsep s = (rn, rest) -> ctext_ok (preferred rn) (wstarts rest) (wnames rest).
Proof.
  intros s rn rest Hr. split; [eapply root_text_split; exact Hr|]. split; [apply wnames_all|]. split.
  - intros E0 Hs. assert (rn = []) by (destruct rn; [reflexivity|discriminate]). subst rn.
    destruct (split_root_cases s [] rest Hr) as [Hcat _]. cbn [app] in Hcat. subst rest. apply unrooted_first; assumption.
  - rewrite host_preferred. intros Hh. destruct (split_root_cases s rn rest Hr) as [_ [[-> _]|[(a & -> & Ha)|(a & w & -> & _ & _ & _ & [->|Hx])]]]; auto; try discriminate.
    cbn in Hh. rewrite Ha in Hh. discriminate.
Qed.

(** A path made from the generic form has the same elements. *)
Theorem C76_same_path : forall s,
  map native (elems (split_components Windows (generic_string (split_components Windows s)))) =
  map native (elems (split_components Windows s)).
Proof.
  intros s. rewrite !win_elems. rewrite <- elements_preferred by apply C76_no_backslash. rewrite C76_generic. unfold generic_text.
  destruct (split_root no_wsep s) as [rn rest] eqn:Hr. rewrite !preferred_app, preferred_gjoin by apply wnames_all.
  assert (Hf : preferred (forward rn) = preferred rn).
  { unfold preferred, forward. rewrite map_map. apply map_ext. intros c. destruct (Ascii.eqb_spec c backslash) as [->|]; reflexivity. }
  rewrite Hf. pose proof (ctext_elements (preferred rn) (wstarts rest) (wnames rest) (wends rest) (split_parts_ok s rn rest Hr)) as Hc.
  rewrite (win_elements_parts _ _ _ Hr), <- Hc. unfold ctext. f_equal. f_equal. f_equal; [destruct (wstarts rest); reflexivity|]. f_equal.
  destruct (_ && _); reflexivity.
Qed.

Example C76_example : generic_string (split_components Windows (lit "c:\a\\b/c\")) = lit "c:/a/b/c/" /\
  generic_string (split_components Windows (lit "\\host\share\x")) = lit "//host/share/x".
Proof. vm_compute. auto. Qed.

Print Assumptions C76_generic.
Print Assumptions C76_no_backslash.
Print Assumptions C76_same_path.
