(** Properties of create_directories on the file system of FS.v. *)
From Coq Require Import Ascii String Bool Arith NArith ZArith Lia.
From Verif Require Import Str PathModel PathSpec StrProofs PathProofs PathOps PathOps2 PathNormal PathReach PathLaws
  FlagsModel TimeModel Prog DirModel OpsModel OpsProps FS FSProofs FSSpec FSOps FSPlace FSProps.
From Coq Require Import List.
Import ListNotations.

(** * Vocabulary *)

(** The text of the first [i] names of a path. *)
Definition prefix_text (t : str) (i : nat) : str := (if starts_slash t then [slash] else []) ++ join (firstn i (names t)).

(** The number of leading slashes. *)
Definition leading (t : str) : nat := length t - length (drop_slashes t).
(** Not more leading slashes than the first name has letters, or a single name. *)
Definition few_slashes (t : str) : Prop := leading t < length (prefix_text t 1) \/ length (names t) <= 1.

(** * The stack of prefixes *)

(** [p] can be climbed up name by name: [ns] are its names and [root] is "/" or nothing. *)
Fixpoint climbs (E : elision) (root : str) (ns : list str) (fuel : nat) (p : path) : Prop :=
  match fuel with
  | O => ns = [] /\ has_filename Posix p = Ok false
  | S f =>
      match ns with
      | [] => has_filename Posix p = Ok false
      | _ =>
          has_filename Posix p = Ok true /\ (exists fn, filename Posix p = Ok fn /\ native fn = last ns []) /\
          exists up, parent_path Posix E p = Ok up /\ native up = root ++ join (removelast ns) /\
            climbs E root (removelast ns) f up
      end
  end.

(** The form parent_path returns when its return is elided; [pos] is the recorded position of the first name. *)
Inductive elided (pos : nat) (root : str) (ns : list str) : path -> Prop :=
| El : forall cs, map c_str cs = ns -> Forall (fun c => c_type c = FILENAME) cs ->
    (forall c r, cs = c :: r -> c_pos c = pos) ->
    elided pos root ns (Path (root ++ join ns) ((if is_nil root then [] else [Comp [slash] ROOT_DIR 0]) ++ cs) MULTI).

Lemma is_root : forall root, root = [] \/ root = [slash] -> forall l, Forall goodname l ->
  starts_slash (root ++ join l) = negb (is_nil root) /\ names (root ++ join l) = l /\ (l <> [] -> ends_slash (root ++ join l) = false).
Proof.
  intros root [->| ->] l H; cbn [app is_nil negb].
  - rewrite starts_join, names_join by auto. repeat split; auto. intros _. apply ends_join. auto.
  - rewrite names_cons_slash, names_join by auto. repeat split; auto. intros Hl.
    change (slash :: join l) with ([slash] ++ join l). rewrite ends_slash_app by (apply join_ne; auto). apply ends_join. auto.
Qed.

Lemma Forall_removelast : forall A (P : A -> Prop) l, Forall P l -> Forall P (removelast l).
Proof. intros A P l H. induction H as [|x l Hx Hl IH]; [constructor|]. cbn. destruct l; [constructor|]. constructor; auto. Qed.

(** The parent of such a path: the relative path is looked for at the recorded position. *)
Lemma elided_up : forall E root pos, el_parent E = true -> root = [] \/ root = [slash] -> forall ns0 n p, Forall goodname (ns0 ++ [n]) ->
  elided pos root (ns0 ++ [n]) p ->
  has_filename Posix p = Ok true /\ (exists fn, filename Posix p = Ok fn /\ native fn = n) /\
  (pos < length (root ++ join (ns0 ++ [n])) -> exists up, parent_path Posix E p = Ok up /\ native up = root ++ join ns0 /\ elided pos root ns0 up) /\
  (pos = length (root ++ join (ns0 ++ [n])) -> parent_path Posix E p = Ok p) /\
  (length (root ++ join (ns0 ++ [n])) < pos -> parent_path Posix E p = Throw out_of_range).
Proof.
  intros E root pos HE Hroot ns0 n p Hg Hp. destruct Hp as [cs Hcs Hty Hpos].
  assert (Hcs' : exists cs0 c, cs = cs0 ++ [c] /\ map c_str cs0 = ns0 /\ c_str c = n).
  { destruct cs as [|c cs0 _] using rev_ind; [destruct ns0; discriminate|]. rewrite map_app in Hcs. cbn in Hcs.
    apply app_inj_tail in Hcs as [H1 H2]. eauto. }
  destruct Hcs' as (cs0 & c & -> & Hcs0 & Hc).
  apply Forall_app in Hty as [Hty0 Htyc]. inversion Htyc as [|? ? Htc _]; subst x l.
  destruct (is_root root Hroot (ns0 ++ [n]) Hg) as (R1 & R2 & R3).
  assert (Hne : ns0 ++ [n] <> []) by (destruct ns0; discriminate). specialize (R3 Hne).
  assert (Hgn : goodname n) by (apply Forall_app in Hg as [_ Hg]; inversion Hg; auto).
  assert (Htne : root ++ join (ns0 ++ [n]) <> []).
  { intros E0. apply app_eq_nil in E0 as [_ E0]. apply (join_ne _ Hg Hne). auto. }
  set (t := root ++ join (ns0 ++ [n])) in *.
  set (rc := if is_nil root then [] else [Comp [slash] ROOT_DIR 0]).
  assert (Hfn : filename Posix (Path t (rc ++ cs0 ++ [c]) MULTI) = Ok (comp_path c)).
  { unfold filename, empty. cbn [pathname ptyp PathModel.comps].
    replace (is_nil t) with false by (destruct t; [congruence|reflexivity]). rewrite last_pref, R3.
    rewrite app_assoc, map_app. cbn [map]. rewrite last_snoc, Htc. reflexivity. }
  assert (Hcp : native (comp_path c) = n) by exact Hc.
  assert (Hrel : has_relative_path Posix E (Path t (rc ++ cs0 ++ [c]) MULTI) =
    if length t <? pos then Throw out_of_range else Ok (pos <? length t)).
  { unfold has_relative_path, relative_path. cbn [ptyp PathModel.comps pathname].
    assert (Hskip : skip_root_dir (skip_root_name (rc ++ cs0 ++ [c])) = cs0 ++ [c]).
    { unfold rc. destruct Hroot as [->| ->]; cbn [is_nil app].
      - destruct cs0 as [|d cs0]; cbn [app skip_root_name skip_root_dir]; [rewrite Htc; cbn; rewrite Htc; reflexivity|].
        inversion Hty0 as [|? ? Hd _]; subst. cbn. rewrite Hd. cbn. rewrite Hd. reflexivity.
      - reflexivity. }
    rewrite Hskip. destruct (cs0 ++ [c]) as [|d r] eqn:Hd; [destruct cs0; discriminate|].
    rewrite (Hpos d r eq_refl). unfold str_substr_from.
    destruct (length t <? pos) eqn:H1; [apply Nat.ltb_lt in H1; rewrite (proj2 (Nat.leb_gt _ _)) by auto; reflexivity|].
    apply Nat.ltb_ge in H1. rewrite (proj2 (Nat.leb_le _ _)) by auto. cbn [bind].
    change (split_components Posix (skipn pos t)) with (mkpath (skipn pos t)).
    assert (He : forall u, empty (fin Posix (el_other E) (mkpath u)) = is_nil u).
    { assert (Hm : forall u, empty (mkpath u) = is_nil u).
      { intros u. unfold empty. change (pathname (mkpath u)) with (native (mkpath u)). rewrite native_mkpath. apply reported_same. }
      intros u. unfold fin. destruct (el_other E); [apply Hm|]. change (split_components Posix (pathname (mkpath u))) with (mkpath (native (mkpath u))).
      rewrite Hm. apply Hm. }
    rewrite He. f_equal. destruct (skipn pos t) as [|a u] eqn:Hs; cbn [is_nil negb].
    - symmetry. apply Nat.ltb_ge. apply (f_equal (@length _)) in Hs. rewrite skipn_length in Hs. cbn in Hs. lia.
    - symmetry. apply Nat.ltb_lt. apply (f_equal (@length _)) in Hs. rewrite skipn_length in Hs. cbn in Hs. lia. }
  split; [|split; [eauto|split; [|split]]].
  - unfold has_filename. rewrite Hfn. cbn [bind]. unfold empty. change (pathname (comp_path c)) with (native (comp_path c)). rewrite Hcp.
    destruct Hgn as [_ Hgn]. destruct n; [congruence|reflexivity].
  - intros Hlt. rewrite (proj2 (Nat.ltb_ge _ _)), (proj2 (Nat.ltb_lt _ _)) in Hrel by lia.
    exists (Path (root ++ join ns0) (rc ++ cs0) MULTI). split; [|split; [reflexivity|]].
    + unfold parent_path. rewrite Hrel. cbn [bind negb ptyp PathModel.comps]. unfold drop_end. rewrite app_assoc, rev_snoc.
      destruct Hgn as [_ Hgn]. rewrite Hc. destruct n as [|n0 n]; [congruence|]. cbn [is_nil bind]. rewrite rev_involutive, HE. cbn [fin].
      f_equal. f_equal. rewrite <- Hcs0. apply Forall_app in Hg as [Hg0 _]. rewrite <- Hcs0 in Hg0.
      unfold rc. destruct Hroot as [->| ->]; cbn [is_nil app].
      * destruct cs0; [reflexivity|]. rewrite rebuild_names; auto. discriminate.
      * apply rebuild_root. auto.
    + constructor; auto. intros d r Hd. apply (Hpos d (r ++ [c])). rewrite Hd. reflexivity.
  - intros Heq. rewrite (proj2 (Nat.ltb_ge _ _)), (proj2 (Nat.ltb_ge _ _)) in Hrel by lia. unfold parent_path. rewrite Hrel. reflexivity.
  - intros Hlt. rewrite (proj2 (Nat.ltb_lt _ _)) in Hrel by lia. unfold parent_path. rewrite Hrel. reflexivity.
Qed.

(** The first name reaches beyond the recorded position: so do all prefixes. *)
Lemma elided_climbs : forall E root pos, el_parent E = true -> root = [] \/ root = [slash] -> forall f ns p, Forall goodname ns ->
  length ns <= f -> (ns <> [] -> pos < length (root ++ join (firstn 1 ns))) -> elided pos root ns p -> climbs E root ns f p.
Proof.
  intros E root pos HE Hroot. induction f as [|f IH]; intros ns p Hg Hf Hlt Hp.
  - destruct ns; [|cbn in Hf; lia]. split; auto. destruct Hp as [cs Hcs Hty Hpos]. destruct cs; [|discriminate].
    cbn [join]. rewrite app_nil_r. destruct Hroot as [->| ->]; reflexivity.
  - destruct (snoc_cases ns) as [->|[ns0 [n ->]]].
    + cbn [climbs]. destruct Hp as [cs Hcs Hty Hpos]. destruct cs; [|discriminate].
      cbn [join]. rewrite app_nil_r. destruct Hroot as [->| ->]; reflexivity.
    + assert (Hne : ns0 ++ [n] <> []) by (destruct ns0; discriminate). specialize (Hlt Hne).
      assert (Hlt' : pos < length (root ++ join (ns0 ++ [n]))).
      { eapply Nat.lt_le_trans; [exact Hlt|]. rewrite !app_length. apply Nat.add_le_mono_l.
        destruct (ns0 ++ [n]) as [|a [|b l]]; [congruence|reflexivity|]. cbn [firstn join]. rewrite app_length. lia. }
      destruct (elided_up E root pos HE Hroot ns0 n p Hg Hp) as (H1 & H2 & H3 & _). destruct (H3 Hlt') as (up & Hup & Hnu & Hel).
      assert (Hclimb : climbs E root (ns0 ++ [n]) (S f) p <->
        has_filename Posix p = Ok true /\ (exists fn, filename Posix p = Ok fn /\ native fn = last (ns0 ++ [n]) []) /\
        exists up, parent_path Posix E p = Ok up /\ native up = root ++ join (removelast (ns0 ++ [n])) /\ climbs E root (removelast (ns0 ++ [n])) f up).
      { destruct (ns0 ++ [n]); [congruence|]. reflexivity. }
      apply Hclimb. rewrite last_snoc, removelast_snoc. split; [auto|split; [auto|]]. exists up. split; [auto|split; [auto|]].
      apply IH; auto. { apply Forall_app in Hg. tauto. } { rewrite app_length in Hf. cbn in Hf. lia. }
      intros Hn0. destruct ns0; [congruence|exact Hlt].
Qed.

Lemma removelast_len : forall A (l : list A), length (removelast l) = pred (length l).
Proof. intros A l. destruct l as [|x l _] using rev_ind; auto. rewrite removelast_app by discriminate. cbn. rewrite app_nil_r, app_length. cbn. lia. Qed.

Lemma last_name : forall s, after_last_slash s <> [] -> last (names s) [] = after_last_slash s.
Proof.
  intros s H. unfold after_last_slash, names in *.
  destruct (pieces s) as [|x l _] using rev_ind; [exfalso; apply H; reflexivity|]. rewrite last_snoc in *. rewrite filter_app. cbn.
  destruct x; [exfalso; apply H; reflexivity|]. cbn. apply last_snoc.
Qed.

Lemma root_cases : forall s, root_text s = [] \/ root_text s = [slash].
Proof. intros s. unfold root_text. destruct (starts_slash s); auto. Qed.

Lemma has_filename_end : forall s, names s = [] -> has_filename Posix (mkpath s) = Ok false.
Proof.
  intros s H. rewrite has_filename_mkpath. apply only_slashes_names in H. destruct s as [|c s]; [reflexivity|].
  rewrite ends_after; auto. apply only_slashes_ends; auto. discriminate.
Qed.

Lemma after_some : forall s, names s <> [] -> ends_slash s = false -> after_last_slash s <> [].
Proof. intros s H H0 E. apply after_last_nil in E as [->|E]; [|congruence]. apply H. reflexivity. Qed.

Lemma names_goodnames : forall s, Forall goodname (names s).
Proof. exact names_all. Qed.

Lemma climbs_head : forall s, names s <> [] -> ends_slash s = false ->
  has_filename Posix (mkpath s) = Ok true /\ exists fn, filename Posix (mkpath s) = Ok fn /\ native fn = last (names s) [].
Proof.
  intros s Hn He. pose proof (after_some _ Hn He) as Ha. rewrite has_filename_mkpath, filename_mkpath, (last_name _ Ha). split.
  - destruct (after_last_slash s); [congruence|reflexivity].
  - destruct (after_last_slash s) eqn:Hx; [congruence|]. rewrite <- Hx. eexists. split; [reflexivity|].
    apply native_is_text, noslash_text, noslash_after.
Qed.

Lemma mkpath_climbs_plain : forall E, el_parent E = false -> forall f s, names s = [] \/ ends_slash s = false -> length (names s) <= f ->
  climbs E (root_text s) (names s) f (mkpath s).
Proof.
  intros E HE. induction f as [|f IH]; intros s Hs Hf.
  - assert (names s = []) by (destruct (names s); [auto|cbn in Hf; lia]). split; auto. apply has_filename_end. auto.
  - cbn [climbs]. destruct (names s) as [|n ns] eqn:Hn; [apply has_filename_end; auto|]. rewrite <- Hn in *.
    assert (Hn' : names s <> []) by (rewrite Hn; discriminate).
    destruct Hs as [Hs|Hs]; [congruence|]. destruct (climbs_head s Hn' Hs) as [H1 H2]. split; [auto|split; [auto|]].
    destruct (parent_path_mkpath E s) as (q & Hq & Hqt & _ & Hqc). specialize (Hqc HE). exists q. split; auto.
    destruct (reported_same s) as (_ & Rs & Rn).
    assert (Ht : native q = root_text s ++ join (removelast (names s))).
    { rewrite Hqt. unfold parent_text, root_text. rewrite Rs, Rn. rewrite Hn. reflexivity. }
    split; auto.
    assert (Hg : Forall goodname (removelast (names s))) by (apply Forall_removelast, names_goodnames).
    destruct (is_root (root_text s) (root_cases s) _ Hg) as (R1 & R2 & R3). rewrite <- Ht in R1, R2, R3.
    assert (Hqm : q = path_default \/ q = mkpath (native q)).
    { destruct Hqc as [->|[u ->]]; auto. right. rewrite native_mkpath, mkpath_reported. auto. }
    assert (Hlen : length (removelast (names s)) <= f).
    { rewrite removelast_len. lia. }
    destruct Hqm as [Hqd|Hqm].
    + assert (Hnil : removelast (names s) = []).
      { rewrite <- R2, Hqd. reflexivity. }
      rewrite Hnil. destruct f; cbn [climbs]; rewrite Hqd; auto.
    + rewrite Hqm. rewrite <- R2.
      replace (root_text s) with (root_text (native q)).
      * apply IH. { destruct (names (native q)) eqn:Hx; auto. right. apply R3. rewrite <- R2. discriminate. } { rewrite R2. auto. }
      * unfold root_text at 1. rewrite R1. unfold root_text. destruct (starts_slash s); reflexivity.
Qed.

(** What parent_path returns for a text, elided. *)
Lemma mkpath_up : forall E s, el_parent E = true -> names s <> [] -> (2 <= length (names s) \/ starts_slash s = true) ->
  exists up, parent_path Posix E (mkpath s) = Ok up /\ native up = root_text s ++ join (removelast (names s)) /\
    elided (leading s) (root_text s) (removelast (names s)) up.
Proof.
  intros E s He Hn' Hm2.
  assert (Hm : ptyp (mkpath s) = MULTI).
  { destruct (mkpath_shape s) as [->|G1 G2|G1 G2|G1 G2 G3]; auto.
    - exfalso. apply Hn'. reflexivity.
    - exfalso. apply Hn'. apply only_slashes_names. auto.
    - exfalso. destruct Hm2 as [Hm2|Hm2]; [rewrite (names_noslash s G2 G1) in Hm2; cbn in Hm2; lia|].
      destruct s as [|c s]; [discriminate|]. apply noslash_cons in G2. cbn in Hm2. destruct G2. congruence. }
  rewrite parent_path_mkpath_multi by auto. rewrite He. cbn [fin]. eexists. split; [reflexivity|].
  cbn [native pathname]. unfold parent_text. destruct (names s) as [|n ns] eqn:Hn; [congruence|]. cbn [is_nil]. rewrite <- Hn in *.
  split; [reflexivity|].
  replace (rootc s) with (if is_nil (root_text s) then [] else [Comp [slash] ROOT_DIR 0]) by (unfold rootc, root_text; destruct (starts_slash s); reflexivity).
  constructor.
  - rewrite removelast_map, tok_names0. auto.
  - apply Forall_removelast. apply Forall_forall. intros c Hc. eapply tok_types; eauto.
  - intros c r Hc. destruct (tok_first s 0 Hn') as (m & l & Hl & _). rewrite Hl in Hc.
    assert (Hc0 : c = Comp m FILENAME (0 + (length s - length (drop_slashes s)))).
    { destruct l; cbn in Hc; [discriminate|]. inversion Hc. reflexivity. }
    rewrite Hc0. reflexivity.
Qed.

Lemma mkpath_climbs : forall E s, ends_slash s = false -> (el_parent E = true -> few_slashes s) ->
  climbs E (root_text s) (names s) (length (names s)) (mkpath s).
Proof.
  intros E s Hs HE. destruct (el_parent E) eqn:He; [|apply mkpath_climbs_plain; auto].
  specialize (HE eq_refl). destruct (names s) as [|n ns] eqn:Hn; [split; auto; apply has_filename_end; auto|].
  rewrite <- Hn. assert (Hn' : names s <> []) by (rewrite Hn; discriminate).
  destruct (climbs_head s Hn' Hs) as [H1 H2].
  assert (Hlen : exists f, length (names s) = S f /\ length (removelast (names s)) <= f).
  { exists (length ns). rewrite removelast_len, Hn. cbn. lia. }
  destruct Hlen as (f & Hf & Hlen). rewrite Hf. cbn [climbs]. rewrite Hn. rewrite <- Hn. split; [auto|split; [auto|]].
  assert (Hsh : (noslash s /\ s <> []) \/ (2 <= length (names s) \/ starts_slash s = true)).
  { destruct (mkpath_shape s) as [->|G1 G2|G1 G2|G1 G2 G3]; auto.
    - exfalso. apply Hn'. apply only_slashes_names. auto.
    - right. destruct (starts_slash s) eqn:Hst; [auto|left]. unfold mkcomps, rootc, trailc in G3. rewrite Hst, Hs in G3. cbn [app andb] in G3.
      rewrite app_nil_r in G3. rewrite <- (map_length c_str), tok_names0 in G3. exact G3. }
  destruct Hsh as [[G1 G2]|Hm].
  - assert (Hns : names s = [s]) by (apply names_noslash; auto).
    assert (Hst : starts_slash s = false).
    { destruct s as [|c s]; auto. cbn. apply noslash_cons in G1. tauto. }
    assert (Hty : ptyp (mkpath s) <> MULTI).
    { destruct (mkpath_shape s) as [->|K1 K2|K1 K2|K1 K2 K3]; try discriminate. exfalso. unfold mkcomps, rootc, trailc in K3.
      rewrite Hst, Hs in K3. cbn [app andb] in K3. rewrite app_nil_r in K3. rewrite <- (map_length c_str), tok_names0, Hns in K3. cbn in K3. lia. }
    exists path_default. rewrite Hns. cbn [removelast join]. rewrite app_nil_r. unfold root_text. rewrite Hst.
    split; [|split; [reflexivity|destruct f; cbn; auto]].
    unfold parent_path. rewrite has_relative_path_mkpath, Hns. cbn [bind is_nil negb]. destruct (ptyp (mkpath s)); congruence.
  - destruct (mkpath_up E s He Hn' Hm) as (up & Hup & Hnu & Hel). exists up. split; [auto|split; [auto|]].
    apply (elided_climbs E (root_text s) (leading s)); auto.
    + apply root_cases.
    + apply Forall_removelast, names_goodnames.
    + intros Hr. assert (H2n : 2 <= length (names s)) by (rewrite Hn in *; destruct ns; [exfalso; apply Hr; reflexivity|cbn; lia]).
      destruct HE as [HE|HE]; [|lia]. unfold prefix_text in HE. rewrite Hn in HE |- *. destruct ns as [|n2 ns]; [exfalso; apply Hr; rewrite Hn; reflexivity|exact HE].
Qed.

(** * The loop over the stack *)

(** A pushed path: its names are [ns]. *)
Definition rung (root : str) (ns : list str) (q : path) : Prop :=
  starts_slash (native q) = negb (is_nil root) /\ names (native q) = ns /\ ends_slash (native q) = false.

Fixpoint rungs (root : str) (pre rest : list str) (l : list path) : Prop :=
  match rest, l with
  | [], [] => True
  | x :: r, q :: l' => rung root (pre ++ [x]) q /\ rungs root (pre ++ [x]) r l'
  | _, _ => False
  end.

Lemma rungs_snoc : forall root rest pre l x q, rungs root pre rest l -> rung root (pre ++ rest ++ [x]) q ->
  rungs root pre (rest ++ [x]) (l ++ [q]).
Proof.
  intros root. induction rest as [|y r IH]; intros pre l x q H Hq; destruct l as [|q0 l]; cbn [rungs] in H; try contradiction.
  - cbn. auto.
  - destruct H as [H1 H2]. cbn [rungs app]. split; auto. apply IH; auto. rewrite <- app_assoc. exact Hq.
Qed.

Lemma run_push : forall cf root, root = [] \/ root = [slash] -> forall f ns p n m, climbs (cf_el cf) root ns f p ->
  Forall goodname ns -> Forall (fun x => is_dots x = false) ns -> length ns < n -> (ns <> [] -> rung root ns p) ->
  exists l, (forall S (h : kernel S) s, run h (push_missing cf n p m) s = Done (l ++ m) s) /\ rungs root [] ns l.
Proof.
  intros cf root Hroot. induction f as [|f IH]; intros ns p n m Hc Hg Hd Hn Hp; (destruct n as [|n]; [lia|]); cbn [push_missing].
  - cbn [climbs] in Hc. destruct Hc as [-> Hc]. rewrite Hc. exists []. cbn. auto.
  - cbn [climbs] in Hc. destruct (snoc_cases ns) as [->|[ns0 [x ->]]].
    { rewrite Hc. exists []. cbn. auto. }
    assert (Hc' : has_filename Posix p = Ok true /\ (exists fn, filename Posix p = Ok fn /\ native fn = last (ns0 ++ [x]) []) /\
      exists up, parent_path Posix (cf_el cf) p = Ok up /\ native up = root ++ join (removelast (ns0 ++ [x])) /\
        climbs (cf_el cf) root (removelast (ns0 ++ [x])) f up).
    { destruct (ns0 ++ [x]) eqn:Hx; [destruct ns0; discriminate|]. exact Hc. }
    clear Hc. destruct Hc' as (H1 & (fn & H2 & H3) & up & H4 & H5 & H6). rewrite last_snoc in H3. rewrite removelast_snoc in H5, H6.
    rewrite H1. cbn [lift pbind negb]. rewrite H2. cbn [lift pbind]. rewrite H4. cbn [lift pbind].
    apply Forall_app in Hg as [Hg0 Hgx]. apply Forall_app in Hd as [Hd0 Hdx]. inversion Hdx as [|? ? Hx _]; subst.
    unfold is_dots in Hx. rewrite is_dot_eq, is_dotdot_eq, Hx.
    rewrite app_length in Hn. cbn in Hn.
    destruct (IH ns0 up n (p :: m) H6 Hg0 Hd0 ltac:(lia)) as (l & Hl & Hr).
    { intros Hne. destruct (is_root root Hroot ns0 Hg0) as (R1 & R2 & R3). unfold rung. rewrite H5. auto. }
    exists (l ++ [p]). rewrite <- app_assoc. cbn [app]. split; auto. apply rungs_snoc; auto. cbn [app]. apply Hp. destruct ns0; discriminate.
Qed.

(** A new directory at a place where there was nothing. *)
Lemma made_extends : forall s s' q, wf s -> look (f_root s) q = None -> same_outside s s' q -> same_bodies s s' -> same_process s s' ->
  extends s s'.
Proof.
  intros s s' q Hw Hq Ho Hb Hp. split; [|split].
  - intros r x Hr. destruct (below q r) eqn:B; [|rewrite Ho; auto]. apply below_spec in B as [u ->].
    destruct u as [|n u]; [rewrite app_nil_r in Hr; congruence|]. destruct (look_prefix _ _ _ _ Hr ltac:(discriminate)) as [i Hi]. congruence.
  - intros r i Hr. unfold link_text. rewrite Hb; auto. eapply look_fresh; eauto.
  - apply Hp.
Qed.

Section Loop.
Variable k : choices.
Variable root : str.

(** Following the names [ns] in the state [s]. *)
Definition walk (s : fs) (last : bool) (ns : list str) : place :=
  steps (look (f_root s)) (link_text s) last (k_links k) (if is_nil root then f_cwd s else []) ns.

Lemma rung_walk : forall s last ns q, rung root ns q -> ns <> [] ->
  find_at k s last (native q) = walk s last ns /\ find_entry k s (native q) = walk s false ns.
Proof.
  intros s last ns q (R1 & R2 & R3) Hne. unfold find_at, find_entry, resolve_comps, FS.comps, walk. rewrite R1, R2, R3.
  assert (Hn : is_nil (native q) = false) by (destruct (native q); auto; exfalso; apply Hne; rewrite <- R2; reflexivity).
  rewrite Hn. cbn [andb]. rewrite app_nil_r. destruct (is_nil root); auto.
Qed.

Lemma walk_snoc : forall s last pre x, is_dots x = false ->
  walk s last (pre ++ [x]) =
    match walk s true pre with
    | Found l q => steps (look (f_root s)) (link_text s) last l q [x]
    | Missing _ _ => Fail ENOENT
    | Fail e => Fail e
    end.
Proof. intros. unfold walk. apply steps_app. discriminate. Qed.

Lemma walk_missing : forall s pre x q y, is_dots x = false -> walk s false (pre ++ [x]) = Missing q y ->
  y = x /\ (exists l i, walk s true pre = Found l q /\ look (f_root s) q = Some (NDir i)) /\ look (f_root s) (q ++ [x]) = None.
Proof.
  intros s pre x q y Hx H. rewrite walk_snoc in H by auto. destruct (walk s true pre) as [l q0|? ?|?] eqn:E; try discriminate.
  unfold is_dots in Hx. apply orb_false_iff in Hx as [D1 D2].
  rewrite steps_cons, D1, D2 in H. destruct (look (f_root s) q0) as [[i|i]|] eqn:L; try discriminate. cbn [is_nil] in H.
  destruct (look (f_root s) (q0 ++ [x])) as [[j|j]|] eqn:L2.
  - destruct (link_text s j); cbn in H; discriminate.
  - rewrite steps_nil in H. discriminate.
  - inversion H; subst. eauto 8.
Qed.

Lemma walk_new : forall s last pre x l q i, is_dots x = false -> walk s true pre = Found l q -> look (f_root s) q = Some (NDir i) ->
  look (f_root s) (q ++ [x]) = None -> walk s last (pre ++ [x]) = Missing q x.
Proof.
  intros s last pre x l q i Hx H L L2. rewrite walk_snoc, H by auto. unfold is_dots in Hx. apply orb_false_iff in Hx as [D1 D2].
  rewrite steps_cons, D1, D2, L, L2. reflexivity.
Qed.

Lemma walk_dir : forall s last pre x l q i j, is_dots x = false -> walk s true pre = Found l q -> look (f_root s) q = Some (NDir i) ->
  look (f_root s) (q ++ [x]) = Some (NDir j) -> walk s last (pre ++ [x]) = Found l (q ++ [x]).
Proof.
  intros s last pre x l q i j Hx H L L2. rewrite walk_snoc, H by auto. unfold is_dots in Hx. apply orb_false_iff in Hx as [D1 D2].
  rewrite steps_cons, D1, D2, L, L2. apply steps_nil.
Qed.

Lemma walk_extends : forall s s' last ns l q, extends s s' -> walk s last ns = Found l q -> walk s' last ns = Found l q.
Proof.
  intros s s' last ns l q H Hw. unfold walk in *. pose proof (extends_grows _ _ H) as Hg. destruct H as (_ & _ & ->).
  eapply steps_grows; eauto.
Qed.

(** New directories, each in the previous one, from the place [q] along [rest]; nothing else has changed. *)
Definition chain (s s' : fs) (q : loc) (rest : list str) : Prop :=
  (forall r, (exists m, 0 < m <= length rest /\ r = q ++ firstn m rest) \/ look (f_root s') r = look (f_root s) r) /\
  (forall m, 0 < m <= length rest -> look (f_root s) (q ++ firstn m rest) = None /\ exists i, look (f_root s') (q ++ firstn m rest) = Some (NDir i)) /\
  same_bodies s s' /\ same_metas s s' /\ same_process s s'.

Lemma firstn_S : forall A (x : A) r m, firstn (S m) (x :: r) = x :: firstn m r.
Proof. reflexivity. Qed.

Lemma run_chain : forall has p c rest pre x l s q, wf s -> is_dots x = false -> Forall (fun y => is_dots y = false) rest ->
  rungs root pre (x :: rest) l -> walk s false (pre ++ [x]) = Missing q x ->
  exists s', run (fsk k) (create_missing has p l c) s = Done (true, None) s' /\ wf s' /\ extends s s' /\ chain s s' q (x :: rest) /\
    (forall m, 0 < m <= length (x :: rest) -> exists lk, walk s' true (pre ++ firstn m (x :: rest)) = Found lk (q ++ firstn m (x :: rest))).
Proof.
  intros has p c rest. revert c. induction rest as [|y rest IH]; intros c pre x l s q Hw Hx Hd Hl Hm.
  all: destruct l as [|top l]; [destruct Hl|]; cbn [rungs] in Hl; destruct Hl as [Ht Hl].
  all: destruct (walk_missing _ _ _ _ _ Hx Hm) as (_ & (lk & i & W1 & W2) & W3).
  all: destruct (rung_walk s true _ _ Ht ltac:(destruct pre; discriminate)) as [F1 F2].
  all: cbn [create_missing]; rewrite run_bind, run_status.
  all: assert (Hna : node_at s (find_at k s true (native top)) = Err ENOENT) by (rewrite F1, (walk_new _ _ _ _ _ _ _ Hx W1 W2 W3); reflexivity).
  all: rewrite Hna; cbn [stat_result fst snd]; change (file_type_eqb (st_type (missing_status ENOENT)) ft_not_found) with true; cbn iota.
  all: rewrite run_bind, run_bind.
  all: pose proof (C25_create_directory_partial k s true top Hw) as H25.
  all: pose proof (wf_run _ k (create_directory_impl true top) s Hw) as Hw1.
  all: destruct (C25_creates_partial k s true top q x Hw ltac:(unfold names_missing; rewrite F2; exact Hm)) as [s1 Hs1].
  all: rewrite Hs1 in H25, Hw1 |- *; destruct H25 as (_ & q1 & n1 & G1 & G2 & G3 & G4 & G5 & G6 & G7).
  all: unfold names_missing in G1; rewrite F2, Hm in G1; inversion G1; subst q1 n1; clear G1.
  all: cbn [run pbind snd failed].
  all: rewrite orb_true_r.
  all: assert (Hext : extends s s1) by (eapply made_extends; eauto).
  all: assert (Lq : look (f_root s1) (q ++ [x]) = Some (NDir (f_next s))) by (unfold look; rewrite G3; reflexivity).
  all: assert (Lq0 : look (f_root s1) q = Some (NDir i)) by (destruct Hext as (He & _); auto).
  all: assert (W4 : walk s1 true (pre ++ [x]) = Found lk (q ++ [x])) by (eapply walk_dir; eauto; eapply walk_extends; eauto).
  - assert (l = []) by (destruct l; [auto|destruct Hl]). subst l. cbn [create_missing run]. exists s1. split; [reflexivity|]. split; [auto|]. split; [auto|].
    split.
    + split; [|split; [|auto]].
      * intros r. destruct (below (q ++ [x]) r) eqn:B; [|right; apply G4; auto]. apply below_spec in B as [u ->].
        destruct u as [|n u]; [left; exists 1; cbn; rewrite app_nil_r; split; [lia|reflexivity]|]. right.
        assert (N1 : look (f_root s) ((q ++ [x]) ++ n :: u) = None).
        { destruct (look (f_root s) ((q ++ [x]) ++ n :: u)) eqn:N; auto. destruct (look_prefix _ _ _ _ N ltac:(discriminate)). congruence. }
        rewrite N1. unfold look. rewrite get_app, G3. reflexivity.
      * intros m Hm0. cbn in Hm0. replace m with 1 by lia. cbn. eauto.
    + intros m Hm0. cbn in Hm0. replace m with 1 by lia. cbn. eauto.
  - inversion Hd as [|? ? Hy Hd']; subst.
    assert (N2 : look (f_root s1) ((q ++ [x]) ++ [y]) = None) by (unfold look; rewrite get_app, G3; reflexivity).
    destruct (IH true (pre ++ [x]) y l s1 (q ++ [x]) Hw1 Hy Hd' Hl (walk_new _ _ _ _ _ _ _ Hy W4 Lq N2)) as (s' & E1 & E2 & E3 & (C1 & C2 & C3 & C4 & C5) & E5).
    exists s'. split; [auto|]. split; [auto|]. split; [eapply extends_trans; eauto|].
    assert (Hnone : forall u, look (f_root s) ((q ++ [x]) ++ u) = None).
    { intros u. destruct u as [|n u]; [rewrite app_nil_r; auto|].
      destruct (look (f_root s) ((q ++ [x]) ++ n :: u)) eqn:N; auto. destruct (look_prefix _ _ _ _ N ltac:(discriminate)). congruence. }
    split; [split; [|split; [|split; [|split]]]|].
    + intros r. destruct (C1 r) as [(m & M1 & ->)|C1'].
      * left. exists (S m). rewrite firstn_S, <- app_assoc. cbn [length] in *. split; [lia|reflexivity].
      * rewrite C1'. destruct (below (q ++ [x]) r) eqn:B; [|right; apply G4; auto]. apply below_spec in B as [u ->].
        destruct u as [|n u]; [left; exists 1; cbn; rewrite app_nil_r; split; [lia|reflexivity]|]. right.
        rewrite Hnone. unfold look. rewrite get_app, G3. reflexivity.
    + intros m Hm0. destruct m as [|m]; [lia|]. rewrite firstn_S.
      change (q ++ x :: firstn m (y :: rest)) with (q ++ [x] ++ firstn m (y :: rest)). rewrite app_assoc. split; [apply Hnone|].
      destruct m as [|m]; [cbn [firstn]; rewrite app_nil_r; exists (f_next s); apply E3; auto|]. apply C2. cbn [length] in *. lia.
    + intros j Hj. rewrite C3, G5; auto. 
      pose proof (look_fresh _ _ _ Hw1 (or_intror Lq)). lia.
    + intros j Hj. rewrite C4, G6; auto. pose proof (look_fresh _ _ _ Hw1 (or_intror Lq)). lia.
    + destruct G7 as (A1 & A2 & A3 & A4), C5 as (B1 & B2 & B3 & B4). repeat split; congruence.
    + intros m Hm0. destruct m as [|m]; [lia|]. rewrite firstn_S.
      change (pre ++ x :: firstn m (y :: rest)) with (pre ++ [x] ++ firstn m (y :: rest)).
      change (q ++ x :: firstn m (y :: rest)) with (q ++ [x] ++ firstn m (y :: rest)). rewrite !app_assoc.
      destruct m as [|m]; [cbn [firstn]; rewrite !app_nil_r; exists lk; eapply walk_extends; eauto|]. apply E5. cbn [length] in *. lia.
Qed.

(** The throwing is_directory of a path that leads to nothing. *)
Lemma run_no_directory : forall s top e, node_at s (find_at k s true (native top)) = Err e ->
  (exists f, run (fsk k) (is_directory false top) s = Failed f s) \/ exists c, run (fsk k) (is_directory false top) s = Done (false, c) s.
Proof.
  intros s top e H. unfold is_directory, is_type, status_impl, GetFileStatus. cbn [pbind]. rewrite run_sys. cbn [fsk fst snd].
  rewrite sys_stat_node, H. unfold CreateFileStatus. destruct (errno_eqb e ENOENT || errno_eqb e ENOTDIR); [right|left]; eexists; reflexivity.
Qed.

(** One turn of the loop when the path leads to nothing and cannot be created. *)
Lemma run_refused : forall has p c rest top s e, wf s -> node_at s (find_at k s true (native top)) = Err e ->
  (file_type_eqb (st_type (missing_status e)) ft_not_found = false \/ exists e2, find_entry k s (native top) = Fail e2) ->
  match run (fsk k) (create_missing has p (top :: rest) c) s with Done (b, o) s' => b = false /\ o <> None /\ s' = s | Failed _ s' => s' = s end.
Proof.
  intros has p c rest top s e Hw He He2. cbn [create_missing]. rewrite run_bind, run_status, He. cbn [stat_result fst snd].
  assert (Hm : forall m_ec, m_ec <> None ->
    match run (fsk k) (let! m_ec2 := (if failed m_ec then let! d := is_directory false top in Ret (if fst d then None else m_ec) else Ret m_ec) in
      match m_ec2 with
      | Some _ => report has [p] false m_ec2
      | None => create_missing has p rest (c || file_type_eqb (st_type (missing_status e)) ft_not_found)
      end) s with Done (b, o) s' => b = false /\ o <> None /\ s' = s | Failed _ s' => s' = s end).
  { intros m_ec Hm. destruct m_ec as [m_ec|]; [|congruence]. cbn [failed]. rewrite run_bind, run_bind.
    destruct (run_no_directory s top e He) as [[f ->]|[d ->]]; cbn; auto. destruct has; cbn; auto. }
  rewrite run_bind. destruct (file_type_eqb (st_type (missing_status e)) ft_not_found) eqn:Ha.
  - destruct He2 as [He2|[e2 He2]]; [congruence|]. rewrite run_bind. pose proof (C25_create_directory_partial k s true top Hw) as H25.
    destruct (run (fsk k) (create_directory_impl true top) s) as [[[] o] s1|f s1].
    + destruct H25 as (_ & q & n & H25 & _). unfold names_missing in H25. congruence.
    + destruct o as [o|]; [|destruct H25 as (_ & q & x & l & H25 & _); congruence]. destruct H25 as (-> & _). cbn [run snd].
      apply (Hm (Some o)). congruence.
    + destruct H25 as (_ & H25 & _). discriminate.
  - cbn [run]. apply (Hm (Some e)). congruence.
Qed.

(** What the loop comes to. *)
Inductive result (pre rest : list str) (c : bool) (s : fs) : outcome (bool * ecode) fs -> Prop :=
| R_found : (forall m, 0 < m <= length rest -> exists lk q x, walk s true (pre ++ firstn m rest) = Found lk q /\ look (f_root s) q = Some x) ->
    result pre rest c s (Done (c, None) s)
| R_made : forall d q x rest' s', rest = d ++ x :: rest' ->
    (forall m, 0 < m <= length d -> exists lk q x, walk s true (pre ++ firstn m d) = Found lk q /\ look (f_root s) q = Some x) ->
    walk s false (pre ++ d ++ [x]) = Missing q x -> wf s' -> extends s s' -> chain s s' q (x :: rest') ->
    (forall m, 0 < m <= length (x :: rest') -> exists lk, walk s' true (pre ++ d ++ firstn m (x :: rest')) = Found lk (q ++ firstn m (x :: rest'))) ->
    result pre rest c s (Done (true, None) s')
| R_dangling : forall d x lk q i e, rest = d ++ [x] ->
    (forall m, 0 < m <= length d -> exists lk q x, walk s true (pre ++ firstn m d) = Found lk q /\ look (f_root s) q = Some x) ->
    walk s false (pre ++ rest) = Found lk q -> look (f_root s) q = Some (NLeaf i) -> node_at s (walk s true (pre ++ rest)) = Err e ->
    result pre rest c s (Done (true, None) s)
| R_error : forall b e, b = false -> result pre rest c s (Done (b, Some e) s)
| R_failed : forall f, result pre rest c s (Failed f s).

Lemma run_loop : forall has p rest pre c l s, wf s -> Forall (fun y => is_dots y = false) rest -> rungs root pre rest l ->
  result pre rest c s (run (fsk k) (create_missing has p l c) s).
Proof.
  intros has p. induction rest as [|x rest IH]; intros pre c l s Hw Hd Hl.
  { destruct l; [|destruct Hl]. apply R_found. cbn. lia. }
  destruct l as [|top l]; [destruct Hl|]. inversion Hd as [|? ? Hx Hd']; subst. pose proof Hl as Hl0. cbn [rungs] in Hl. destruct Hl as [Ht Hl].
  destruct (rung_walk s true _ _ Ht ltac:(destruct pre; discriminate)) as [F1 F2].
  destruct (node_at s (find_at k s true (native top))) as [e|x0] eqn:Hna.
  - assert (Hrefused : (file_type_eqb (st_type (missing_status e)) ft_not_found = false \/ exists e2, find_entry k s (native top) = Fail e2) ->
      result pre (x :: rest) c s (run (fsk k) (create_missing has p (top :: l) c) s)).
    { intros Hr. pose proof (run_refused has p c l top s e Hw Hna Hr) as H.
      destruct (run (fsk k) (create_missing has p (top :: l) c) s) as [[b o] s1|f s1].
      - destruct H as (-> & Ho & ->). destruct o; [|congruence]. apply R_error. auto.
      - subst s1. apply R_failed. }
    destruct (find_entry k s (native top)) as [lk q|q y|e2] eqn:He; [| |apply Hrefused; eauto].
    + destruct (file_type_eqb (st_type (missing_status e)) ft_not_found) eqn:Ha; [|apply Hrefused; auto]. clear Hrefused.
      cbn [create_missing]. rewrite run_bind, run_status, Hna. cbn [stat_result fst snd]. rewrite Ha.
      rewrite run_bind, run_bind. unfold create_directory_impl at 1. rewrite run_sys. cbn [fsk]. unfold sys_mkdir. rewrite He.
      cbn [fst snd]. change (errno_eqb EEXIST EEXIST) with true. cbn [run pbind snd failed]. rewrite orb_true_r.
      rewrite F1 in Hna. symmetry in F2.
      destruct rest as [|y rest].
      * destruct l; [|destruct Hl]. cbn [create_missing run].
        assert (Hq : exists i, look (f_root s) q = Some (NLeaf i)).
        { destruct (entry_found _ _ _ _ _ Hw He) as [[i|i] Hi]; eauto. exfalso.
          unfold walk in F2, Hna. rewrite (steps_last _ _ _ _ _ _ _ F2) in Hna by congruence. cbn in Hna. rewrite Hi in Hna. discriminate. }
        destruct Hq as [i Hq]. apply (R_dangling pre [x] c s [] x lk q i e); auto. cbn. lia.
      * destruct l as [|top2 l]; [destruct Hl|]. destruct Hl as [Ht2 Hl2].
        destruct (rung_walk s true _ _ Ht2 ltac:(destruct pre; discriminate)) as [F3 F4].
        assert (Hy : is_dots y = false) by (inversion Hd'; auto).
        assert (Hf : exists e3, forall last, walk s last ((pre ++ [x]) ++ [y]) = Fail e3).
        { destruct (walk s true (pre ++ [x])) as [lk2 q2|q2 n2|e2] eqn:W.
          - exfalso. destruct (find_found _ _ _ _ _ _ Hw F1) as [z Hz]. cbn in Hna. rewrite Hz in Hna. discriminate.
          - exists ENOENT. intros last. rewrite walk_snoc, W by auto. reflexivity.
          - exists e2. intros last. rewrite walk_snoc, W by auto. reflexivity. }
        destruct Hf as [e3 Hf]. rewrite Hf in F3, F4.
        pose proof (run_refused has p true l top2 s e3 Hw ltac:(rewrite F3; reflexivity) ltac:(eauto)) as H.
        destruct (run (fsk k) (create_missing has p (top2 :: l) true) s) as [[b o] s1|f s1].
        -- destruct H as (-> & Ho & ->). destruct o; [|congruence]. apply R_error. auto.
        -- subst s1. apply R_failed.
    + clear Hrefused. symmetry in F2. destruct (walk_missing _ _ _ _ _ Hx F2) as (-> & _).
      destruct (run_chain has p c rest pre x (top :: l) s q Hw Hx Hd' Hl0 F2) as (s' & E1 & E2 & E3 & E4 & E5). rewrite E1.
      apply (R_made pre (x :: rest) c s [] q x rest s'); auto. cbn. lia.
  - cbn [create_missing]. rewrite run_bind, run_status, Hna. cbn [stat_result fst snd].
    replace (file_type_eqb (st_type (status_of s x0)) ft_not_found) with false
      by (destruct (type_of_not s x0) as (_ & T & _); cbn; destruct (type_of s x0); try reflexivity; congruence).
    cbn [run pbind failed]. rewrite orb_false_r.
    assert (Hx0 : exists lk q y, walk s true (pre ++ [x]) = Found lk q /\ look (f_root s) q = Some y).
    { rewrite <- F1. destruct (find_at k s true (native top)) as [lk q|? ?|?] eqn:W; try discriminate. cbn in Hna.
      destruct (look (f_root s) q) eqn:Lq; try discriminate. eauto. }
    assert (Hup : forall d, (forall m, 0 < m <= length d -> exists lk q y, walk s true ((pre ++ [x]) ++ firstn m d) = Found lk q /\ look (f_root s) q = Some y) ->
      forall m, 0 < m <= length (x :: d) -> exists lk q y, walk s true (pre ++ firstn m (x :: d)) = Found lk q /\ look (f_root s) q = Some y).
    { intros d H m Hm. destruct m as [|m]; [lia|]. rewrite firstn_S. destruct m as [|m]; [exact Hx0|].
      change (pre ++ x :: firstn (S m) d) with (pre ++ [x] ++ firstn (S m) d). rewrite app_assoc. apply H. cbn [length] in Hm. lia. }
    destruct (IH (pre ++ [x]) c l s Hw Hd' Hl) as [H|d q y rest' s' -> H1 H2 H3 H4 H5 H6|d y lk q i e -> H1 H2 H3 H4|b e ->|f].
    + apply R_found. auto.
    + apply (R_made pre (x :: d ++ y :: rest') c s (x :: d) q y rest' s'); auto.
      * rewrite <- H2, <- app_assoc. reflexivity.
      * intros m Hm. specialize (H6 m Hm). rewrite <- app_assoc in H6. exact H6.
    + apply (R_dangling pre (x :: d ++ [y]) c s (x :: d) y lk q i e); auto.
      * rewrite <- H2, <- app_assoc. reflexivity.
      * rewrite <- H4, <- app_assoc. reflexivity.
    + apply R_error. auto.
    + apply R_failed.
Qed.

(** Paths that lead somewhere are passed over. *)
Lemma run_skip : forall has p d rest pre c l s, rungs root pre (d ++ rest) l ->
  (forall m, 0 < m <= length d -> exists lk q x, walk s true (pre ++ firstn m d) = Found lk q /\ look (f_root s) q = Some x) ->
  exists l', rungs root (pre ++ d) rest l' /\ run (fsk k) (create_missing has p l c) s = run (fsk k) (create_missing has p l' c) s.
Proof.
  intros has p. induction d as [|x d IH]; intros rest pre c l s Hl H; [exists l; rewrite app_nil_r; auto|].
  destruct l as [|top l]; [destruct Hl|]. cbn [rungs app] in Hl.
  destruct Hl as [Ht Hl]. destruct (rung_walk s true _ _ Ht ltac:(destruct pre; discriminate)) as [F1 _].
  destruct (H 1 ltac:(cbn [length]; lia)) as (lk & q & y & W & L). cbn [firstn] in W.
  cbn [create_missing]. rewrite run_bind, run_status, F1, W. cbn [node_at]. rewrite L. cbn [stat_result fst snd].
  replace (file_type_eqb (st_type (status_of s y)) ft_not_found) with false
    by (destruct (type_of_not s y) as (_ & T & _); cbn; destruct (type_of s y); try reflexivity; congruence).
  cbn [run pbind failed]. rewrite orb_false_r. change (pre ++ x :: d) with (pre ++ [x] ++ d). rewrite app_assoc. apply IH; auto.
  intros m Hm. rewrite <- app_assoc. apply (H (S m)). cbn [length]. lia.
Qed.

Lemma run_all_found : forall has p rest pre c l s, rungs root pre rest l ->
  (forall m, 0 < m <= length rest -> exists lk q x, walk s true (pre ++ firstn m rest) = Found lk q /\ look (f_root s) q = Some x) ->
  run (fsk k) (create_missing has p l c) s = Done (c, None) s.
Proof.
  intros has p rest pre c l s Hl H. rewrite <- (app_nil_r rest) in Hl. destruct (run_skip has p rest [] pre c l s Hl H) as (l' & Hl' & ->).
  destruct l'; [reflexivity|destruct Hl'].
Qed.

(** The places on the way are directories. *)
Lemma walk_up : forall s last pre x lk q, is_dots x = false -> walk s last (pre ++ [x]) = Found lk q ->
  exists l q' d y, walk s true pre = Found l q' /\ look (f_root s) q' = Some (NDir d) /\ look (f_root s) (q' ++ [x]) = Some y /\
    walk s false (pre ++ [x]) = Found l (q' ++ [x]).
Proof.
  intros s last pre x lk q Hx H. rewrite !walk_snoc in * by auto. destruct (walk s true pre) as [l q'|? ?|?]; try discriminate.
  unfold is_dots in Hx. apply orb_false_iff in Hx as [D1 D2]. rewrite steps_cons, D1, D2 in *.
  destruct (look (f_root s) q') as [[i|i]|] eqn:L; try discriminate.
  destruct (look (f_root s) (q' ++ [x])) as [[j|j]|] eqn:L2; [| |discriminate]; exists l, q', i; eexists;
    (split; [reflexivity|]; split; [eassumption|]; split; [first [eassumption|reflexivity]|]).
  - destruct (link_text s j); reflexivity.
  - apply steps_nil.
Qed.

Lemma walk_prefixes : forall s last ns lk q, Forall (fun x => is_dots x = false) ns -> walk s last ns = Found lk q ->
  forall i, i < length ns -> exists l q' d, walk s true (firstn i ns) = Found l q' /\ look (f_root s) q' = Some (NDir d).
Proof.
  intros s last ns. revert last. induction ns as [|x ns IH] using rev_ind; intros last lk q Hd H i Hi; [cbn in Hi; lia|].
  apply Forall_app in Hd as [Hd Hx]. inversion Hx as [|? ? Hx' _]; subst. destruct (walk_up _ _ _ _ _ _ Hx' H) as (l & q' & d & y & W & L & _).
  rewrite app_length in Hi. cbn in Hi. destruct (Nat.eq_dec i (length ns)) as [->|Hne].
  - rewrite firstn_app, Nat.sub_diag, firstn_all. cbn [firstn]. rewrite app_nil_r. eauto.
  - rewrite firstn_app. replace (i - length ns) with 0 by lia. cbn [firstn]. rewrite app_nil_r. eapply IH; eauto. lia.
Qed.
End Loop.

(** * The theorems *)

Lemma text_walk : forall k s last t u ns, starts_slash u = starts_slash t -> names u = ns -> ends_slash u = false -> ns <> [] ->
  find_at k s last u = walk k (root_text t) s last ns /\ find_entry k s u = walk k (root_text t) s false ns.
Proof.
  intros k s last t u ns H1 H2 H3 H4. apply (rung_walk k (root_text t) s last ns (Path u [] FILENAME)); auto.
  unfold rung. cbn [native pathname]. rewrite H1. unfold root_text. destruct (starts_slash t); auto.
Qed.

Lemma Forall_firstn : forall A (P : A -> Prop) i l, Forall P l -> Forall P (firstn i l).
Proof. intros A P i l H. revert i. induction H; intros [|i]; cbn; auto. Qed.

Lemma prefix_walk : forall k s last t i, 0 < i <= length (names t) -> find_at k s last (prefix_text t i) = walk k (root_text t) s last (firstn i (names t)).
Proof.
  intros k s last t i Hi.
  assert (Hg : Forall goodname (firstn i (names t))) by (apply Forall_firstn, names_goodnames).
  destruct (is_root (root_text t) (root_cases t) _ Hg) as (R1 & R2 & R3).
  assert (Hne : firstn i (names t) <> []) by (destruct i; [lia|]; destruct (names t); [cbn in Hi; lia|discriminate]).
  apply (text_walk k s last t (prefix_text t i)); auto. change (prefix_text t i) with (root_text t ++ join (firstn i (names t))).
  rewrite R1. unfold root_text. destruct (starts_slash t); reflexivity.
Qed.

Lemma prefix_entry : forall k s t i, 0 < i <= length (names t) -> find_entry k s (prefix_text t i) = walk k (root_text t) s false (firstn i (names t)).
Proof.
  intros k s t i Hi. rewrite <- prefix_walk by auto. unfold find_at, find_entry, FS.comps. f_equal.
  assert (Hg : Forall goodname (firstn i (names t))) by (apply Forall_firstn, names_goodnames).
  destruct (is_root (root_text t) (root_cases t) _ Hg) as (R1 & R2 & R3). change (prefix_text t i) with (root_text t ++ join (firstn i (names t))).
  rewrite R3; [cbn [andb]; rewrite app_nil_r; auto|]. destruct i; [lia|]; destruct (names t); [cbn in Hi; lia|discriminate].
Qed.

(** Everything new is a directory that a prefix of [t] leads to. *)
Definition only_prefixes_made (k : choices) (s s' : fs) (t : str) : Prop :=
  forall r, look (f_root s') r = look (f_root s) r \/
    (look (f_root s) r = None /\ exists i d, 0 < i <= length (names t) /\ leads_to k s' (prefix_text t i) r (NDir d)).

(** The stack of prefixes is built without any call; then the loop runs over it. *)
Lemma create_loop_any : forall cf n t, t <> [] -> ends_slash t = false ->
  Forall (fun x => is_dots x = false) (names t) -> (el_parent (cf_el cf) = true -> few_slashes t) -> length (names t) < n ->
  names t <> [] /\ exists l, rungs (root_text t) [] (names t) l /\
  forall S (h : kernel S) has0 s0, run h (create_directories_impl cf n has0 (topath t)) s0 = run h (create_missing has0 (topath t) l false) s0.
Proof.
  intros cf n t Hne He Hd HE Hn.
  assert (Hnn : names t <> []).
  { intros Hx. apply only_slashes_names in Hx. rewrite only_slashes_ends in He; auto. discriminate. }
  assert (Hnat : native (topath t) = t).
  { change (topath t) with (mkpath t). rewrite native_mkpath. unfold reported_text.
    destruct (only_slashes t) eqn:Ho; [apply only_slashes_names in Ho; congruence|]. rewrite andb_false_r. auto. }
  assert (Hrung : rung (root_text t) (names t) (topath t)).
  { unfold rung. rewrite Hnat. repeat split; auto. unfold root_text. destruct (starts_slash t); reflexivity. }
  pose proof (mkpath_climbs (cf_el cf) t He HE) as Hc.
  assert (Hpush : exists l, rungs (root_text t) [] (names t) l /\ forall S (h : kernel S) s0, run h (push_missing cf n (topath t) []) s0 = Done l s0).
  { destruct (run_push cf (root_text t) (root_cases t) _ _ _ n [] Hc (names_goodnames t) Hd Hn (fun _ => Hrung)) as (l & Hl & Hr).
    exists l. split; auto. intros S h s0. rewrite Hl, app_nil_r. auto. }
  destruct Hpush as (l & Hl & Hpush).
  split; [auto|]. exists l. split; [auto|].
  intros S h has0 s0. unfold create_directories_impl.
    replace (empty (topath t)) with false by (unfold empty; change (pathname (topath t)) with (native (topath t)); rewrite Hnat; destruct t; [congruence|reflexivity]).
    rewrite run_bind, Hpush. destruct l; [destruct (names t); [congruence|destruct Hl]|reflexivity].
Qed.

Lemma create_loop : forall cf n t, t <> [] -> ends_slash t = false ->
  Forall (fun x => is_dots x = false) (names t) -> (el_parent (cf_el cf) = true -> few_slashes t) -> length (names t) < n ->
  names t <> [] /\ exists l, rungs (root_text t) [] (names t) l /\
  forall k has0 s0, run (fsk k) (create_directories_impl cf n has0 (topath t)) s0 = run (fsk k) (create_missing has0 (topath t) l false) s0.
Proof.
  intros cf n t Hne He Hd HE Hn. destruct (create_loop_any cf n t Hne He Hd HE Hn) as (H1 & l & H2 & H3). split; [auto|]. exists l. split; auto.
Qed.

(** create_directories with an error code throws whenever the first directory of the path cannot be examined, for any system. *)
Theorem C22_create_directories_throws_refuted : forall cf n S (h : kernel S) s t e, t <> [] -> ends_slash t = false ->
  Forall (fun x => is_dots x = false) (names t) -> (el_parent (cf_el cf) = true -> few_slashes t) -> length (names t) < n ->
  e <> ENOENT -> e <> ENOTDIR ->
  (forall x s0, names x = firstn 1 (names t) -> fst (h (c_stat x) s0) = Err e) ->
  exists paths s', run h (create_directories_impl cf n true (topath t)) s = Failed (FThrow (Some e) paths) s'.
Proof.
  intros cf n S h s t e Hne He Hd HE Hn E1 E2 HS.
  destruct (create_loop_any cf n t Hne He Hd HE Hn) as (Hnn & l & Hl & Hrun). rewrite Hrun.
  destruct (names t) as [|x ns] eqn:En; [congruence|]. destruct l as [|top l]; cbn [rungs] in Hl; [contradiction|]. destruct Hl as [(_ & Ht & _) _].
  cbn [firstn app] in *. pose proof (fun s0 => HS (native top) s0 Ht) as HT.
  assert (F : (errno_eqb e ENOENT || errno_eqb e ENOTDIR) = false).
  { apply orb_false_iff. unfold errno_eqb. split; match goal with |- context [errno_eq_dec ?a ?b] => destruct (errno_eq_dec a b) end; congruence. }
  pose proof (HT s) as H1. destruct (h (c_stat (native top)) s) as [r1 s1] eqn:S1. cbn in H1. subst r1.
  pose proof (HT s1) as H2. destruct (h (c_stat (native top)) s1) as [r2 s2] eqn:S2. cbn in H2. subst r2.
  exists [top], s2. cbn. rewrite S1. cbn. rewrite F. cbn. rewrite S2. cbn. rewrite F. reflexivity.
Qed.
Example C22_create_directories_throws_example :
  Forall (fun x => is_dots x = false) (names (lit "/a/b")) /\ (forall x s0, fst (failing EACCES (c_stat x) s0) = Err EACCES) /\
  run (failing EACCES) (create_directories_impl plain_config 9 true (topath (lit "/a/b"))) tt = Failed (FThrow (Some EACCES) [topath (lit "/a")]) tt.
Proof. split; [repeat constructor|]. repeat split; vm_compute; reflexivity. Qed.

(** For a path of names without trailing separator. If create_directories reports success, the only changes are new directories
    that prefixes of the path lead to, and the proper prefixes lead to directories. The path itself then leads to a directory, the result
    tells whether something was created, and a second call returns false and changes nothing, provided the path did not name
    anything but a directory before (this is what is missing from the full property; see the refutations below). If an error is
    reported nothing has changed. The condition on leading slashes is needed when the compiler elides the copy of the path that parent_path
    returns. *)
Theorem C26_create_directories_partial : forall cf k s n has t, wf s -> t <> [] -> ends_slash t = false ->
  Forall (fun x => is_dots x = false) (names t) -> (el_parent (cf_el cf) = true -> few_slashes t) -> length (names t) < n ->
  match run (fsk k) (create_directories_impl cf n has (topath t)) s with
  | Done (b, None) s' =>
      only_prefixes_made k s s' t /\ same_bodies s s' /\ same_metas s s' /\ same_process s s' /\
      (forall i, 0 < i < length (names t) -> exists q d, leads_to k s' (prefix_text t i) q (NDir d)) /\
      ((forall q x, names_entry k s t q x -> exists q' d, leads_to k s t q' (NDir d)) ->
         (exists q d, leads_to k s' t q (NDir d)) /\
         (b = true <-> exists r, look (f_root s) r = None /\ look (f_root s') r <> None) /\
         forall has', run (fsk k) (create_directories_impl cf n has' (topath t)) s' = Done (false, None) s')
  | Done (b, Some e) s' => b = false /\ s' = s
  | Failed _ s' => s' = s
  end.
Proof.
  intros cf k s n has t Hw Hne He Hd HE Hn.
  destruct (create_loop cf n t Hne He Hd HE Hn) as (Hnn & l & Hl & Hrun'). pose proof (Hrun' k) as Hrun. clear Hrun'.
  rewrite Hrun. pose proof (run_loop k (root_text t) has (topath t) (names t) [] false l s Hw Hd Hl) as HR.
  pose proof (fun last s0 => text_walk k s0 last t t (names t) eq_refl eq_refl He Hnn) as HT.
  assert (Hproper : forall s0 last lk q, walk k (root_text t) s0 last (names t) = Found lk q -> forall i, 0 < i < length (names t) ->
    exists q d, leads_to k s0 (prefix_text t i) q (NDir d)).
  { intros s0 last lk q W i Hi. destruct (walk_prefixes k (root_text t) s0 last (names t) lk q Hd W i ltac:(lia)) as (lk' & q' & d & W' & L').
    exists q', d, lk'. rewrite prefix_walk by lia. auto. }
  assert (Hagain : forall s0 q d, leads_to k s0 t q (NDir d) -> forall has', run (fsk k) (create_missing has' (topath t) l false) s0 = Done (false, None) s0).
  { intros s0 q d (lk & F & L) has'. rewrite (proj1 (HT true s0)) in F. apply (run_all_found k (root_text t) has' (topath t) (names t) []); auto.
    intros m Hm. cbn [app]. destruct (Nat.eq_dec m (length (names t))) as [->|Hmn].
    - rewrite firstn_all. eauto.
    - destruct (walk_prefixes k (root_text t) s0 true (names t) lk q Hd F m ltac:(lia)) as (lk' & q' & d' & W' & L'). eauto. }
  assert (Hentry : forall lk q, walk k (root_text t) s true (names t) = Found lk q -> exists q x, names_entry k s t q x).
  { intros lk q W. destruct (snoc_cases (names t)) as [Hx|(ns0 & x & Hx)]; [congruence|].
    assert (Hdx : is_dots x = false). { rewrite Hx in Hd. apply Forall_app in Hd as [_ Hd]. inversion Hd; auto. }
    rewrite Hx in W. destruct (walk_up _ _ _ _ _ _ _ _ Hdx W) as (l0 & q' & d & y & _ & _ & L & W').
    exists (q' ++ [x]), y, l0. rewrite (proj2 (HT true s)), Hx. auto. }
  destruct HR as [H|d q x rest' s' Hrest H1 H2 H3 H4 (C1 & C2 & C3 & C4 & C5) H6|d x lk q i e Hrest H1 H2 H3 H4|b e ->|f]; auto.
  - (* everything was there *)
    destruct (H (length (names t))) as (lk & q & x & W & L). { destruct (names t); [congruence|cbn; lia]. } rewrite firstn_all in W. cbn [app] in W.
    split; [intros r; auto|]. split; [intros j _; auto|]. split; [intros j _; auto|]. split; [repeat split|].
    split; [eapply Hproper; eauto|]. intros Hx. destruct (Hentry _ _ W) as (q1 & x1 & E1). destruct (Hx _ _ E1) as (q' & d & Hl'). split; [eauto|].
    split. { split; [discriminate|]. intros (r & R1 & R2). congruence. } intros has'. rewrite Hrun. eapply Hagain; eauto.
  - (* something was created *)
    cbn [app] in *.
    assert (Wfull : exists lk, walk k (root_text t) s' true (names t) = Found lk (q ++ x :: rest')).
    { destruct (H6 (length (x :: rest'))) as [lk W]; [cbn; lia|]. rewrite firstn_all in W. rewrite <- Hrest in W. eauto. }
    destruct Wfull as [lk Wfull].
    split.
    { intros r. destruct (C1 r) as [(m & M1 & ->)|C]; [|auto]. right. destruct (C2 m M1) as [N (i & I)]. split; auto. exists (length d + m), i.
      destruct (H6 m M1) as [lk' W]. assert (Hi : 0 < length d + m <= length (names t)).
      { rewrite Hrest, app_length. lia. }
      split; [exact Hi|]. exists lk'. rewrite prefix_walk by auto. rewrite Hrest, firstn_app_2. auto. }
    split; [auto|]. split; [auto|]. split; [auto|]. split; [eapply Hproper; eauto|]. intros _.
    destruct (C2 (length (x :: rest'))) as [N (i & I)]; [cbn; lia|]. rewrite firstn_all in N, I.
    assert (HL : leads_to k s' t (q ++ x :: rest') (NDir i)). { exists lk. rewrite (proj1 (HT true s')). auto. }
    split; [eauto|]. split.
    + split; auto. intros _. exists (q ++ x :: rest'). split; auto. congruence.
    + intros has'. rewrite Hrun. eapply Hagain; eauto.
  - (* a dangling symlink *)
    cbn [app] in *.
    split; [intros r; auto|]. split; [intros j _; auto|]. split; [intros j _; auto|]. split; [repeat split|].
    split; [eapply Hproper; eauto|]. intros Hx. exfalso.
    destruct (Hx q (NLeaf i)) as (q' & d' & lk' & F & L). { exists lk. rewrite (proj2 (HT true s)). auto. }
    rewrite (proj1 (HT true s)) in F. rewrite F in H4. cbn in H4. rewrite L in H4. discriminate.
Qed.

(** Conversely it succeeds when the first missing prefix is missing from a directory, and when the path leads to something. *)
Theorem C26_succeeds_partial : forall cf k s n has t, wf s -> t <> [] -> ends_slash t = false ->
  Forall (fun x => is_dots x = false) (names t) -> (el_parent (cf_el cf) = true -> few_slashes t) -> length (names t) < n ->
  (forall i q x, 0 < i <= length (names t) -> names_missing k s (prefix_text t i) q x ->
     exists s', run (fsk k) (create_directories_impl cf n has (topath t)) s = Done (true, None) s') /\
  (forall q x, leads_to k s t q x -> run (fsk k) (create_directories_impl cf n has (topath t)) s = Done (false, None) s).
Proof.
  intros cf k s n has t Hw Hne He Hd HE Hn. destruct (create_loop cf n t Hne He Hd HE Hn) as (Hnn & l & Hl & Hrun). rewrite Hrun. split.
  - intros i q x Hi Hm. unfold names_missing in Hm.
    assert (Hsplit : exists d y rest, names t = d ++ y :: rest /\ length d = pred i).
    { destruct (nth_split (names t) (n := pred i) [] ltac:(lia)) as (d & rest & H1 & H2). eauto. }
    destruct Hsplit as (d & y & rest & Ht & Hlen).
    assert (Hf : firstn i (names t) = d ++ [y]).
    { rewrite Ht. replace i with (length d + 1) by lia. rewrite firstn_app_2. reflexivity. }
    rewrite prefix_entry, Hf in Hm by auto. rewrite Ht in Hd, Hl.
    apply Forall_app in Hd as [Hd1 Hd2]. inversion Hd2 as [|? ? Hy Hd3]; subst.
    destruct (walk_missing _ _ _ _ _ _ _ Hy Hm) as (-> & (lk & j & W & L) & _).
    destruct (run_skip k (root_text t) has (topath t) d (y :: rest) [] false l s Hl) as (l' & Hl' & ->).
    { intros m Hm0. cbn [app]. destruct (Nat.eq_dec m (length d)) as [->|Hmn]; [rewrite firstn_all; eauto|].
      destruct (walk_prefixes k (root_text t) s true d lk q Hd1 W m ltac:(lia)) as (lk' & q' & d' & W' & L'). eauto. }
    destruct (run_chain k (root_text t) has (topath t) false rest d y l' s q Hw Hy Hd3 Hl' Hm) as (s' & H & _). eauto.
  - intros q x (lk & F & L). rewrite (proj1 (text_walk k s true t t (names t) eq_refl eq_refl He Hnn)) in F.
    apply (run_all_found k (root_text t) has (topath t) (names t) []); auto.
    intros m Hm. cbn [app]. destruct (Nat.eq_dec m (length (names t))) as [->|Hmn].
    + rewrite firstn_all. eauto.
    + destruct (walk_prefixes k (root_text t) s true (names t) lk q Hd F m ltac:(lia)) as (lk' & q' & d' & W' & L'). eauto.
Qed.

(** An existing file is not an error, although the path is not a directory. *)
Theorem C26_existing_file_refuted : forall cf k s n has t q i, wf s -> t <> [] -> ends_slash t = false ->
  Forall (fun x => is_dots x = false) (names t) -> (el_parent (cf_el cf) = true -> few_slashes t) -> length (names t) < n ->
  leads_to k s t q (NLeaf i) -> run (fsk k) (create_directories_impl cf n has (topath t)) s = Done (false, None) s.
Proof. intros cf k s n has t q i Hw Hne He Hd HE Hn H. eapply C26_succeeds_partial; eauto. Qed.
Example C26_existing_file_example : wf demo /\ leads_to demo_choices demo (lit "/a/f") [lit "a"; lit "f"] (NLeaf 3) /\ type_of demo (NLeaf 3) = ft_regular /\
  few_slashes (lit "/a/f").
Proof. split; [apply demo_wf|]. split; [exists 40; split; reflexivity|]. split; [reflexivity|]. left. vm_compute. lia. Qed.

(** With a trailing separator nothing is created, false is returned, and no error is reported: for all such paths, the system is not even asked. *)
Theorem C26_trailing_refuted : forall cf S (h : kernel S) s n has t, ends_slash t = true ->
  run h (create_directories_impl cf (Datatypes.S n) has (topath t)) s = Done (false, None) s.
Proof.
  intros cf S h s n has t Ht. unfold create_directories_impl.
  replace (empty (topath t)) with false.
  - cbn [push_missing]. rewrite has_filename_mkpath, ends_after by auto. reflexivity.
  - unfold empty. change (pathname (topath t)) with (native (mkpath t)). rewrite native_mkpath. destruct (reported_same t) as [-> _].
    destruct t; [discriminate|reflexivity].
Qed.
Example C26_trailing_example : ends_slash (lit "x/") = true /\ names_missing demo_choices demo (lit "x/") [lit "a"] (lit "x").
Proof. split; reflexivity. Qed.

(** A symlink that leads nowhere, in a directory that exists: true is returned, without error, and nothing is created. *)
Theorem C26_dangling_refuted : forall cf k s n has t q i, wf s -> t <> [] -> ends_slash t = false ->
  Forall (fun x => is_dots x = false) (names t) -> (el_parent (cf_el cf) = true -> few_slashes t) -> length (names t) < n ->
  names_entry k s t q (NLeaf i) -> node_at s (find_at k s true t) = Err ENOENT ->
  run (fsk k) (create_directories_impl cf n has (topath t)) s = Done (true, None) s.
Proof.
  intros cf k s n has t q i Hw Hne He Hd HE Hn (lk & F & L) Hna. destruct (create_loop cf n t Hne He Hd HE Hn) as (Hnn & l & Hl & Hrun). rewrite Hrun.
  destruct (text_walk k s true t t (names t) eq_refl eq_refl He Hnn) as [T1 T2]. rewrite T2 in F. rewrite T1 in Hna.
  destruct (snoc_cases (names t)) as [E|[d [y E]]]; [congruence|]. rewrite E in *. apply Forall_app in Hd as [Hd1 Hd2]. inversion Hd2 as [|? ? Hy _]; subst.
  destruct (walk_up k (root_text t) s false d y lk q Hy F) as (l1 & q' & d' & x & W & Ld & _).
  destruct (run_skip k (root_text t) has (topath t) d [y] [] false l s Hl) as (l' & Hl' & ->).
  { intros m Hm0. cbn [app]. destruct (Nat.eq_dec m (length d)) as [->|Hmn]; [rewrite firstn_all; eauto|].
    destruct (walk_prefixes k (root_text t) s true d l1 q' Hd1 W m ltac:(lia)) as (lk' & q2 & d2 & W' & L'). eauto. }
  destruct l' as [|top l']; [destruct Hl'|]. destruct Hl' as [Ht Hl']. assert (l' = []) by (destruct l'; [auto|destruct Hl']). subst l'.
  cbn [app] in Ht. destruct (rung_walk k (root_text t) s true _ _ Ht ltac:(destruct d; discriminate)) as [F1 F2].
  cbn [create_missing]. rewrite run_bind, run_status. rewrite F1, Hna. cbn [stat_result fst snd].
  change (file_type_eqb (st_type (missing_status ENOENT)) ft_not_found) with true. cbn iota. rewrite run_bind, run_bind.
  rewrite (C25_existing_file_refuted k s true top q (NLeaf i) ltac:(exists lk; rewrite F2; auto)). reflexivity.
Qed.

Definition demo_dangling : fs := set_body demo 4 (BLink (lit "nowhere")).
Example C26_dangling_example : wf demo_dangling /\ names_entry demo_choices demo_dangling (lit "/a/l") [lit "a"; lit "l"] (NLeaf 4) /\
  node_at demo_dangling (find_at demo_choices demo_dangling true (lit "/a/l")) = Err ENOENT /\ few_slashes (lit "/a/l").
Proof.
  split; [eapply wf_unchanged; [apply demo_wf|reflexivity|reflexivity]|]. split; [eexists; split; vm_compute; reflexivity|]. split; [reflexivity|].
  left. vm_compute. lia.
Qed.

(** More leading slashes than the first name has letters, and more than one name, with the elision compilers perform: no directory is made, and the
    call never succeeds. If a proper prefix, its slashes reduced to one, has as many characters as there are leading slashes, the loop that climbs the path never
    ends; otherwise an exception leaves the function that is not a filesystem_error, even from the overload with an error code. *)
Lemma push_stuck : forall cf S (h : kernel S) s root pos, el_parent (cf_el cf) = true -> root = [] \/ root = [slash] -> forall n ns p m, Forall goodname ns ->
  elided pos root ns p -> ns <> [] -> length (root ++ join (firstn 1 ns)) <= pos ->
  ((exists j, 0 < j <= length ns /\ length (root ++ join (firstn j ns)) = pos) -> run h (push_missing cf n p m) s = Failed FFuel s) /\
  ((forall j, 0 < j <= length ns -> length (root ++ join (firstn j ns)) <> pos) -> length ns < n ->
    run h (push_missing cf n p m) s = Failed (FPath out_of_range) s).
Proof.
  intros cf S h s root pos HE Hroot. induction n as [|n IH]; intros ns p m Hg Hp Hns H1.
  { split; [intros; reflexivity|]. intros _ H. lia. }
  destruct (snoc_cases ns) as [->|[ns0 [x ->]]]; [congruence|].
  destruct (elided_up (cf_el cf) root pos HE Hroot ns0 x p Hg Hp) as (A & (fn & B & _) & C & D & F).
  cbn [push_missing]. rewrite A, B. cbn [lift pbind negb].
  assert (Hall : firstn (length (ns0 ++ [x])) (ns0 ++ [x]) = ns0 ++ [x]) by apply firstn_all.
  assert (Hlen : length (ns0 ++ [x]) = Datatypes.S (length ns0)) by (rewrite app_length; cbn; lia).
  assert (Hpre : forall j, j <= length ns0 -> firstn j (ns0 ++ [x]) = firstn j ns0).
  { intros j Hj. rewrite firstn_app. replace (j - length ns0) with 0 by lia. cbn. apply app_nil_r. }
  destruct (lt_eq_lt_dec pos (length (root ++ join (ns0 ++ [x])))) as [[Hlt|Heq]|Hgt].
  - destruct (C Hlt) as (up & -> & _ & Hel). cbn [lift pbind].
    assert (Hn0 : ns0 <> []) by (intros ->; cbn [app firstn] in H1; cbn [app] in Hlt; lia).
    assert (Hg0 : Forall goodname ns0) by (apply Forall_app in Hg; tauto).
    assert (H10 : length (root ++ join (firstn 1 ns0)) <= pos) by (destruct ns0; [congruence|exact H1]).
    destruct (IH ns0 up (if is_dot fn || is_dotdot fn then m else p :: m) Hg0 Hel Hn0 H10) as [I1 I2]. split.
    + intros (j & Hj & Hjp). apply I1. exists j. rewrite Hlen in Hj. destruct (Nat.eq_dec j (Datatypes.S (length ns0))) as [->|Hne].
      * rewrite <- Hlen, Hall in Hjp. lia.
      * split; [lia|]. rewrite Hpre in Hjp by lia. exact Hjp.
    + intros Hj Hn. apply I2; [|lia]. intros j Hj0. rewrite <- Hpre by lia. apply Hj. lia.
  - rewrite (D Heq). cbn [lift pbind]. split.
    + intros _. apply (proj1 (IH _ p _ Hg Hp Hns H1)). exists (length (ns0 ++ [x])). rewrite Hall. lia.
    + intros Hj. exfalso. apply (Hj (length (ns0 ++ [x]))); [lia|]. rewrite Hall. auto.
  - rewrite (F Hgt). cbn [lift pbind run]. split; [|reflexivity].
    intros (j & Hj & Hjp). exfalso. revert Hjp. 
    assert (Hmono : length (join (firstn j (ns0 ++ [x]))) <= length (join (ns0 ++ [x]))).
    { rewrite <- (firstn_skipn j (ns0 ++ [x])) at 2. destruct (skipn j (ns0 ++ [x])) as [|y l]; [rewrite app_nil_r; lia|].
      destruct (firstn j (ns0 ++ [x])) as [|z l'] eqn:Hz; [cbn; lia|]. rewrite join_app by congruence. rewrite app_length. lia. }
    rewrite !app_length in *. lia.
Qed.

Theorem C26_many_slashes_refuted : forall cf S (h : kernel S) s n has t, el_parent (cf_el cf) = true -> ends_slash t = false ->
  1 < length (names t) -> length (prefix_text t 1) <= leading t ->
  ((exists j, 0 < j < length (names t) /\ length (prefix_text t j) = leading t) ->
     run h (create_directories_impl cf n has (topath t)) s = Failed FFuel s) /\
  ((forall j, 0 < j < length (names t) -> length (prefix_text t j) <> leading t) -> length (names t) < n ->
     run h (create_directories_impl cf n has (topath t)) s = Failed (FPath out_of_range) s).
Proof.
  intros cf S h s n has t HE He Hm Hl.
  assert (Hn' : names t <> []) by (intros H; rewrite H in Hm; cbn in Hm; lia).
  assert (Hemp : empty (topath t) = false).
  { unfold empty. change (pathname (topath t)) with (native (mkpath t)). rewrite native_mkpath. destruct (reported_same t) as [-> _].
    destruct t; [exfalso; apply Hn'; reflexivity|reflexivity]. }
  destruct (mkpath_up (cf_el cf) t HE Hn' (or_introl Hm)) as (up & Hup & _ & Hel).
  destruct (climbs_head t Hn' He) as [H1 (fn & H2 & _)].
  set (ns := removelast (names t)) in *. assert (Hlen : length (names t) = Datatypes.S (length ns)) by (unfold ns; rewrite removelast_len; lia).
  assert (Hns : ns <> []) by (intros H; rewrite H in Hlen; cbn in Hlen; lia).
  assert (Hpre : forall j, j <= length ns -> prefix_text t j = root_text t ++ join (firstn j ns)).
  { intros j Hj. unfold prefix_text, root_text. f_equal. f_equal. unfold ns. rewrite (app_removelast_last [] Hn') at 1. rewrite firstn_app.
    change (removelast (names t)) with ns. match goal with |- context [firstn ?e [last _ _]] => replace e with 0 by (symmetry; apply Nat.sub_0_le; exact Hj) end.
    cbn [firstn]. apply app_nil_r. }
  rewrite Hpre in Hl by (destruct ns; [congruence|cbn; lia]).
  assert (Hrun : forall f, (exists n', n = Datatypes.S n' /\ forall m, run h (push_missing cf n' up m) s = Failed f s) \/ n = 0 /\ f = FFuel ->
    run h (create_directories_impl cf n has (topath t)) s = Failed f s).
  { intros f Hf. unfold create_directories_impl. rewrite Hemp, run_bind. change (topath t) with (mkpath t). destruct Hf as [(n' & -> & Hf)|[-> ->]]; [|reflexivity].
    cbn [push_missing]. rewrite H1, H2, Hup. cbn [lift pbind negb]. rewrite Hf. reflexivity. }
  assert (Hst : forall n' m, _) by (intros n' m; exact (push_stuck cf S h s _ _ HE (root_cases t) n' ns up m (Forall_removelast _ _ _ (names_goodnames t)) Hel Hns Hl)).
  split.
  - intros (j & Hj & Hjp). apply Hrun. destruct n as [|n']; [auto|left]. exists n'. split; [reflexivity|]. intros m. apply (proj1 (Hst n' m)).
    exists j. rewrite <- Hpre by lia. split; [lia|auto].
  - intros Hj Hn. apply Hrun. left. destruct n as [|n']; [lia|]. exists n'. split; [reflexivity|]. intros m. apply (proj2 (Hst n' m)); [|lia].
    intros j Hj0. rewrite <- Hpre by lia. apply Hj. lia.
Qed.
(** "//x/y" never ends, "///x/y" throws; "//xy/z" is fine. *)
Example C26_many_slashes_example :
  length (prefix_text (lit "//x/y") 1) = leading (lit "//x/y") /\
  length (prefix_text (lit "///x/y") 1) < leading (lit "///x/y") /\ 1 < length (names (lit "///x/y")) /\
  few_slashes (lit "//xy/z") /\
  exists s', run (fsk demo_choices) (create_directories_impl plain_config 5 true (topath (lit "//xy/z"))) demo = Done (true, None) s' /\
    get (f_root s') [lit "xy"] = Some (Dir 10 [(lit "z", Dir 11 [])]).
Proof. split; [reflexivity|]. split; [vm_compute; lia|]. split; [vm_compute; lia|]. split; [left; vm_compute; lia|]. eexists. split; vm_compute; reflexivity. Qed.

Example C26_example : wf demo /\ ends_slash (lit "l/x//y/z") = false /\ Forall (fun x => is_dots x = false) (names (lit "l/x//y/z")) /\
  few_slashes (lit "l/x//y/z") /\ names_missing demo_choices demo (prefix_text (lit "l/x//y/z") 2) [lit "b"] (lit "x") /\
  (forall q x, ~ names_entry demo_choices demo (lit "l/x//y/z") q x) /\
  exists s', run (fsk demo_choices) (create_directories_impl plain_config 5 true (topath (lit "l/x//y/z"))) demo = Done (true, None) s' /\
    get (f_root s') [lit "b"] = Some (Dir 7 [(lit "h", Leaf 3); (lit "x", Dir 10 [(lit "y", Dir 11 [(lit "z", Dir 12 [])])])]).
Proof.
  split; [apply demo_wf|]. split; [reflexivity|]. split; [repeat constructor|]. split; [left; vm_compute; lia|]. split; [vm_compute; reflexivity|].
  split; [intros q x (l & F & L); vm_compute in F; discriminate|]. eexists. split; vm_compute; reflexivity.
Qed.
Print Assumptions C26_create_directories_partial.
Print Assumptions C26_succeeds_partial.
Print Assumptions C26_existing_file_refuted.
Print Assumptions C26_dangling_refuted.
Print Assumptions C26_trailing_refuted.
Print Assumptions C26_many_slashes_refuted.
Print Assumptions C22_create_directories_throws_refuted.
