(** C89: modifying a path with itself or with one of its own elements. Library model: [AliasModel.v]. *)
From Coq Require Import Ascii String Bool Arith NArith ZArith Lia.
From Verif Require Import Str PathModel PathSpec StrProofs PathProofs PathOps PathOps2 PathLaws PathReach WinPathProps AliasModel.
From Coq Require Import List.
Import ListNotations.

Lemma bind_out_assoc : forall A B C (x : out A) (f : A -> out B) (g : B -> out C), bind (bind x f) g = bind x (fun a => bind (f a) g).
Proof. destruct x; reflexivity. Qed.

(** * The argument is the object itself *)

Lemma assign_self : forall p, assign_at p Self = Ok p.
Proof. intros [t cs ty]. reflexivity. Qed.
Lemma assign_other : forall p q, assign_at p (Other q) = Ok q.
Proof. intros p [t cs ty]. reflexivity. Qed.

(** The operators give what they give with a copy of the object; assigning and swapping do nothing. *)
Theorem C89_self : forall w E g p,
  append_at w E g p Self = path_append w E g p p /\ concat_at w p Self = Ok (path_concat w p (native p)) /\
  assign_at p Self = Ok p /\ swap_self p = p.
Proof.
  intros w E g p. split; [|split; [reflexivity|split; [apply assign_self|reflexivity]]].
  unfold append_at. cbn [shows bind]. rewrite assign_self. unfold by_assignment. destruct (_ || _) eqn:Hc; [|reflexivity].
  unfold path_append. rewrite Hc. reflexivity.
Qed.

(** Move assignment to itself empties the path. *)
Theorem C89_self_move_refuted : forall w p, native (move_assign_self w p) = [] /\ elems (move_assign_self w p) = [].
Proof. intros w p. split; reflexivity. Qed.

(** * The argument is an element *)

Lemma assign_elem : forall p k, assign_at p (Elem k) = UB.
Proof.
  intros [t cs ty] k. unfold assign_at. unfold shows. cbn [comps]. destruct (nth_error cs k) as [c|] eqn:Hc; [|reflexivity].
  cbn. rewrite ?Hc. cbn. destruct k; reflexivity.
Qed.

(** += and replace_extension give what they give with a copy of the element. Assigning the element is undefined: it is
    destroyed while it is copied. *)
Theorem C89_elements : forall w p k c, nth_error (comps p) k = Some c ->
  concat_at w p (Elem k) = Ok (path_concat w p (c_str c)) /\
  replace_extension_at w p (Elem k) = replace_extension w p (comp_path c) /\
  assign_at p (Elem k) = UB.
Proof.
  intros w p k c Hc. split; [|split; [|apply assign_elem]].
  - unfold concat_at. cbn [shows]. rewrite Hc. reflexivity.
  - unfold replace_extension_at, replace_extension. cbn [pathname comp_path].
    match goal with |- bind ?x _ = _ => destruct x as [t| | |]; try reflexivity end.
    cbn [bind shows comps]. rewrite Hc. cbn [bind comp_path native pathname].
    destruct (c_str c) as [|x r] eqn:Hs; [|destruct (Ascii.eqb x dot)]; unfold concat_at; cbn [shows comps]; rewrite Hc; cbn [bind native comp_path pathname];
      unfold path_concat; cbn [pathname]; rewrite Hs; reflexivity.
Qed.

(** The elements of a path: at most a root name, at most a root directory, then names. *)
Definition typed (w : platform) (cs : list comp) : Prop := exists r1 r2 rest, cs = r1 ++ r2 ++ rest /\
  (r1 = [] \/ exists c, r1 = [c] /\ c_type c = ROOT_NAME) /\ (r2 = [] \/ exists c, r2 = [c] /\ c_type c = ROOT_DIR /\ c_str c = [preferred_separator w]) /\
  Forall (fun c => c_type c = FILENAME) rest.

Lemma typed_nil : forall w, typed w [].
Proof. intros w. exists [], [], []. repeat split; auto. Qed.

Lemma typed_split : forall w s, typed w (comps (split_components w s)) /\ (comps (split_components w s) <> [] -> ptyp (split_components w s) = MULTI).
Proof.
  intros w s.
  assert (Htrim : forall t cs, typed w cs -> typed w (comps (trim (Path t cs MULTI))) /\ (comps (trim (Path t cs MULTI)) <> [] -> ptyp (trim (Path t cs MULTI)) = MULTI)).
  { intros t cs Ht. destruct cs as [|c [|d cs]]; cbn; auto. split; [apply typed_nil|congruence]. }
  destruct s as [|x s0] eqn:Hs; [destruct w; (split; [apply typed_nil|cbn; congruence])|]. rewrite <- Hs in *. assert (Hne : s <> []) by congruence.
  destruct w.
  - fold mkpath. rewrite mkpath_eq by auto. apply Htrim. unfold mkcomps. exists [], (rootc s), (tok 0 [] s ++ trailc s). repeat split; auto.
    + destruct (rootc_cases s) as [[_ ->]|[_ ->]]; [right|left; auto]. eexists. split; [reflexivity|]. split; reflexivity.
    + apply Forall_app. split; [apply Forall_forall; intros c Hc; eapply tok_types; eauto|]. unfold trailc. destruct (_ && _); repeat constructor.
  - rewrite wsplit_all by auto. apply Htrim. unfold all_comps. destruct (split_root no_wsep s) as [rn rest]. unfold root_comps.
    exists (if is_nil rn then [] else [Comp (preferred rn) ROOT_NAME 0]), (if wstarts rest then [Comp [backslash] ROOT_DIR (length rn)] else []),
      (wtok (length rn) [] rest ++ trail rest (length s)).
    split; [rewrite <- app_assoc; reflexivity|]. split; [destruct (is_nil rn); [left; auto|right; eauto]|].
    split; [destruct (wstarts rest); [right; eexists; split; [reflexivity|split; reflexivity]|left; auto]|].
    apply Forall_app. split; [apply wtok_types|]. unfold trail. destruct (_ && _); repeat constructor.
Qed.

Lemma fin_default : forall w b, fin w b path_default = path_default \/ fin w b path_default = split_components w [].
Proof. intros w []; cbn; auto. Qed.

Lemma name_not_absolute : forall w E c, c_type c = FILENAME -> is_absolute w E (comp_path c) = false /\ has_root_name (comp_path c) = false.
Proof.
  intros w E [t ty q] H. cbn in H. subst ty. split; [|reflexivity]. unfold is_absolute, has_root_directory, root_directory, has_root_name.
  cbn [ptyp comp_path comps c_type ptype_eqb skip_root_name orb andb]. destruct w, (el_other E); reflexivity.
Qed.
Lemma rootdir_absolute : forall w E c, c_type c = ROOT_DIR -> c_str c = [preferred_separator w] ->
  is_absolute w E (comp_path c) = true /\ has_root_name (comp_path c) = false.
Proof. intros w E [t ty q] H Hs. cbn in *. subst. split; [|reflexivity]. destruct w, E as [[] [] []]; reflexivity. Qed.

Lemma by_assignment_elem : forall w E s k c, let p := split_components w s in nth_error (comps p) k = Some c ->
  by_assignment w E p (comp_path c) = (k =? 0) && ptype_eqb (c_type c) ROOT_DIR.
Proof.
  intros w E s k c p Hc. unfold p in *. clear p. destruct (typed_split w s) as [(r1 & r2 & rest & Hcs & H1 & H2 & H3) Hm].
  set (p := split_components w s) in *. assert (Hp : ptyp p = MULTI) by (apply Hm; intros H; rewrite H in Hc; destruct k; discriminate).
  assert (Hname : In c rest -> by_assignment w E p (comp_path c) = false /\ ptype_eqb (c_type c) ROOT_DIR = false).
  { intros Hin. rewrite Forall_forall in H3. specialize (H3 c Hin). destruct (name_not_absolute w E c H3) as [Ha Hr]. unfold by_assignment.
    rewrite Ha, Hr, H3. auto. }
  assert (Hdir : c_type c = ROOT_DIR -> c_str c = [preferred_separator w] -> by_assignment w E p (comp_path c) = negb (has_root_name p)).
  { intros Ht Hs. destruct (rootdir_absolute w E c Ht Hs) as [Ha Hr]. unfold by_assignment. rewrite Ha, Hr. cbn [andb]. apply orb_false_r. }
  assert (Hhas : has_root_name p = match comps p with c :: _ => ptype_eqb (c_type c) ROOT_NAME | [] => false end).
  { unfold has_root_name. rewrite Hp. reflexivity. }
  destruct H1 as [->|(c1 & -> & Ht1)].
  - destruct H2 as [->|(c2 & -> & Ht2 & Hs2)]; cbn [app] in Hcs.
    + rewrite Hcs in Hc. apply nth_error_In in Hc. destruct (Hname Hc) as [-> ->]. symmetry. apply andb_false_r.
    + rewrite Hcs in Hc. destruct k as [|k]; cbn [nth_error] in Hc.
      * injection Hc as <-. rewrite (Hdir Ht2 Hs2), Hhas, Hcs, Ht2. reflexivity.
      * apply nth_error_In in Hc. destruct (Hname Hc) as [-> ->]. reflexivity.
  - rewrite Hcs in Hc. destruct k as [|k]; cbn [nth_error app] in Hc.
    + injection Hc as <-. rewrite Ht1. cbn [ptype_eqb Nat.eqb andb]. unfold by_assignment. rewrite Hhas, Hcs. cbn [app]. rewrite Ht1. cbn [ptype_eqb negb].
      rewrite andb_false_r. cbn [orb]. replace (root_name w E p) with (root_name w E (comp_path c1)).
      * unfold path_ne. rewrite path_eq_refl. apply andb_false_r.
      * unfold root_name. rewrite Hp, Hcs. cbn [app comp_path ptyp ptype_eqb comps]. rewrite Ht1. reflexivity.
    + cbn [Nat.eqb andb]. destruct H2 as [->|(c2 & -> & Ht2 & Hs2)]; cbn [app] in Hc.
      * apply nth_error_In in Hc. apply (Hname Hc).
      * destruct k as [|k]; cbn [nth_error] in Hc.
        -- injection Hc as <-. rewrite (Hdir Ht2 Hs2), Hhas, Hcs. cbn [app]. rewrite Ht1. reflexivity.
        -- apply nth_error_In in Hc. apply (Hname Hc).
Qed.

(** p /= with an element of p gives what it gives with a copy of the element, unless the element is the root directory in front: then it is
    undefined (the element is assigned). *)
Theorem C89_append_element : forall w E g s k c, let p := split_components w s in nth_error (comps p) k = Some c ->
  append_at w E g p (Elem k) = if (k =? 0) && ptype_eqb (c_type c) ROOT_DIR then UB else path_append w E g p (comp_path c).
Proof.
  intros w E g s k c p Hc. unfold append_at. cbn [shows]. rewrite Hc. cbn [bind]. unfold p in *. rewrite (by_assignment_elem w E s k c Hc).
  rewrite assign_elem. reflexivity.
Qed.

(** In particular for every rooted POSIX path with a name. *)
Theorem C89_append_root_refuted : forall E g s, starts_slash s = true -> only_slashes s = false ->
  append_at Posix E g (mkpath s) (Elem 0) = UB /\
  path_append Posix E g (mkpath s) (mkpath [slash]) = Ok (mkpath [slash]).
Proof.
  intros E g s Hs Ho. split.
  - assert (Hc : nth_error (comps (mkpath s)) 0 = Some (Comp [slash] ROOT_DIR 0)).
    { destruct (mkpath_shape s) as [->|? Ho'|Hne Hn|Hne Hn Hl]; try discriminate; [congruence| |].
      - destruct s; [discriminate|]. cbn in Hs, Hn. unfold noslash in Hn. cbn in Hn. rewrite Hs in Hn. discriminate.
      - unfold mkcomps, rootc. rewrite Hs. reflexivity. }
    rewrite (C89_append_element Posix E g s 0 _ Hc). reflexivity.
  - rewrite path_append_mkpath. reflexivity.
Qed.

(** * replace_filename and replace_extension with the path itself *)

Lemma upto_cases : forall s, upto_last_slash s = [] \/
  starts_slash (upto_last_slash s) = starts_slash s /\ after_last_slash (upto_last_slash s) = [] /\ upto_last_slash s <> [].
Proof.
  intros s. destruct (last_slash_split s) as [H|(a & b & -> & H)].
  - left. apply upto_last_slash_noslash. exact H.
  - right. rewrite upto_last_slash_app by auto. split; [destruct a; reflexivity|]. split; [apply after_last_slash_app; reflexivity|]. destruct a; discriminate.
Qed.
Lemma reported_unrooted : forall s, starts_slash s = false -> reported_text s = s.
Proof. intros [|c s] H; cbn in *; [reflexivity|]. unfold reported_text. cbn. rewrite H. reflexivity. Qed.
Lemma reported_starts : forall s, starts_slash (reported_text s) = starts_slash s.
Proof. intros [|c s]; [reflexivity|]. unfold reported_text. cbn. destruct (is_slash c) eqn:H; cbn; [|exact H]. destruct (forallb _ s); cbn; auto. Qed.

(** replace_filename(p) appends what is left of p after its file name was removed: a relative "a/b" becomes "a/a/". *)
Theorem C89_replace_filename_self : forall E s, exists q, replace_filename_at Posix E (mkpath s) Self = Ok q /\
  native q = reported_text (if starts_slash s then upto_last_slash s else upto_last_slash s ++ upto_last_slash s).
Proof.
  intros E s. unfold replace_filename_at. rewrite remove_filename_mkpath. cbn [bind].
  destruct (C89_self Posix E true (mkpath (upto_last_slash s))) as [-> _]. rewrite path_append_mkpath. eexists. split; [reflexivity|].
  rewrite native_mkpath. unfold append_text. destruct (upto_cases s) as [->|(H1 & H2 & H3)].
  - cbn. destruct (starts_slash s); reflexivity.
  - rewrite reported_starts, H1. destruct (starts_slash s) eqn:Hs; [apply reported_is_text|].
    rewrite !(reported_unrooted (upto_last_slash s)) by exact H1. rewrite H2. reflexivity.
Qed.

(** With a copy it is "a/a/b", for every relative path with a file name and a directory. *)
Theorem C89_replace_filename_self_refuted : forall E s q q', starts_slash s = false -> after_last_slash s <> [] ->
  replace_filename_at Posix E (mkpath s) Self = Ok q -> replace_filename Posix E (mkpath s) (mkpath s) = Ok q' -> native q <> native q'.
Proof.
  intros E s q q' Hs Hn Hq Hq' Heq. destruct (C89_replace_filename_self E s) as (r & Hr & Hnr). rewrite Hr in Hq. injection Hq as <-.
  rewrite Hs in Hnr. unfold replace_filename in Hq'. rewrite remove_filename_mkpath in Hq'. cbn [bind] in Hq'. rewrite path_append_mkpath in Hq'.
  injection Hq' as <-. rewrite native_mkpath, Hnr in Heq. set (d := upto_last_slash s) in *.
  assert (Hd : starts_slash d = false /\ after_last_slash d = []).
  { destruct (upto_cases s) as [H|(H1 & H2 & _)]; [fold d in H; rewrite H; auto|]. fold d in H1, H2. rewrite H1. auto. }
  destruct Hd as [Hd1 Hd2]. unfold append_text in Heq. rewrite reported_starts, Hs, (reported_unrooted s Hs), (reported_unrooted d Hd1), Hd2 in Heq. cbn [is_nil app] in Heq.
  assert (Hst : forall x, starts_slash x = false -> starts_slash (d ++ x) = false) by (intros x Hx; destruct d; auto).
  rewrite !reported_unrooted in Heq by (apply Hst; auto). apply app_inv_head in Heq.
  pose proof (upto_after s) as Hu. fold d in Hu. rewrite <- Hu in Heq at 1.
  assert (length d = length (d ++ after_last_slash s)) by congruence. rewrite app_length in H. destruct (after_last_slash s); [congruence|cbn in H; lia].
Qed.

(** replace_filename with a reference to the last element: the element is emptied before it is appended, so that the file name is lost; below the
    root directory it is destroyed, and the call is undefined with any element. *)
Theorem C89_replace_filename_element : forall E s, comps (mkpath s) <> [] -> after_last_slash s <> [] ->
  if only_slashes (upto_last_slash s) then forall k, replace_filename_at Posix E (mkpath s) (Elem k) = UB
  else exists q, replace_filename_at Posix E (mkpath s) (Elem (length (comps (mkpath s)) - 1)) = Ok q /\ native q = upto_last_slash s.
Proof.
  intros E s Hm Hf. set (d := upto_last_slash s).
  assert (Hd : d <> []).
  { intros H. pose proof (upto_after s) as Hu. fold d in Hu. rewrite H in Hu. cbn in Hu. destruct (last_slash_split s) as [Hn|(a & b & Hs & Hb)].
    - destruct (mkpath_shape s); cbn in Hm; try congruence. unfold mkcomps, rootc, trailc in Hm.
      assert (Hq : elements s = [s]) by (apply elements_noslash; auto).
      assert (length (mkcomps s) = 1) by (rewrite mkcomps_length, Hq; reflexivity). lia.
    - unfold d in H. rewrite Hs, upto_last_slash_app in H by auto. destruct a; discriminate. }
  assert (Hq0 : remove_filename Posix (mkpath s) = Ok (mkpath d)) by apply remove_filename_mkpath.
  destruct (only_slashes d) eqn:Ho.
  - intros k. unfold replace_filename_at. rewrite Hq0. cbn [bind]. unfold append_at. cbn [shows].
    assert (Hc : comps (mkpath d) = []).
    { destruct (mkpath_shape d) as [| | |? Hn]; try reflexivity. exfalso. apply Hn. apply only_slashes_names. exact Ho. }
    rewrite Hc. destruct k; reflexivity.
  - assert (Hnd : names d <> []).
    { intros H. apply only_slashes_names in H. congruence. }
    destruct (last_slash_split s) as [Hn|(a & b & Hs & Hb)]; [unfold d in Hd; rewrite upto_last_slash_noslash in Hd by auto; congruence|].
    assert (Hda : d = a ++ [slash]) by (unfold d; rewrite Hs; apply upto_last_slash_app; auto).
    assert (Hbne : b <> []) by (intros ->; apply Hf; rewrite Hs; apply after_last_slash_app; auto).
    assert (Hed : ends_slash d = true) by (rewrite Hda, ends_slash_snoc; reflexivity).
    assert (Hes : ends_slash s = false).
    { rewrite Hs. replace (a ++ slash :: b) with ((a ++ [slash]) ++ b) by (rewrite <- app_assoc; reflexivity). rewrite ends_slash_app by auto.
      destruct (ends_slash b) eqn:He; auto. apply ends_slash_spec in He as (a' & ->). unfold noslash in Hb. rewrite forallb_app in Hb. cbn in Hb.
      rewrite andb_false_r in Hb. discriminate. }
    assert (Hcs : comps (mkpath s) = mkcomps s) by (destruct (mkpath_shape s); cbn in Hm; try congruence; reflexivity).
    assert (Hcd : comps (mkpath d) = mkcomps d).
    { destruct (mkpath_shape d) as [|? Ho'|? Hn|]; try congruence; try reflexivity. exfalso. rewrite Hda in Hn. unfold noslash in Hn. rewrite forallb_app in Hn.
      cbn in Hn. rewrite andb_false_r in Hn. discriminate. }
    assert (Hns : names s = names d ++ [b]) by (rewrite Hda, Hs, names_app_slash, names_app_slash, (names_noslash b) by auto; cbn; rewrite app_nil_r; reflexivity).
    assert (Hst : starts_slash s = starts_slash d) by (rewrite Hda, Hs; destruct a; reflexivity).
    assert (Htr : trailc d = [Comp [] FILENAME (length d)]).
    { unfold trailc. rewrite Hed. destruct (names d); [congruence|reflexivity]. }
    assert (Hlen : length (comps (mkpath s)) = length (mkcomps d)).
    { rewrite Hcs, !mkcomps_length. unfold elements. rewrite Hes, Hed, Hst, Hns. rewrite !app_length. cbn. destruct (names d); [congruence|cbn; lia]. }
    assert (Hnth : nth_error (comps (mkpath d)) (length (comps (mkpath s)) - 1) = Some (Comp [] FILENAME (length d))).
    { rewrite Hlen, Hcd. unfold mkcomps. rewrite Htr. rewrite app_assoc. rewrite app_length. cbn [length].
      rewrite Nat.add_sub. rewrite nth_error_app2, Nat.sub_diag by lia. reflexivity. }
    unfold replace_filename_at. rewrite Hq0. cbn [bind].
    rewrite (C89_append_element Posix E true d _ _ Hnth). cbn [c_type ptype_eqb]. rewrite andb_false_r.
    change (comp_path (Comp [] FILENAME (length d))) with (mkpath []). rewrite path_append_mkpath. eexists. split; [reflexivity|].
    rewrite native_mkpath. unfold append_text. change (reported_text []) with ([] : str). cbn [starts_slash].
    assert (Hr : reported_text d = d) by (unfold reported_text; rewrite Ho, andb_false_r; reflexivity).
    rewrite Hr, app_nil_r. replace (is_nil (after_last_slash d)) with true; [rewrite app_nil_r; exact Hr|].
    rewrite Hda. rewrite after_last_slash_app; reflexivity.
Qed.

(** replace_extension(p): what is left of the text after the extension was erased is appended to itself, after the dot that is put before it. *)
Lemma erased_text : forall s, is_text s ->
  match find_extension (mkpath s) with
  | Some (ExtSelf _, Some n) => str_erase (pathname (mkpath s)) n
  | Some (ExtBack c, Some n) => str_erase (pathname (mkpath s)) (c_pos c + n)
  | _ => Ok (pathname (mkpath s))
  end = Ok (upto_last_slash s ++ stem_text (after_last_slash s)).
Proof.
  intros s Hs. destruct (find_extension_mkpath s) as [H1 H2].
  assert (Hnat : pathname (mkpath s) = s) by (apply native_is_text; auto).
  destruct (after_last_slash s) as [|c f] eqn:Hf.
  - rewrite H1 by auto. rewrite Hnat. f_equal. rewrite <- (upto_after s) at 1. rewrite Hf. reflexivity.
  - destruct H2 as (x & -> & Hx & Hsrc); [congruence|].
    assert (Hpos : forall n, ext_pos (c :: f) = Some n -> n <= length (c :: f)).
    { intros n Hn. unfold ext_pos in Hn. destruct (_ && _); [discriminate|].
      destruct (rfind dot (c :: f)) as [[|m]|] eqn:Hr; try discriminate. injection Hn as <-.
      apply rfind_Some in Hr as (a & b & -> & Hl & _). rewrite app_length. lia. }
    assert (He : forall n, ext_pos (c :: f) = Some n ->
       str_erase s (length (upto_last_slash s) + n) = Ok (upto_last_slash s ++ stem_text (c :: f))).
    { intros n Hn. unfold str_erase, stem_text. rewrite Hn. pose proof (Hpos n Hn).
      pose proof (upto_after s) as Hu. rewrite Hf in Hu. rewrite (proj2 (Nat.leb_le _ _)).
      2:{ rewrite <- Hu at 2. rewrite app_length. lia. }
      f_equal. rewrite <- Hu at 2. rewrite firstn_app_2. reflexivity. }
    assert (Hnone : ext_pos (c :: f) = None -> s = upto_last_slash s ++ stem_text (c :: f)).
    { intros Hn. unfold stem_text. rewrite Hn, <- Hf. symmetry. apply upto_after. }
    rewrite Hnat. destruct Hsrc as [[-> Hup]| ->]; destruct (ext_pos (c :: f)) as [n|] eqn:Hp.
    + specialize (He n eq_refl). rewrite Hup in He. cbn [length Nat.add] in He. rewrite He, Hup. reflexivity.
    + rewrite <- Hnone by auto. reflexivity.
    + cbn [c_pos]. rewrite He by auto. reflexivity.
    + rewrite <- Hnone by auto. reflexivity.
Qed.

Definition without_extension (s : str) : str := upto_last_slash s ++ stem_text (after_last_slash s).

Theorem C89_replace_extension_self : forall s, is_text s ->
  let t := without_extension s in
  let u := match t with [] => [] | c :: _ => if Ascii.eqb c dot then t else t ++ [dot] end in
  replace_extension_at Posix (mkpath s) Self = Ok (mkpath (u ++ u)).
Proof.
  intros s Hs. cbv zeta. unfold replace_extension_at. rewrite (erased_text s Hs). fold (without_extension s). cbn [bind shows native pathname].
  destruct (without_extension s) as [|c t]; [reflexivity|]. destruct (Ascii.eqb c dot); reflexivity.
Qed.

(** It is never what it is with a copy of the path when the path has an extension that is more than a dot. *)
Lemma reported_dot : forall s, In dot s -> reported_text s = s.
Proof.
  intros s Hi. unfold reported_text. replace (only_slashes s) with false; [rewrite andb_false_r; reflexivity|]. symmetry.
  destruct (only_slashes s) eqn:Ho; auto. unfold only_slashes in Ho. rewrite forallb_forall in Ho. discriminate (Ho dot Hi).
Qed.

Theorem C89_replace_extension_self_refuted : forall s, is_text s -> 1 < length (native (extension Posix (mkpath s))) ->
  exists q q', replace_extension_at Posix (mkpath s) Self = Ok q /\ replace_extension Posix (mkpath s) (mkpath s) = Ok q' /\ native q <> native q'.
Proof.
  intros s Hs He. destruct (extension_mkpath s) as [Hx _]. rewrite Hx in He. clear Hx.
  rewrite (C89_replace_extension_self s Hs), (replace_extension_canon s (mkpath s) Hs). do 2 eexists. split; [reflexivity|]. split; [reflexivity|].
  rewrite !native_mkpath. rewrite Hs. rewrite app_assoc. fold (without_extension s). set (t := without_extension s).
  assert (Hst : s = t ++ ext_text (after_last_slash s)).
  { unfold t, without_extension. rewrite <- app_assoc, stem_ext_app. symmetry. apply upto_after. }
  set (e := ext_text (after_last_slash s)) in *.
  assert (Hde : In dot e).
  { destruct (stem_ext_ok (after_last_slash s)) as [_ [[H _]|(x & H & _)]]; fold e in H; rewrite H in *; [cbn in He; lia|left; reflexivity]. }
  assert (Hy : reported_text (t ++ dotted s) = t ++ dotted s).
  { apply reported_dot. apply in_or_app. right. unfold dotted. destruct s as [|c s']; [destruct t; destruct e; cbn in *; try discriminate; lia|].
    destruct (Ascii.eqb c dot); [|left; reflexivity]. rewrite Hst. apply in_or_app. auto. }
  rewrite Hy. clear Hy. assert (Hls : length s = length t + length e) by (rewrite Hst at 1; apply app_length).
  intros Heq. apply (f_equal (@length _)) in Heq. revert Heq. rewrite (app_length t (dotted s)).
  assert (Hdl : length (dotted s) = length s + match s with c :: _ => if Ascii.eqb c dot then 0 else 1 | [] => 0 end).
  { unfold dotted. destruct s as [|c s']; [reflexivity|]. destruct (Ascii.eqb c dot); cbn; lia. }
  rewrite Hdl. clearbody t. destruct t as [|c t]; [cbn in *; lia|].
  assert (Hc : match s with c :: _ => if Ascii.eqb c dot then 0 else 1 | [] => 0 end = if Ascii.eqb c dot then 0 else 1) by (rewrite Hst; reflexivity).
  rewrite Hc. destruct (Ascii.eqb c dot) eqn:Hcd.
  - apply Ascii.eqb_eq in Hcd. subst c. rewrite reported_dot by (left; reflexivity). rewrite app_length. lia.
  - rewrite reported_dot by (apply in_or_app; left; apply in_or_app; right; left; reflexivity). rewrite !app_length. cbn [length] in *. lia.
Qed.

(** * Examples *)

Definition all_elided : elision := Elision true true true.

(** p /= p, p += p *)
Example C89_self_ex :
  append_at Posix all_elided true (mkpath (lit "a/b")) Self = Ok (mkpath (lit "a/b/a/b")) /\
  concat_at Posix (mkpath (lit "a/b")) Self = Ok (mkpath (lit "a/ba/b")) /\
  native (move_assign_self Posix (mkpath (lit "a/b"))) = [] /\
  append_at Windows all_elided true (split_components Windows (lit "C:\a")) Self = Ok (split_components Windows (lit "C:\a")).
Proof. vm_compute. auto. Qed.

(** With the element that [p.begin] refers to. *)
Example C89_elements_ex :
  nth_error (comps (mkpath (lit "a/b.c"))) 0 = Some (Comp (lit "a") FILENAME 0) /\
  append_at Posix all_elided true (mkpath (lit "a/b.c")) (Elem 0) = Ok (mkpath (lit "a/b.c/a")) /\
  concat_at Posix (mkpath (lit "a/b.c")) (Elem 0) = Ok (mkpath (lit "a/b.ca")) /\
  replace_extension_at Posix (mkpath (lit "a/b.c")) (Elem 0) = Ok (mkpath (lit "a/b.a")) /\
  assign_at (mkpath (lit "a/b.c")) (Elem 0) = UB /\
  append_at Posix all_elided true (mkpath (lit "/a")) (Elem 0) = UB /\
  append_at Windows all_elided true (split_components Windows (lit "C:\a")) (Elem 1) = Ok (split_components Windows (lit "C:\")).
Proof. vm_compute. repeat split; reflexivity. Qed.

Example C89_append_root_ex : starts_slash (lit "/a/b") = true /\ only_slashes (lit "/a/b") = false.
Proof. split; reflexivity. Qed.

Example C89_replace_filename_ex :
  (exists q, replace_filename_at Posix all_elided (mkpath (lit "a/b")) Self = Ok q /\ native q = lit "a/a/") /\
  (exists q, replace_filename Posix all_elided (mkpath (lit "a/b")) (mkpath (lit "a/b")) = Ok q /\ native q = lit "a/a/b") /\
  (exists q, replace_filename_at Posix all_elided (mkpath (lit "/a/b")) (Elem 2) = Ok q /\ native q = lit "/a/") /\
  replace_filename_at Posix all_elided (mkpath (lit "/a")) (Elem 1) = UB.
Proof. repeat split; try (eexists; split; vm_compute; reflexivity). Qed.

Example C89_replace_extension_ex :
  is_text (lit "a.txt") /\ 1 < length (native (extension Posix (mkpath (lit "a.txt")))) /\
  replace_extension_at Posix (mkpath (lit "a.txt")) Self = Ok (mkpath (lit "a.a.")) /\
  replace_extension Posix (mkpath (lit "a.txt")) (mkpath (lit "a.txt")) = Ok (mkpath (lit "a.a.txt")).
Proof. repeat split; try (vm_compute; lia); reflexivity. Qed.

Print Assumptions C89_self.
Print Assumptions C89_self_move_refuted.
Print Assumptions C89_elements.
Print Assumptions C89_append_element.
Print Assumptions C89_append_root_refuted.
Print Assumptions C89_replace_filename_self.
Print Assumptions C89_replace_filename_self_refuted.
Print Assumptions C89_replace_filename_element.
Print Assumptions C89_replace_extension_self.
Print Assumptions C89_replace_extension_self_refuted.
