(** Windows paths that begin with a drive and a root directory, as canonical uses them: appending a name, the parent, the root path, the
    elements of the rest. Sources: fs_path.cpp:228-297, 522-597 with ASAP_WINDOWS defined. *)
From Coq Require Import Ascii String Bool Arith NArith ZArith Lia List.
From Verif Require Import Str PathModel PathSpec StrProofs PathProofs PathOps WinPathProps WinPlace WinAppend WinNormal WinRelative.
Import ListNotations.

(** The text of the place [ns] on the drive [a]. *)
Definition wtext (a : ascii) (ns : list str) : str := a :: colon :: backslash :: wjoin ns.

Definition dpath (a : ascii) (ns : list str) : path := split_components Windows (wtext a ns).

Lemma wtext_ctext : forall a ns, wtext a ns = ctext [a; colon] true ns false.
Proof. intros. unfold wtext, ctext. cbn. rewrite app_nil_r. reflexivity. Qed.

Lemma proper_wname : forall n, proper n -> wname n.
Proof. intros n (H1 & H2 & _). split; assumption. Qed.

Lemma propers_wnames : forall ns, Forall proper ns -> Forall wname ns.
Proof. intros ns H. eapply Forall_impl; [|exact H]. apply proper_wname. Qed.

Section Drive.
Variable E : elision.

Lemma drive_ok : forall a ns, is_wsep a = false -> Forall wname ns -> ctext_ok [a; colon] true ns.
Proof.
  intros a ns Ha H. split; [right; left; eauto|]. split; [exact H|]. split; [discriminate|]. cbn. rewrite Ha. discriminate.
Qed.

Lemma no_host : forall a, is_wsep a = false -> host_root [a; colon] = false.
Proof. intros a Ha. cbn. rewrite Ha. reflexivity. Qed.

Lemma dpath_native : forall a ns, is_wsep a = false -> Forall wname ns -> native (dpath a ns) = wtext a ns.
Proof. intros a ns Ha H. unfold dpath. rewrite wtext_ctext. apply ctext_native. apply drive_ok; assumption. Qed.

Lemma dpath_empty : forall a ns, is_wsep a = false -> Forall wname ns -> empty (dpath a ns) = false.
Proof. intros a ns Ha H. pose proof (dpath_native a ns Ha H) as K. unfold native in K. unfold empty. rewrite K. reflexivity. Qed.

Lemma dpath_append : forall a ns n, is_wsep a = false -> Forall wname ns ->
  path_append Windows E true (dpath a ns) (fpath n) = Ok (dpath a (ns ++ [n])).
Proof.
  intros a ns n Ha H. pose proof (drive_ok a ns Ha H) as Hok.
  rewrite (Rep_append E [a; colon] true ns false (dpath a ns) (fpath n) Hok).
  - cbn [fpath pathname]. rewrite ctext_snoc, <- wtext_ctext. reflexivity.
  - intros K. reflexivity.
  - left. unfold dpath. rewrite wtext_ctext. reflexivity.
  - right. exists n. reflexivity.
Qed.

Lemma dpath_form : forall a ns, is_wsep a = false -> Forall wname ns ->
  dpath a ns = Path (wtext a ns) (rootcs [a; colon] true ++ ntok 3 ns) MULTI.
Proof.
  intros a ns Ha H. unfold dpath. rewrite wtext_ctext. rewrite split_ctext; [|apply drive_ok; assumption|discriminate].
  unfold nfc. cbn [andb]. rewrite app_nil_r. rewrite trim_other by (cbn; lia). reflexivity.
Qed.

Lemma plain_colon : forall n, proper n -> no_colon_end n.
Proof.
  intros n (Hn & _ & Hc). unfold no_colon_end. intros K. apply Hc. destruct n as [|x u _] using rev_ind; [congruence|]. rewrite last_last in K. subst x.
  apply in_or_app. right. left. reflexivity.
Qed.

Lemma wtext_split : forall a ns, is_wsep a = false -> split_root no_wsep (wtext a ns) = ([a; colon], backslash :: wjoin ns).
Proof. intros a ns Ha. unfold wtext. cbn [split_root]. rewrite Ha. cbn [andb]. unfold no_wsep. rewrite Ha. reflexivity. Qed.

Lemma wnames_lead : forall s, wnames (backslash :: s) = wnames s.
Proof. reflexivity. Qed.

Lemma dpath_parent : forall a ns, is_wsep a = false -> Forall proper ns -> parent_path Windows E (dpath a ns) = Ok (dpath a (removelast ns)).
Proof.
  intros a ns Ha Hp. pose proof (propers_wnames ns Hp) as Hw. pose proof (wtext_split a ns Ha) as Hr.
  assert (Hnm : wnames (backslash :: wjoin ns) = ns) by (rewrite wnames_lead; apply wjoin_names; exact Hw).
  unfold parent_path, dpath. rewrite (has_relative_split E _ _ _ Hr). cbn [bind]. rewrite Hnm, negb_involutive.
  destruct ns as [|x ns _] using rev_ind; [reflexivity|].
  assert (is_nil (ns ++ [x]) = false) as -> by (destruct ns; reflexivity). fold (dpath a (ns ++ [x])).
  rewrite (dpath_form a _ Ha Hw). cbn [ptyp comps]. rewrite removelast_snoc.
  apply Forall_app in Hp. destruct Hp as [Hp Hx]. inversion Hx as [|? ? Hx1 _]; subst. pose proof (propers_wnames ns Hp) as Hw'.
  destruct (ntok_snoc ns x 3) as (o & Ho & _). rewrite Ho, app_assoc. unfold drop_end. rewrite rev_app_distr. cbn [rev app c_str].
  assert (is_nil x = false) as -> by (destruct Hx1 as [Hx1 _]; destruct x; [congruence|reflexivity]). rewrite rev_involutive. cbn [bind].
  assert (Hrb : rebuild Windows (rootcs [a; colon] true ++ ntok 3 ns) [] = wtext a ns).
  { pose proof (wtext_split a ns Ha) as Hr2.
    assert (Hrc : rootcs [a; colon] true = root_comps [a; colon] (backslash :: wjoin ns)).
    { unfold rootcs, root_comps. cbn [is_nil wstarts length]. change (is_wsep backslash) with true. cbn [preferred map]. rewrite (plain_nosep a Ha). reflexivity. }
    rewrite Hrc, (rebuild_root (wtext a ns) [a; colon] (backslash :: wjoin ns) (ntok 3 ns) Hr2).
    - rewrite ntok_strs. unfold parent_text. rewrite (no_host a Ha). cbn [preferred map wstarts]. rewrite (plain_nosep a Ha). reflexivity.
    - intros K. rewrite wnames_lead, (wjoin_names ns Hw'). intros ->. apply K. reflexivity.
    - rewrite ntok_strs. exact Hw'.
    - rewrite ntok_strs. eapply Forall_impl; [|exact Hp]. apply plain_colon.
    - rewrite (no_host a Ha). discriminate. }
  rewrite Hrb. fold (dpath a ns). pose proof (dpath_form a ns Ha Hw') as Hf. rewrite <- Hf. unfold fin. destruct (el_parent E); [reflexivity|].
  fold (native (dpath a ns)). rewrite dpath_native by assumption. reflexivity.
Qed.

(** ** Texts that begin with a drive and a separator *)

(** The text [u] begins with the drive [a] and a separator, and the names that follow are [l]. *)
Definition full_text (u : str) (a : ascii) (l : list str) : Prop :=
  is_wsep a = false /\ exists rest, split_root no_wsep u = ([a; colon], rest) /\ wstarts rest = true /\ wnames rest = l.

Lemma full_wtext : forall a ns, is_wsep a = false -> Forall wname ns -> full_text (wtext a ns) a ns.
Proof.
  intros a ns Ha H. split; [exact Ha|]. exists (backslash :: wjoin ns). split; [apply wtext_split; exact Ha|]. split; [reflexivity|].
  rewrite wnames_lead. apply wjoin_names. exact H.
Qed.

Lemma full_absolute : forall u a l, full_text u a l ->
  is_absolute Windows E (split_components Windows u) = true /\ has_root_name (split_components Windows u) = true.
Proof.
  intros u a l (Ha & rest & Hr & Hs & _). rewrite (is_absolute_split E u _ _ Hr), (has_root_name_split u _ _ Hr), Hs, orb_true_r. split; reflexivity.
Qed.

Lemma full_split : forall u a l, full_text u a l -> exists rest cs, split_root no_wsep u = ([a; colon], rest) /\
  split_components Windows u = Path u (Comp [a; colon] ROOT_NAME 0 :: Comp [backslash] ROOT_DIR 2 :: cs) MULTI.
Proof.
  intros u a l (Ha & rest & Hr & Hs & _). assert (Hu : u <> []) by (intros ->; cbn in Hr; discriminate).
  destruct (wsplit u _ _ Hu Hr) as [_ Hp]. exists rest. eexists. split; [exact Hr|]. rewrite Hp. unfold root_comps. rewrite Hs. cbn [is_nil app length preferred map].
  rewrite (plain_nosep a Ha). change (if Ascii.eqb colon slash then backslash else colon) with colon. rewrite trim_other by (cbn; lia). reflexivity.
Qed.

Lemma full_root_path : forall u a l, full_text u a l -> root_path Windows E (split_components Windows u) = dpath a [].
Proof.
  intros u a l H. destruct (full_split u a l H) as (rest & cs & _ & Hp). destruct H as [Ha _]. rewrite Hp. unfold root_path. cbn [ptyp comps c_type ptype_eqb c_str].
  change ([a; colon] ++ [preferred_separator Windows]) with (wtext a []). fold (dpath a []). unfold fin. destruct (el_other E); [reflexivity|].
  fold (native (dpath a [])). rewrite dpath_native by (assumption || constructor). reflexivity.
Qed.

Lemma relative_elems : forall p q, ptyp p = MULTI -> relative_path Windows E p = Ok q -> elems q = elems (split_components Windows (native q)).
Proof.
  intros p q Hp H. unfold relative_path in H. rewrite Hp in H. destruct (skip_root_dir (skip_root_name (comps p))) as [|c r].
  - injection H as <-. unfold fin. destruct (el_other E); reflexivity.
  - destruct (str_substr_from (pathname p) (c_pos c)) as [t| | |]; try discriminate. cbn [bind] in H. injection H as <-. unfold fin. destruct (el_other E).
    + rewrite split_native. reflexivity.
    + unfold native. rewrite split_native. fold (native (split_components Windows t)). rewrite split_native. reflexivity.
Qed.

Lemma names_unrooted : forall x, wstarts x = false -> Forall (fun n => ~ In colon n) (wnames x) -> split_root no_wsep x = ([], x).
Proof.
  intros [|a [|b r]] Hs Hc; try reflexivity. cbn in Hs. cbn [split_root]. rewrite Hs. cbn [andb]. destruct (Ascii.eqb_spec b colon) as [->|]; [|rewrite andb_false_r; reflexivity].
  exfalso. unfold wnames in Hc. cbn [wpieces] in Hc. rewrite Hs in Hc. change (is_wsep colon) with false in Hc. cbn iota in Hc.
  destruct (wpieces r) as [|h t]; cbn in Hc; inversion Hc as [|? ? K _]; apply K; cbn; auto.
Qed.

Lemma full_relative : forall u a l, full_text u a l -> Forall (fun n => ~ In colon n) l ->
  exists rel (e : bool), relative_path Windows E (split_components Windows u) = Ok rel /\ elems rel = map fpath (l ++ (if e then [[]] else [])).
Proof.
  intros u a l H Hc. destruct (full_split u a l H) as (rest & cs & Hr & Hp). destruct H as (Ha & rest' & Hr' & Hs & Hl).
  rewrite Hr in Hr'. injection Hr' as <-. destruct (win_parts E u _ _ Hr) as (_ & _ & q & Hq & Hn).
  exists q. rewrite (relative_elems _ q (f_equal ptyp Hp) Hq). rewrite Hn, elems_all. unfold all_comps.
  destruct (drop_wseps_split rest) as (_ & _ & _ & _ & _ & Hst).
  rewrite names_unrooted; [|exact Hst|rewrite drop_wnames, Hl; exact Hc].
  unfold root_comps. cbn [is_nil]. rewrite Hst. cbn [app]. rewrite names_comps, drop_wnames, Hl. eexists. split; [exact Hq|]. reflexivity.
Qed.

(** A path whose elements are those of a full text is a full text. *)
Lemma full_elements : forall u a l tr, is_wsep a = false -> Forall wname l -> win_elements no_wsep u = parts_elements [a; colon] true l tr -> full_text u a l.
Proof.
  intros u a l tr Ha Hl He. split; [exact Ha|]. destruct (split_root no_wsep u) as [rn rest] eqn:Hr. rewrite (win_elements_parts u rn rest Hr) in He.
  unfold parts_elements in He. cbn [is_nil app] in He. pose proof (wnames_all rest) as Hall.
  assert (Hbs : forall n, wname n -> n <> [backslash]) by (intros n [_ K] ->; discriminate K).
  assert (Hrn : rn = [a; colon]).
  { rewrite nil_preferred in He. destruct rn as [|c rn].
    - exfalso. cbn [is_nil app] in He. destruct (split_root_cases u [] rest Hr) as [Hu _]. cbn [app] in Hu. subst u. destruct (wstarts rest) eqn:Hs; cbn [app] in He; [discriminate He|].
      destruct (wnames rest) as [|n ns] eqn:Hn.
      + cbn in He. rewrite andb_false_r in He. discriminate.
      + cbn in He. injection He as -> _. pose proof (unrooted_first rest Hr Hs [a; colon]) as K. rewrite Hn in K. specialize (K eq_refl). cbn in K. congruence.
    - cbn [is_nil app] in He. pose proof (f_equal (hd []) He) as K. cbn [hd] in K. destruct (split_root_cases u _ rest Hr) as [_ [[X _]|[(b & X & Hb)|(b & w & X & Hb & _)]]]; [discriminate| |].
      + rewrite X in K |- *. cbn in K. rewrite (plain_nosep b Hb) in K. congruence.
      + rewrite X in K. cbn [preferred map] in K. injection K as K1 K2 _. rewrite <- K1, preferred_sep_bool in Ha. congruence. }
  subst rn. exists rest. split; [reflexivity|]. cbn [preferred map is_nil app] in He. rewrite (plain_nosep a Ha) in He. injection He as He.
  destruct (wstarts rest) eqn:Hs; cbn [app] in He.
  - injection He as He. split; [reflexivity|].
    assert (Hf : forall ns (b : bool), Forall wname ns -> filter (fun n => negb (is_nil n)) (ns ++ (if b then [[]] else [])) = ns).
    { intros ns b. induction ns as [|n ns IH]; intros K; [destruct b; reflexivity|]. inversion K as [|? ? [K1 _] K2]; subst. cbn [app filter].
      destruct n; [congruence|]. cbn [is_nil negb]. rewrite IH by exact K2. reflexivity. }
    rewrite <- (Hf (wnames rest) (wends rest && negb (is_nil (wnames rest))) Hall), He. apply Hf. exact Hl.
  - exfalso. destruct (wnames rest) as [|n ns] eqn:Hn.
    + cbn in He. rewrite andb_false_r in He. discriminate.
    + cbn in He. injection He as He _. subst n. inversion Hall as [|? ? K _]; subst. exact (Hbs _ K eq_refl).
Qed.

End Drive.
