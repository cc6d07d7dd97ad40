(** C72: remove_all on Windows, on a volume nobody else works on; and where it goes wrong. *)
From Coq Require Import Ascii String Bool NArith ZArith Arith List Lia.
From Verif Require Import Str PathModel PathSpec StrProofs PathProofs PathOps WinPathProps WinPlace WinPermsModel FlagsModel WinStatModel WinStatProps WinOpsModel WinOpsProps WinRemoveAll.
Import ListNotations.
Local Open Scope N_scope.

(** * Specification *)

(** A volume: the objects on it, each with the text that names it, its attributes and its reparse tag. *)
Definition volume := list (str * (N * N)).
Definition texts (v : volume) : list str := map fst v.
Definition look (v : volume) (q : str) : option (N * N) :=
  match find (fun x => str_eqb (fst x) q) v with Some x => Some (snd x) | None => None end.
Definition without (q : str) (v : volume) : volume := filter (fun x => negb (str_eqb (fst x) q)) v.

(** Directories that are no reparse points. *)
Definition is_real (o : N * N) : bool := is_dir (fst o) && negb (is_reparse (fst o)).

(** The name of an entry of [q] with text [t]: what follows the text of [q] and the separator. *)
Fixpoint strip (pre t : str) : option str :=
  match pre, t with
  | [], _ => Some t
  | a :: pre', b :: t' => if Ascii.eqb a b then strip pre' t' else None
  | _ :: _, [] => None
  end.
Definition name_ok (n : str) : bool :=
  negb (is_nil n) && forallb no_wsep n && forallb (fun c => negb (Ascii.eqb c colon)) n && negb (str_eqb n (lit ".")) && negb (str_eqb n (lit "..")).
Definition entries (v : volume) (q : str) : list find_data :=
  flat_map (fun x => match strip (entry_text q []) (fst x) with
                     | Some n => if name_ok n then [FindData n (fst (snd x)) (snd (snd x))] else []
                     | None => []
                     end) v.

(** Windows on such a volume, everything being readable and deletable: a directory is deleted only if it is empty. *)
Definition volume_kernel : wkernel volume := fun c =>
  match c return volume -> wanswer c * volume with
  | w_Info q => fun v =>
      (match look v q with
       | Some (a, tag) => WInfo (inr a) (inr tt) (inr a) (inr tt) (inr tag) (Security (inr tt) false (fun _ => inr 1179785))
       | None => WInfo (inl 2) (inl 2) (inl 2) (inl 2) (inl 2) (Security (inl 2) false (fun _ => inr 0))
       end, v)
  | w_Attributes q => fun v => (match look v q with Some (a, _) => inr a | None => inl 2 end, v)
  | w_Find q => fun v =>
      (match look v q with
       | Some o => if is_real o then (inr (FindData (lit ".") 16 0, FindData (lit "..") 16 0 :: entries v q), 18) else (inl 267, 267)
       | None => (inl 2, 2)
       end, v)
  | w_RemoveDirectory q => fun v =>
      match look v q with
      | Some o => if is_dir (fst o) then if is_nil (entries v q) then (inr tt, without q v) else (inl 145, v) else (inl 267, v)
      | None => (inl 2, v)
      end
  | w_DeleteFile q => fun v =>
      match look v q with
      | Some o => if is_dir (fst o) then (inl 5, v) else (inr tt, without q v)
      | None => (inl 2, v)
      end
  | w_TempPath => fun v => ((0, 2, []), v)
  | w_FileInfo _ | w_AttributesEx _ | w_Reparse _ | w_WriteTime _ | w_CurrentDirectory | w_DiskFreeSpace _ | _ => fun v => (inl 2, v)
  end.

(** A well-formed part of the volume: no text names two objects, and what has entries is a directory (no link). *)
Definition tree (q : str) (v : volume) : Prop :=
  NoDup (texts v) /\
  forall d n, below q d -> entry_name n -> In (entry_text d n) (texts v) -> exists o, look v d = Some o /\ is_real o = true.

(** Names below [q]. *)
Definition place (q : str) (ns : list str) : str := fold_left entry_text ns q.

(** * Proofs *)

Lemma below_place : forall q t, below q t <-> exists ns, Forall entry_name ns /\ t = place q ns.
Proof.
  intros q t. split.
  - intros H. induction H as [|d n H IH Hn]; [exists []; split; [constructor|reflexivity]|].
    destruct IH as (ns & Hns & ->). exists (ns ++ [n]). split; [apply Forall_app; auto|]. unfold place. rewrite fold_left_app. reflexivity.
  - intros (ns & Hns & ->). induction ns as [|n ns IH] using rev_ind; [constructor|]. apply Forall_app in Hns. destruct Hns as [H1 H2]. inversion H2; subst.
    unfold place. rewrite fold_left_app. cbn. constructor; auto.
Qed.

Fixpoint wjoin (ns : list str) : str :=
  match ns with
  | [] => []
  | [n] => n
  | n :: r => n ++ backslash :: wjoin r
  end.

Lemma entry_text_more : forall d n m, d <> [] -> proper n -> proper m -> entry_text (entry_text d n) m = entry_text d n ++ backslash :: m.
Proof.
  intros d n m Hd Hn Hm. unfold entry_text at 1.
  assert (He : wends (entry_text d n) = false).
  { unfold entry_text. destruct (wends d || drive_only d); [apply wends_last; exact Hn|].
    change (d ++ backslash :: n) with (d ++ [backslash] ++ n). rewrite app_assoc. apply wends_last. exact Hn. }
  assert (Hdr : drive_only (entry_text d n) = false).
  { destruct (drive_only (entry_text d n)) eqn:E; [|reflexivity]. exfalso. unfold entry_text in E. destruct Hn as (Hn1 & _ & Hn3).
    assert (K : forall x y, drive_only (x ++ y) = true -> y <> [] -> In colon y).
    { clear. intros x y H Hy. destruct x as [|a [|b x]].
      - destruct y as [|a [|b [|]]]; try discriminate. cbn in H. apply andb_prop in H. destruct H as [_ H]. apply Ascii.eqb_eq in H. subst. cbn. auto.
      - destruct y as [|b [|]]; try discriminate. cbn in H. apply andb_prop in H. destruct H as [_ H]. apply Ascii.eqb_eq in H. subst. cbn. auto.
      - destruct x; [|destruct x; discriminate]. destruct y; [congruence|discriminate]. }
    destruct (wends d || drive_only d).
    - apply Hn3. apply (K d); auto.
    - change (d ++ backslash :: n) with (d ++ [backslash] ++ n) in E. rewrite app_assoc in E. apply Hn3. apply (K _ n E Hn1). }
  rewrite He, Hdr. reflexivity.
Qed.

Lemma entry_split : forall q n, entry_text q n = entry_text q [] ++ n.
Proof. intros q n. unfold entry_text. destruct (wends q || drive_only q); [rewrite app_nil_r; reflexivity|]. rewrite <- app_assoc. reflexivity. Qed.

Lemma place_text : forall ns q n, q <> [] -> proper n -> Forall proper ns -> place q (n :: ns) = entry_text q [] ++ wjoin (n :: ns).
Proof.
  induction ns as [|m ns IH]; intros q n Hq Hn Hns.
  - cbn. apply entry_split.
  - inversion Hns; subst. change (place q (n :: m :: ns)) with (place (entry_text q n) (m :: ns)).
    assert (Hd : entry_text q n <> []) by (unfold entry_text; destruct q; [congruence|]; destruct (_ || _); discriminate).
    rewrite IH by assumption.
    assert (Hs : entry_text (entry_text q n) [] = entry_text q n ++ [backslash]).
    { pose proof (entry_text_more q n m Hq Hn H1) as H. rewrite entry_split in H. replace (backslash :: m) with ([backslash] ++ m) in H by reflexivity.
      rewrite app_assoc in H. apply app_inv_tail in H. exact H. }
    rewrite Hs, (entry_split q n). rewrite <- !app_assoc. reflexivity.
Qed.

Lemma wjoin_names : forall ns, Forall proper ns -> wnames (wjoin ns) = ns.
Proof.
  induction ns as [|n [|m ns] IH]; intros H; [reflexivity| |].
  - inversion H as [|? ? (Hn & Hp & _)]; subst. apply wnames_plain; assumption.
  - inversion H as [|? ? (Hn & Hp & _) Hr]; subst. change (wjoin (n :: m :: ns)) with (n ++ backslash :: wjoin (m :: ns)).
    rewrite wnames_app_sep by (try exact Hp; reflexivity). rewrite IH by exact Hr. rewrite wnames_plain by assumption. reflexivity.
Qed.

Lemma entry_proper : forall ns, Forall entry_name ns -> Forall proper ns.
Proof. intros ns H. eapply Forall_impl; [|exact H]. intros a [Ha _]. exact Ha. Qed.

Lemma wjoin_nonempty : forall n ns, proper n -> wjoin (n :: ns) <> [].
Proof. intros n ns (H & _). destruct ns; cbn; [exact H|]. destruct n; [congruence|discriminate]. Qed.

Lemma place_inj : forall q ns ns', q <> [] -> Forall entry_name ns -> Forall entry_name ns' -> place q ns = place q ns' -> ns = ns'.
Proof.
  intros q ns ns' Hq H H' E. apply entry_proper in H. apply entry_proper in H'.
  assert (L : forall n ms, proper n -> Forall proper ms -> place q (n :: ms) <> q).
  { intros n ms Hn Hms E1. rewrite place_text in E1 by assumption. pose proof (wjoin_nonempty n ms Hn) as Hw.
    apply (f_equal (@length ascii)) in E1. rewrite app_length in E1. unfold entry_text in E1. destruct (wjoin (n :: ms)) as [|c r]; [congruence|].
    destruct (wends q || drive_only q); rewrite app_length in E1; cbn [length] in E1; lia. }
  destruct ns as [|n ns], ns' as [|n' ns'].
  - reflexivity.
  - exfalso. inversion H'; subst. apply (L n' ns'); auto.
  - exfalso. inversion H; subst. apply (L n ns); auto.
  - inversion H; inversion H'; subst. rewrite !place_text in E by assumption. apply app_inv_head in E.
    apply (f_equal wnames) in E. rewrite !wjoin_names in E by assumption. exact E.
Qed.

Lemma place_app : forall q a b, place q (a ++ b) = place (place q a) b.
Proof. intros. unfold place. apply fold_left_app. Qed.

(** * Looking up *)

Definition drop (ts : list str) (v : volume) : volume := filter (fun x => negb (existsb (str_eqb (fst x)) ts)) v.

Lemma existsb_str : forall t ts, existsb (str_eqb t) ts = true <-> In t ts.
Proof.
  intros t ts. rewrite existsb_exists. split.
  - intros (x & Hx & E). apply str_eqb_spec in E. subst. exact Hx.
  - intros H. exists t. split; [exact H|]. apply str_eqb_spec. reflexivity.
Qed.

Lemma drop_texts : forall ts v t, In t (texts (drop ts v)) <-> In t (texts v) /\ ~ In t ts.
Proof.
  intros ts v t. unfold texts, drop. rewrite !in_map_iff. split.
  - intros (x & <- & Hx). apply filter_In in Hx. destruct Hx as [Hx E]. split; [exists x; auto|]. intros H. apply existsb_str in H. rewrite H in E. discriminate.
  - intros [(x & <- & Hx) H]. exists x. split; [reflexivity|]. apply filter_In. split; [exact Hx|]. destruct (existsb (str_eqb (fst x)) ts) eqn:E; [|reflexivity].
    apply existsb_str in E. contradiction.
Qed.

Lemma drop_drop : forall a b v, drop b (drop a v) = drop (a ++ b) v.
Proof.
  intros a b v. unfold drop. induction v as [|x v IH]; [reflexivity|]. cbn [filter]. rewrite existsb_app, negb_orb.
  destruct (existsb (str_eqb (fst x)) a); cbn [negb andb]; [exact IH|]. cbn [filter]. destruct (existsb (str_eqb (fst x)) b); cbn [negb]; rewrite IH; reflexivity.
Qed.

Lemma without_drop : forall q v, without q v = drop [q] v.
Proof. intros q v. unfold without, drop. apply filter_ext. intros x. cbn [existsb]. rewrite orb_false_r. reflexivity. Qed.

Lemma drop_nil : forall v, drop [] v = v.
Proof. intros v. unfold drop. cbn [existsb negb]. induction v as [|x v IH]; [reflexivity|]. cbn. rewrite IH. reflexivity. Qed.

Lemma look_in : forall v q, In q (texts v) <-> exists o, look v q = Some o.
Proof.
  intros v q. unfold look. induction v as [|x v IH]; cbn [texts map find].
  - split; [intros []|intros (o & H); discriminate].
  - destruct (str_eqb (fst x) q) eqn:E.
    + split; [eexists; reflexivity|]. intros _. left. apply str_eqb_spec. exact E.
    + rewrite <- IH. split; [intros [H|H]; [apply str_eqb_spec in H; congruence|exact H]|auto]. intros H. right. exact H.
Qed.

Lemma look_drop : forall ts v q, ~ In q ts -> look (drop ts v) q = look v q.
Proof.
  intros ts v q H. unfold look, drop. induction v as [|x v IH]; [reflexivity|]. cbn [filter find].
  destruct (str_eqb (fst x) q) eqn:E.
  - apply str_eqb_spec in E. destruct (existsb (str_eqb (fst x)) ts) eqn:E2; [apply existsb_str in E2; congruence|]. cbn [negb find].
    replace (str_eqb (fst x) q) with true by (symmetry; apply str_eqb_spec; exact E). reflexivity.
  - destruct (existsb (str_eqb (fst x)) ts); cbn [negb]; [exact IH|]. cbn [find]. rewrite E. exact IH.
Qed.

Lemma nodup_drop : forall ts v, NoDup (texts v) -> NoDup (texts (drop ts v)).
Proof.
  intros ts v H. unfold texts, drop in *. induction v as [|x v IH]; [constructor|]. cbn [map] in H. inversion H; subst. cbn [filter].
  destruct (negb (existsb (str_eqb (fst x)) ts)); [|auto]. cbn [map]. constructor; [|auto].
  intros Hi. apply in_map_iff in Hi. destruct Hi as (y & Ey & Hy). apply filter_In in Hy. destruct Hy as [Hy _]. apply H2. rewrite <- Ey. apply in_map. exact Hy.
Qed.

(** * Entries *)

Lemma strip_spec : forall pre t n, strip pre t = Some n <-> t = pre ++ n.
Proof.
  induction pre as [|a pre IH]; intros t n; cbn [strip app].
  - split; [intros H; injection H; auto|intros ->; reflexivity].
  - destruct t as [|b t]; [split; [discriminate|discriminate]|]. destruct (Ascii.eqb_spec a b) as [->|Hne].
    + rewrite IH. split; [intros ->; reflexivity|intros H; injection H; auto].
    + split; [discriminate|intros H; injection H; intros; congruence].
Qed.

Lemma name_ok_spec : forall n, name_ok n = true <-> entry_name n.
Proof.
  intros n. unfold name_ok, entry_name, proper, wplain. rewrite !andb_true_iff, !negb_true_iff. split.
  - intros ((((H1 & H2) & H3) & H4) & H5). repeat split.
    + intros ->. discriminate.
    + exact H2.
    + intros Hc. rewrite forallb_forall in H3. specialize (H3 _ Hc). rewrite Ascii.eqb_refl in H3. discriminate.
    + intros E. apply str_eqb_spec in E. congruence.
    + intros E. apply str_eqb_spec in E. congruence.
  - intros ((H1 & H2 & H3) & H4 & H5). repeat split.
    + destruct n; [congruence|reflexivity].
    + exact H2.
    + apply forallb_forall. intros x Hx. apply negb_true_iff. apply Ascii.eqb_neq. intros ->. contradiction.
    + destruct (str_eqb n (lit ".")) eqn:E; [apply str_eqb_spec in E; contradiction|reflexivity].
    + destruct (str_eqb n (lit "..")) eqn:E; [apply str_eqb_spec in E; contradiction|reflexivity].
Qed.

Lemma entries_in : forall v q n, In n (map fd_name (entries v q)) <-> entry_name n /\ In (entry_text q n) (texts v).
Proof.
  intros v q n. unfold entries, texts. induction v as [|x v IH]; cbn [flat_map map]; [split; [intros []|intros [_ []]]|].
  rewrite map_app, in_app_iff, IH. rewrite (entry_split q n). cbn [In]. split.
  - intros [H|[H1 H2]]; [|auto]. destruct (strip (entry_text q []) (fst x)) as [m|] eqn:E; [|cbn in H; contradiction].
    apply strip_spec in E. destruct (name_ok m) eqn:Em; [|cbn in H; contradiction]. cbn in H. destruct H as [<-|[]]. apply name_ok_spec in Em. auto.
  - intros [H1 [H2|H2]]; [|auto]. left. apply strip_spec in H2. rewrite H2. apply name_ok_spec in H1. rewrite H1. cbn. auto.
Qed.

Lemma entries_nodup : forall v q, NoDup (texts v) -> NoDup (map fd_name (entries v q)).
Proof.
  intros v q. induction v as [|x v IH]; intros H; cbn [entries flat_map map]; [constructor|]. cbn [texts map] in H. inversion H as [|? ? Hx Hv]; subst.
  unfold entries in *. cbn [flat_map]. rewrite map_app. destruct (strip (entry_text q []) (fst x)) as [m|] eqn:E; [|apply IH; exact Hv].
  destruct (name_ok m); [|apply IH; exact Hv]. cbn [map app]. constructor; [|apply IH; exact Hv].
  intros Hm. fold (entries v q) in Hm. apply entries_in in Hm. destruct Hm as [_ Hm]. apply strip_spec in E. cbn [fd_name] in Hm. rewrite (entry_split q m), <- E in Hm. contradiction.
Qed.

Lemma entries_nil : forall v q, (forall n, entry_name n -> ~ In (entry_text q n) (texts v)) -> entries v q = [].
Proof.
  intros v q H. destruct (entries v q) as [|x l] eqn:E; [reflexivity|]. exfalso. assert (Hi : In (fd_name x) (map fd_name (entries v q))) by (rewrite E; cbn; auto).
  apply entries_in in Hi. destruct Hi as [H1 H2]. exact (H _ H1 H2).
Qed.

Lemma listed_entries : forall v q, listed (FindData (lit ".") 16 0 :: FindData (lit "..") 16 0 :: entries v q) = entries v q.
Proof.
  intros v q. unfold listed. cbn [filter]. replace (dot_names (FindData (lit ".") 16 0)) with true by reflexivity.
  replace (dot_names (FindData (lit "..") 16 0)) with true by reflexivity. cbn [negb].
  assert (H : Forall (fun x => dot_names x = false) (entries v q)).
  { apply Forall_forall. intros x Hx. assert (Hi : In (fd_name x) (map fd_name (entries v q))) by (apply in_map; exact Hx).
    apply entries_in in Hi. destruct Hi as [(_ & H1 & H2) _]. rewrite <- dots_spec. unfold is_dots.
    destruct (str_eqb (fd_name x) (lit ".")) eqn:E1; [apply str_eqb_spec in E1; contradiction|].
    destruct (str_eqb (fd_name x) (lit "..")) eqn:E2; [apply str_eqb_spec in E2; contradiction|]. reflexivity. }
  induction H as [|x l Hx H IH]; [reflexivity|]. cbn. rewrite Hx. cbn. rewrite IH. reflexivity.
Qed.

(** * The run *)

Lemma wrun_bind : forall A B S (h : wkernel S) (p : wprog A) (f : A -> N -> wprog B) s a e s', wrun h p s = (WE (WRet a e), s') ->
  wrun h (wbind p f) s = wrun h (f a e) s'.
Proof.
  intros A B S h p f. induction p as [r|c k IH]; intros s a e s' H.
  - cbn in H. injection H as -> ->. reflexivity.
  - cbn [wbind wrun] in *. destruct (h c s) as [r s1]. apply IH. exact H.
Qed.

Lemma below_trans : forall a b c, below a b -> below b c -> below a c.
Proof. intros a b c H1 H2. induction H2 as [|d n H2 IH Hn]; [exact H1|constructor; assumption]. Qed.

Lemma tree_sub : forall q q' v, tree q v -> below q q' -> tree q' v.
Proof. intros q q' v [H1 H2] Hb. split; [exact H1|]. intros d n Hd. apply H2. eapply below_trans; eassumption. Qed.

Lemma tree_drop : forall q ts v, tree q v ->
  (forall d n, In d ts -> entry_name n -> In (entry_text d n) (texts v) -> In (entry_text d n) ts) -> tree q (drop ts v).
Proof.
  intros q ts v [H1 H2] Hc. split; [apply nodup_drop; exact H1|]. intros d n Hd Hn Hi. apply drop_texts in Hi. destruct Hi as [Hi Hni].
  destruct (H2 d n Hd Hn Hi) as (o & Ho & Hr). exists o. split; [|exact Hr]. rewrite look_drop; [exact Ho|]. intros Hdt. apply Hni. apply Hc; assumption.
Qed.

Lemma tree_up : forall q v ns n, tree q v -> Forall entry_name (n :: ns) -> In (place q (n :: ns)) (texts v) ->
  exists o, look v q = Some o /\ is_real o = true.
Proof.
  intros q v ns. induction ns as [|m ns IH] using rev_ind; intros n Ht Hn Hi.
  - inversion Hn; subst. apply (proj2 Ht q n); [constructor|assumption|exact Hi].
  - change (n :: ns ++ [m]) with ((n :: ns) ++ [m]) in *. apply Forall_app in Hn. destruct Hn as [Hn Hm]. inversion Hm; subst.
    rewrite place_app in Hi. destruct (proj2 Ht (place q (n :: ns)) m) as (o & Ho & _); [|assumption|exact Hi|].
    + apply below_place. eauto.
    + apply (IH n); auto. apply look_in. eauto.
Qed.

Lemma remove_run : forall dbg q v o, stable q -> look v q = Some o -> (is_dir (fst o) = true -> entries v q = []) ->
  wrun volume_kernel (wremove dbg true (wpath q)) v = (WE (WRet true 0), drop [q] v).
Proof.
  intros dbg q v o [Hne Hst] Ho He. change (split_components Windows q) with (wpath q) in Hst. unfold wremove. rewrite nonempty_native by congruence. rewrite Hst.
  cbn [wrun volume_kernel]. rewrite Ho. destruct o as [a tag]. cbn [fst] in He. rewrite dir_attr, <- without_drop. destruct (is_dir a) eqn:Ed.
  - cbn [wrun volume_kernel]. rewrite Ho. cbn [fst]. rewrite Ed, He by reflexivity. reflexivity.
  - cbn [wrun volume_kernel]. rewrite Ho. cbn [fst]. rewrite Ed. reflexivity.
Qed.

Lemma readable_volume : readable (Security (inr tt) false (fun _ => inr 1179785)).
Proof. split; [reflexivity|]. intros t. eexists. reflexivity. Qed.

Lemma status_run : forall dbg q v o, native (wpath q) = q -> look v q = Some o ->
  exists st, wrun volume_kernel (wsymlink_status_of dbg true (wpath q)) v = (WE (WRet st 0), v) /\ wis ft_directory st = is_real o.
Proof.
  intros dbg q v [a tag] Hst Ho. unfold wsymlink_status_of. rewrite Hst. cbn [wrun volume_kernel]. rewrite Ho.
  set (i := WInfo (inr a) (inr tt) (inr a) (inr tt) (inr tag) (Security (inr tt) false (fun _ => inr 1179785))).
  destruct (C63_link_types dbg true i a tag eq_refl readable_volume eq_refl eq_refl) as (ty & prms & -> & _ & T1 & T2 & T3).
  exists (ty, prms). split; [reflexivity|]. unfold is_real. cbn [fst]. destruct (is_reparse a).
  - rewrite andb_false_r. destruct (N.eqb_spec tag 2684354572) as [E1|E1], (N.eqb_spec tag 2684354563) as [E2|E2];
      try (rewrite (T1 eq_refl) by (unfold link_tag; auto); reflexivity).
    rewrite (T2 eq_refl) by (unfold link_tag; intros [|]; congruence). reflexivity.
  - rewrite (T3 eq_refl). rewrite andb_true_r. unfold type_followed. destruct (is_dir a); reflexivity.
Qed.

Lemma in_place_self : forall q ns, q <> [] -> Forall entry_name ns -> place q ns = q -> ns = [].
Proof. intros q ns Hq Hn H. apply (place_inj q ns []); auto. Qed.

Lemma nodup_app : forall (a b : list str), NoDup a -> NoDup b -> (forall t, In t a -> In t b -> False) -> NoDup (a ++ b).
Proof.
  induction a as [|t a IH]; intros b Ha Hb H; [exact Hb|]. inversion Ha; subst. cbn [app]. constructor.
  - rewrite in_app_iff. intros [Hi|Hi]; [contradiction|]. apply (H t); cbn; auto.
  - apply IH; auto. intros t0 H0. apply H. cbn. auto.
Qed.

(** What a run on [q] deletes, and counts. *)
Definition removes (q : str) (v : volume) (ts : list str) : Prop :=
  NoDup ts /\ forall t, In t ts <-> In t (texts v) /\ below q t.

Lemma removes_closed : forall q v ts, removes q v ts ->
  forall d n, In d ts -> entry_name n -> In (entry_text d n) (texts v) -> In (entry_text d n) ts.
Proof. intros q v ts [_ H] d n Hd Hn Hi. apply H. split; [exact Hi|]. constructor; [apply H; exact Hd|exact Hn]. Qed.

Lemma do_remove_all_run : forall dbg E ac, ac 18 = 18 -> forall n q v, stable q -> tree q v -> In q (texts v) ->
  (forall ns, Forall entry_name ns -> In (place q ns) (texts v) -> (length ns < n)%nat) ->
  exists ts, removes q v ts /\
    wrun volume_kernel (wdo_remove_all dbg E ac n (wpath q)) v = (WE (WRet (N.of_nat (length ts) mod 2 ^ 64) 0), drop ts v).
Proof.
  intros dbg E ac Hac n. induction n as [|n IH]; intros q v Hs Ht Hq Hdepth.
  { specialize (Hdepth [] (Forall_nil _) Hq). cbn in Hdepth. lia. }
  pose proof Hs as [Hne Hst]. change (split_components Windows q) with (wpath q) in Hst.
  apply look_in in Hq. destruct Hq as [o Ho]. destruct (status_run dbg q v o Hst Ho) as (st & Hrun & Hd).
  cbn [wdo_remove_all]. rewrite (wrun_bind _ _ _ _ _ _ _ _ _ _ Hrun). change (negb (0 =? 0)) with false. cbv iota. rewrite Hd.
  destruct (is_real o) eqn:Er.
  - (* directory *)
    cbn [wrun]. rewrite Hst. cbn [volume_kernel]. rewrite Ho, Er.
    destruct (C64_iterates 18 ac (S (listing_bound (inr (FindData (lit ".") 16 0, FindData (lit "..") 16 0 :: entries v q)))) false
                (FindData (lit ".") 16 0) (FindData (lit "..") 16 0 :: entries v q)) as (es & Hes & Hnames);
      [cbn; lia|exact Hac|discriminate|].
    unfold wlisting. cbn [fst snd]. rewrite Hes. change (18 =? 18) with true. cbv iota. rewrite listed_entries in Hnames. clear Hes.
    assert (L : forall es v count, tree q v -> In q (texts v) -> (forall ns, Forall entry_name ns -> In (place q ns) (texts v) -> (length ns < S n)%nat) ->
      NoDup (map we_name es) -> (forall m, In m (map we_name es) -> entry_name m /\ In (entry_text q m) (texts v)) -> count < 2 ^ 64 ->
      exists ts, NoDup ts /\ (forall t, In t ts <-> In t (texts v) /\ exists m, In m (map we_name es) /\ below (entry_text q m) t) /\
        wrun volume_kernel (wremove_entries E (wdo_remove_all dbg E ac n) (wpath q) es 0 count) v =
          (WE (WRet ((count + N.of_nat (length ts)) mod 2 ^ 64) 0), drop ts v)).
    { clear es Hnames v Ht Ho Hrun Hdepth. induction es as [|x es IHe]; intros v count Ht Hq Hdepth Hnd Hin Hc.
      - exists []. split; [constructor|]. split; [intros t; split; [intros []|intros (_ & m & [] & _)]|].
        cbn [wremove_entries wrun wret length N.of_nat]. rewrite N.add_0_r, N.mod_small, drop_nil by exact Hc. reflexivity.
      - cbn [map] in Hnd, Hin. inversion Hnd as [|? ? Hx Hnd2]; subst. destruct (Hin (we_name x) (or_introl eq_refl)) as [Hm Hmi].
        set (m := we_name x) in *. assert (Hbm : below q (entry_text q m)) by (constructor; [constructor|exact Hm]).
        destruct (IH (entry_text q m) v) as (ts1 & Hts1 & Hrun1).
        + apply stable_entry; [exact Hs|apply Hm].
        + apply (tree_sub q); assumption.
        + exact Hmi.
        + intros ns Hns Hi. assert (S (length ns) < S n)%nat; [|lia]. apply (Hdepth (m :: ns)); [constructor; assumption|exact Hi].
        + assert (Hout : forall m' t, In m' (map we_name es) -> below (entry_text q m') t -> ~ In t ts1).
          { intros m' t Hm' Hb Hi. apply Hts1 in Hi. destruct Hi as [_ Hi]. apply below_place in Hb. apply below_place in Hi.
            destruct Hb as (ns & Hns & ->). destruct Hi as (ns' & Hns' & Ei). destruct (Hin m' (or_intror Hm')) as [Hmn _].
            change (place (entry_text q m') ns) with (place q (m' :: ns)) in Ei. change (place (entry_text q m) ns') with (place q (m :: ns')) in Ei.
            apply place_inj in Ei; [|exact Hne|constructor; assumption|constructor; assumption]. injection Ei as -> _. contradiction. }
          destruct (IHe (drop ts1 v) ((count + N.of_nat (length ts1) mod 2 ^ 64) mod 2 ^ 64)) as (ts2 & Hnd3 & Hts2 & Hrun2).
          * apply tree_drop; [exact Ht|]. apply removes_closed with (q := entry_text q m). exact Hts1.
          * apply drop_texts. split; [exact Hq|]. intros Hi. apply Hts1 in Hi. destruct Hi as [_ Hi]. apply below_place in Hi. destruct Hi as (ns & Hns & Ei).
            change (place (entry_text q m) ns) with (place q (m :: ns)) in Ei. symmetry in Ei. apply (in_place_self q (m :: ns)) in Ei; [discriminate|exact Hne|constructor; assumption].
          * intros ns Hns Hi. apply drop_texts in Hi. apply Hdepth; [exact Hns|apply Hi].
          * exact Hnd2.
          * intros m' Hm'. destruct (Hin m' (or_intror Hm')) as [H1 H2]. split; [exact H1|]. apply drop_texts. split; [exact H2|]. apply (Hout m'); [exact Hm'|constructor].
          * apply N.mod_upper_bound. discriminate.
          * exists (ts1 ++ ts2). split; [|split].
            { apply nodup_app; [apply Hts1|exact Hnd3|]. intros t H1 H2. apply Hts2 in H2. destruct H2 as [H2 _]. apply drop_texts in H2. destruct H2 as [_ H2]. contradiction. }
            { intros t. rewrite in_app_iff. cbn [map In]. split.
              - intros [Hi|Hi].
                + apply Hts1 in Hi. destruct Hi as [Hi Hb]. split; [exact Hi|]. exists m. auto.
                + apply Hts2 in Hi. destruct Hi as (Hi & m' & Hm' & Hb). apply drop_texts in Hi. split; [apply Hi|]. exists m'. auto.
              - intros (Hi & m' & [<-|Hm'] & Hb).
                + left. apply Hts1. auto.
                + right. apply Hts2. split; [|exists m'; auto]. apply drop_texts. split; [exact Hi|]. apply (Hout m'); assumption. }
            { cbn [wremove_entries]. unfold wpath at 1 2. rewrite div_name by (try apply Hm; exact Hs). cbn [wlift].
              change (split_components Windows (entry_text q (we_name x))) with (wpath (entry_text q m)).
              rewrite (wrun_bind _ _ _ _ _ _ _ _ _ _ Hrun1). change (negb (0 =? 0)) with false. cbv iota. rewrite Hrun2, drop_drop. f_equal. f_equal. f_equal.
              rewrite app_length, Nat2N.inj_add, N.add_mod_idemp_l by discriminate. rewrite (N.add_comm count), <- N.add_assoc, N.add_mod_idemp_l by discriminate. f_equal. lia. } }
    destruct (L es v 1) as (ts & Hnd & Hts & Hrun2).
    + exact Ht.
    + apply look_in. eauto.
    + exact Hdepth.
    + rewrite Hnames. apply entries_nodup. apply Ht.
    + intros m. rewrite Hnames. apply entries_in.
    + reflexivity.
    + assert (Hqt : ~ In q ts).
      { intros Hi. apply Hts in Hi. destruct Hi as (_ & m & Hm & Hb). rewrite Hnames in Hm. apply entries_in in Hm. destruct Hm as [Hm _].
        apply below_place in Hb. destruct Hb as (ns & Hns & Ei). change (place (entry_text q m) ns) with (place q (m :: ns)) in Ei. symmetry in Ei.
        apply (in_place_self q (m :: ns)) in Ei; [discriminate|exact Hne|constructor; assumption]. }
      exists (ts ++ [q]). split.
      * split.
        { apply nodup_app; [exact Hnd|repeat constructor; auto|]. intros t H1 [<-|[]]. contradiction. }
        { intros t. rewrite in_app_iff. cbn [In]. split.
          - intros [Hi|[<-|[]]].
            + apply Hts in Hi. destruct Hi as (Hi & m & Hm & Hb). split; [exact Hi|]. rewrite Hnames in Hm. apply entries_in in Hm. destruct Hm as [Hm _].
              apply (below_trans q (entry_text q m)); [constructor; [constructor|exact Hm]|exact Hb].
            + split; [apply look_in; eauto|constructor].
          - intros [Hi Hb]. apply below_place in Hb. destruct Hb as ([|m ns] & Hns & ->); [cbn; auto|]. left. apply Hts. split; [exact Hi|].
            inversion Hns; subst. exists m. split.
            + rewrite Hnames. apply entries_in. split; [assumption|]. destruct ns as [|m2 ns]; [exact Hi|].
              destruct (tree_up (entry_text q m) v ns m2) as (o2 & Ho2 & _); [|assumption|exact Hi|apply look_in; eauto].
              apply (tree_sub q); [exact Ht|]. constructor; [constructor|assumption].
            + apply below_place. exists ns. split; [assumption|reflexivity]. }
      * rewrite (wrun_bind _ _ _ _ _ _ _ _ _ _ Hrun2). change (negb (0 =? 0)) with false. cbv iota.
        rewrite (wrun_bind _ _ _ _ _ _ _ _ _ _ (remove_run dbg q (drop ts v) o Hs ltac:(rewrite look_drop; assumption) ltac:(
          intros _; apply entries_nil; intros m Hm Hi; apply drop_texts in Hi; destruct Hi as [Hi1 Hi2]; apply Hi2; apply Hts; split;
          [exact Hi1|exists m; split; [rewrite Hnames; apply entries_in; auto|constructor]]))).
        cbn [wrun wret]. rewrite drop_drop, app_length, Nat2N.inj_add. cbn [length]. rewrite N.add_comm. reflexivity.
  - (* a file or a link *)
    assert (Hno : forall m ns, Forall entry_name (m :: ns) -> ~ In (place q (m :: ns)) (texts v)).
    { intros m ns Hm Hi. destruct (tree_up q v ns m Ht Hm Hi) as (o2 & Ho2 & Hr). congruence. }
    exists [q]. split.
    + split; [repeat constructor; auto|]. intros t. cbn [In]. split.
      * intros [<-|[]]. split; [apply look_in; eauto|constructor].
      * intros [Hi Hb]. apply below_place in Hb. destruct Hb as ([|m ns] & Hns & ->); [auto|]. destruct (Hno m ns Hns Hi).
    + rewrite (wrun_bind _ _ _ _ _ _ _ _ _ _ (remove_run dbg q v o Hs Ho ltac:(
          intros _; apply entries_nil; intros m Hm Hi; apply (Hno m []); [repeat constructor; apply Hm|exact Hi]))).
      reflexivity.
Qed.

Lemma nodup_map_in : forall A B (f : A -> B) l, (forall a b, In a l -> In b l -> f a = f b -> a = b) -> NoDup l -> NoDup (map f l).
Proof.
  intros A B f l Hf H. induction H as [|a l Ha H IH]; [constructor|]. cbn [map]. constructor.
  - intros Hi. apply in_map_iff in Hi. destruct Hi as (b & E & Hb). apply Ha. rewrite <- (Hf b a); auto; [right; exact Hb|left; reflexivity].
  - apply IH. intros; apply Hf; auto; right; assumption.
Qed.

Lemma depth_bound : forall q v ns, q <> [] -> tree q v -> Forall entry_name ns -> In (place q ns) (texts v) -> (length ns < length v)%nat.
Proof.
  intros q v ns Hq Ht Hns Hi.
  set (l := map (fun k => place q (firstn k ns)) (seq 0 (S (length ns)))).
  assert (Hf : forall k, Forall entry_name (firstn k ns)).
  { intros k. rewrite <- (firstn_skipn k ns) in Hns. apply Forall_app in Hns. apply Hns. }
  assert (Hl : (length l <= length (texts v))%nat).
  { apply NoDup_incl_length.
    - unfold l. apply nodup_map_in; [|apply seq_NoDup].
      intros a b Ha Hb E. apply in_seq in Ha. apply in_seq in Hb. apply place_inj in E; auto. apply (f_equal (@length str)) in E.
      rewrite !firstn_length in E. lia.
    - intros t Hl. unfold l in Hl. apply in_map_iff in Hl. destruct Hl as (k & <- & Hk).
      destruct (skipn k ns) as [|m r] eqn:Es.
      + rewrite <- (firstn_skipn k ns), Es, app_nil_r in Hi. exact Hi.
      + rewrite <- (firstn_skipn k ns), Es, place_app in Hi.
        destruct (tree_up (place q (firstn k ns)) v r m) as (o & Ho & _); [|rewrite <- Es|exact Hi|apply look_in; eauto].
        * apply (tree_sub q); [exact Ht|]. apply below_place. eauto.
        * rewrite <- (firstn_skipn k ns) in Hns. apply Forall_app in Hns. apply Hns. }
  unfold l, texts in Hl. rewrite !map_length, seq_length in Hl. lia.
Qed.

Lemma drop_length : forall ts v, NoDup (texts v) -> NoDup ts -> (forall t, In t ts -> In t (texts v)) -> (length (drop ts v) + length ts = length v)%nat.
Proof.
  intros ts v Hv Ht Hi.
  assert (H1 : (length (drop ts v) + length (filter (fun x => existsb (str_eqb (fst x)) ts) v) = length v)%nat).
  { unfold drop. clear. induction v as [|x v IH]; [reflexivity|]. cbn [filter]. destruct (existsb (str_eqb (fst x)) ts); cbn [negb length]; lia. }
  assert (H2 : length (filter (fun x => existsb (str_eqb (fst x)) ts) v) = length ts); [|lia].
  rewrite <- (map_length fst (filter _ v)). apply Nat.le_antisymm; apply NoDup_incl_length.
  - clear - Hv. unfold texts in Hv. induction v as [|x v IH]; [constructor|]. cbn [map] in Hv. inversion Hv; subst. cbn [filter].
    destruct (existsb (str_eqb (fst x)) ts); [|auto]. cbn [map]. constructor; [|auto]. intros Hi. apply in_map_iff in Hi. destruct Hi as (y & Ey & Hy).
    apply filter_In in Hy. destruct Hy as [Hy _]. apply H1. rewrite <- Ey. apply in_map. exact Hy.
  - intros t H. apply in_map_iff in H. destruct H as (x & <- & Hx). apply filter_In in Hx. destruct Hx as [_ Hx]. apply existsb_str. exact Hx.
  - exact Ht.
  - intros t H. pose proof (Hi t H) as H3. unfold texts in H3. apply in_map_iff in H3. destruct H3 as (x & <- & Hx). apply in_map. apply filter_In. split; [exact Hx|].
    apply existsb_str. exact H.
Qed.

(** * C72 remove_all on a volume *)

(** On a volume nobody else works on, remove_all of an existing path deletes it and everything below it, leaves everything else as it is, and
    returns how many objects that were. Links are deleted, not what they lead to (they have nothing below them). *)
Theorem C72_volume : forall dbg E ac has n t v, ac 18 = 18 -> t <> [] ->
  let q := native (wpath t) in
  tree q v -> In q (texts v) -> (length v < n)%nat ->
  exists v', wrun volume_kernel (wremove_all dbg E ac n has (wpath t)) v = (WE (WRet (N.of_nat (length v - length v') mod 2 ^ 64) 0), v') /\
    forall x, In x v' <-> In x v /\ ~ below q (fst x).
Proof.
  intros dbg E ac has n t v Hac Ht q Htree Hq Hn. unfold wremove_all. rewrite nonempty_native.
  2: { pose proof (stable_native t Ht) as [H _]. exact H. }
  pose proof (stable_native t Ht) as Hs. change (native (split_components Windows t)) with q in Hs.
  assert (Hp : wpath t = wpath q) by (symmetry; apply split_native). rewrite Hp.
  destruct (do_remove_all_run dbg E ac Hac n q v Hs Htree Hq) as (ts & Hts & Hrun).
  - intros ns Hns Hi. pose proof (depth_bound q v ns (proj1 Hs) Htree Hns Hi). lia.
  - rewrite (wrun_bind _ _ _ _ _ _ _ _ _ _ Hrun). change (negb (0 =? 0)) with false. cbv iota. exists (drop ts v). split.
    + cbn [wrun wret]. f_equal. f_equal. f_equal. f_equal. f_equal.
      pose proof (drop_length ts v (proj1 Htree) (proj1 Hts) ltac:(intros t0 H0; apply Hts in H0; apply H0)). lia.
    + intros x. unfold drop. rewrite filter_In, negb_true_iff. split.
      * intros [Hi Hx]. split; [exact Hi|]. intros Hb. assert (H : In (fst x) ts) by (apply Hts; split; [apply in_map; exact Hi|exact Hb]).
        apply existsb_str in H. congruence.
      * intros [Hi Hb]. split; [exact Hi|]. destruct (existsb (str_eqb (fst x)) ts) eqn:E1; [|reflexivity]. apply existsb_str in E1. apply Hts in E1. destruct E1. contradiction.
Qed.

(** A directory with a file, a directory holding a file and a link to a directory outside; and the directory the link leads to. *)
Definition sample_volume : volume :=
  [(lit "C:\d", (16, 0)); (lit "C:\d\f", (32, 0)); (lit "C:\x", (16, 0)); (lit "C:\d\e", (16, 0)); (lit "C:\d\e\g", (33, 0));
   (lit "C:\x\h", (32, 0)); (lit "C:\d\l", (1040, 2684354572))].

Example C72_volume_example :
  let E := Elision true true true in
  wrun volume_kernel (wremove_all true E (fun e => e) 8 true (wpath (lit "C:\d"))) sample_volume =
    (WE (WRet 5 0), [(lit "C:\x", (16, 0)); (lit "C:\x\h", (32, 0))]) /\
  made volume_kernel (wremove_all true E (fun e => e) 8 true (wpath (lit "C:\d"))) sample_volume =
    [w_DeleteFile (lit "C:\d\f"); w_DeleteFile (lit "C:\d\e\g"); w_RemoveDirectory (lit "C:\d\e"); w_RemoveDirectory (lit "C:\d\l"); w_RemoveDirectory (lit "C:\d")].
Proof. vm_compute. auto. Qed.

(** The hypotheses of the theorems about all systems hold on that volume. *)
Lemma sample_proper : let p := wremove_all true (Elision true true true) (fun e => e) 8 true (wpath (lit "C:\d")) in
  Forall proper_listing (wevents volume_kernel p sample_volume) /\ Forall (fun e => ~ vanished e) (wevents volume_kernel p sample_volume).
Proof.
  cbv zeta. match goal with |- Forall _ ?l /\ _ => let l' := eval vm_compute in l in replace l with l' by (vm_compute; reflexivity) end.
  split; repeat (apply Forall_cons; [cbn [proper_listing vanished fst]|]); try apply Forall_nil; try exact Logic.I; try tauto; try (intros [H|H]; discriminate H); try discriminate.
  all: cbn [fd_name]; right; right; split; [discriminate|split; [reflexivity|intros [H|[]]; discriminate H]].
Qed.

Example C72_only_below_example : let p := wremove_all true (Elision true true true) (fun e => e) 8 true (wpath (lit "C:\d")) in
  Forall proper_listing (wevents volume_kernel p sample_volume) /\ In (w_DeleteFile (lit "C:\d\e\g")) (made volume_kernel p sample_volume).
Proof. split; [apply sample_proper|]. vm_compute. auto. Qed.

Example C72_count_example : let p := wremove_all true (Elision true true true) (fun e => e) 8 true (wpath (lit "C:\d")) in
  Forall (fun e => ~ vanished e) (wevents volume_kernel p sample_volume) /\ deletions (wevents volume_kernel p sample_volume) = 5.
Proof. split; [apply sample_proper|]. vm_compute. auto. Qed.

(** * What is not there *)

(** Nothing is there, in a directory that is: 0, and no error. *)
Theorem C72_missing_partial : forall dbg E ac n has p S (h : wkernel S) s i s1, native p <> [] -> h (w_Info (native p)) s = (i, s1) -> w_attrs i = inl 2 ->
  wrun h (wremove_all dbg E ac (Datatypes.S n) has p) s = (WE (WRet 0 0), s1).
Proof.
  intros dbg E ac n has p S h s i s1 Hp Hi Ha. unfold wremove_all. rewrite (nonempty_native p Hp). cbn [wdo_remove_all wsymlink_status_of wbind wrun].
  rewrite Hi. unfold wsymlink_status_impl. rewrite Ha. destruct dbg; reflexivity.
Qed.

(** The directory is missing as well (ERROR_PATH_NOT_FOUND): an error with the maximum as value. *)
Theorem C72_missing_refuted : forall dbg E ac n has p S (h : wkernel S) s i s1, native p <> [] -> h (w_Info (native p)) s = (i, s1) -> w_attrs i = inl 3 ->
  wrun h (wremove_all dbg E ac (Datatypes.S n) has p) s = (told has (2 ^ 64 - 1) 3, s1).
Proof.
  intros dbg E ac n has p S h s i s1 Hp Hi Ha. unfold wremove_all. rewrite (nonempty_native p Hp). cbn [wdo_remove_all wsymlink_status_of wbind wrun].
  rewrite Hi. unfold wsymlink_status_impl. rewrite Ha. destruct dbg, has; reflexivity.
Qed.

(** A file that somebody else deletes after its status was asked for: the maximum is returned, and no error. *)
Theorem C72_vanishing_refuted : forall dbg E ac n has p S (h : wkernel S) s i st s1 s2, native p <> [] ->
  h (w_Info (native p)) s = (i, s1) -> wsymlink_status_impl dbg true i = WRet st 0 -> wis ft_directory st = false ->
  h (w_Attributes (native p)) s1 = (inl 2, s2) ->
  wrun h (wremove_all dbg E ac (Datatypes.S n) has p) s = (WE (WRet (2 ^ 64 - 1) 0), s2).
Proof.
  intros dbg E ac n has p S h s i st s1 s2 Hp Hi Hst Hd Ha. unfold wremove_all. rewrite (nonempty_native p Hp). cbn [wdo_remove_all wsymlink_status_of wbind wrun].
  rewrite Hi. rewrite Hst. cbn [wbind wlift]. change (negb (0 =? 0)) with false. cbv iota. rewrite Hd. unfold wremove. rewrite (nonempty_native p Hp). cbn [wbind wrun]. rewrite Ha. destruct dbg; reflexivity.
Qed.

(** The same volume, on which somebody deletes "C:\d\f" as soon as the directory has been listed: 0 is returned and no error, the
    directory and all the rest are still there. *)
Definition racing_kernel : wkernel volume := fun c =>
  match c return volume -> wanswer c * volume with
  | w_Find q => fun v => (fst (volume_kernel (w_Find q) v), without (lit "C:\d\f") v)
  | c' => volume_kernel c'
  end.

Theorem C72_emptied_refuted : forall dbg E has,
  wrun racing_kernel (wremove_all dbg E (fun e => e) 8 has (wpath (lit "C:\d"))) sample_volume = (WE (WRet 0 0), without (lit "C:\d\f") sample_volume).
Proof. intros [] [[] [] []] []; vm_compute; reflexivity. Qed.

Example C72_missing_example :
  let p := wpath (lit "C:\none") in let r := wremove_all true (Elision true true true) (fun e => e) 8 true in
  wrun volume_kernel (r p) sample_volume = (WE (WRet 0 0), sample_volume) /\
  wrun (refusing 3) (r p) tt = (WE (WRet 18446744073709551615 3), tt).
Proof. vm_compute. auto. Qed.

Print Assumptions C72_only_below.
Print Assumptions C72_links_not_entered.
Print Assumptions C72_count_partial.
Print Assumptions C72_volume.
Print Assumptions C72_missing_partial.
Print Assumptions C72_missing_refuted.
Print Assumptions C72_vanishing_refuted.
Print Assumptions C72_emptied_refuted.
