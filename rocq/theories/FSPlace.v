(** Paths and places of the file system of FS.v: the text of a place leads to the place; a relative path joined to the
    path of a directory is followed from that directory. *)
From Coq Require Import Ascii String Bool Arith NArith ZArith Lia.
From Verif Require Import Str PathModel PathSpec StrProofs PathProofs PathOps PathOps2 PathReach PathLaws.
From Verif Require Import FlagsModel TimeModel Prog DirModel FS FSProofs FSSpec FSOps.
From Coq Require Import List.
Import ListNotations.

Definition good_place (q : loc) : Prop := Forall (fun n => good_name n = true) q.

Lemma good_plain : forall n, good_name n = true -> plain n = true /\ noslash n /\ n <> [] /\ is_dots n = false.
Proof.
  unfold good_name, plain, is_dots. intros n H. apply andb_true_iff in H as [H1 H2].
  apply andb_true_iff in H1 as [H1 H4]. apply andb_true_iff in H1 as [H1 H3].
  rewrite H1, H3, H4. repeat split; auto.
  - destruct n; [discriminate|congruence].
  - destruct (str_eqb n (lit ".")), (str_eqb n (lit "..")); auto.
Qed.

Lemma good_goodnames : forall q, good_place q -> Forall goodname q.
Proof. intros q H. eapply Forall_impl; [|exact H]. intros n Hn. apply good_plain in Hn. unfold goodname. tauto. Qed.

Lemma look_prefix : forall t a b x, look t (a ++ b) = Some x -> b <> [] -> exists i, look t a = Some (NDir i).
Proof.
  intros t a b x H Hb. apply look_get in H as (c & H & _). rewrite get_app in H.
  destruct (get t a) as [[i|i l]|] eqn:G; try discriminate.
  - destruct b; [congruence|discriminate].
  - exists i. apply look_dir. eauto.
Qed.

Lemma wf_place : forall t q x, wf_tree t -> look t q = Some x -> good_place q.
Proof.
  intros t q. induction q as [|n q IH] using rev_ind; intros x Hw H; [constructor|].
  apply Forall_app. split.
  - destruct (look_prefix _ _ _ _ H ltac:(discriminate)) as [i Hi]. exact (IH _ Hw Hi).
  - constructor; [|constructor]. eapply wf_name; eauto.
Qed.

Lemma names_place : forall q, good_place q -> names (place_text q) = q.
Proof.
  intros. unfold place_text. rewrite names_cons_slash. apply names_join. apply good_goodnames. auto.
Qed.
Lemma ends_place : forall q, good_place q -> ends_slash (place_text q) = is_nil q.
Proof.
  intros q H. apply good_goodnames in H. unfold place_text. destruct q as [|n q]; [reflexivity|].
  change (slash :: join (n :: q)) with ([slash] ++ join (n :: q)).
  rewrite ends_slash_app by (apply join_ne; auto; discriminate). apply ends_join. auto.
Qed.
Lemma starts_place : forall q, starts_slash (place_text q) = true.
Proof. reflexivity. Qed.
Lemma comps_place : forall q, good_place q -> FS.comps (place_text q) = q.
Proof.
  intros q H. unfold FS.comps. rewrite names_place, ends_place by auto. destruct q; cbn; rewrite ?app_nil_r; auto.
Qed.
Lemma text_place : forall q, good_place q -> native (mkpath (place_text q)) = place_text q.
Proof.
  intros q H. rewrite native_mkpath. unfold reported_text.
  destruct (only_slashes (place_text q)) eqn:He.
  - apply only_slashes_names in He. rewrite names_place in He by auto. subst q. reflexivity.
  - rewrite andb_false_r. reflexivity.
Qed.

Lemma steps_place : forall t tg last links q cur x, look t (cur ++ q) = Some x -> good_place q ->
  (forall i, x = NLeaf i -> tg i = None \/ last = false) ->
  steps (look t) tg last links cur q = Found links (cur ++ q).
Proof.
  intros t tg last links. induction q as [|n q IH]; intros cur x H Hg Hx.
  { rewrite app_nil_r. apply steps_nil. }
  inversion Hg as [|? ? Hn Hr]; subst. apply good_plain in Hn as (_ & _ & _ & Hd).
  unfold is_dots in Hd. apply orb_false_iff in Hd as [Hd1 Hd2].
  rewrite steps_cons. destruct (look_prefix t cur (n :: q) x H ltac:(discriminate)) as [i ->].
  rewrite Hd1, Hd2. replace (cur ++ n :: q) with ((cur ++ [n]) ++ q) in * by (rewrite <- app_assoc; reflexivity).
  destruct q as [|m q].
  - rewrite app_nil_r in *. rewrite H. destruct x as [j|j]; [|apply steps_nil].
    cbn [is_nil]. destruct (Hx j eq_refl) as [->| ->]; auto. destruct (tg j); auto.
  - destruct (look_prefix t (cur ++ [n]) (m :: q) x H ltac:(discriminate)) as [j Hj]. rewrite Hj.
    eapply IH; eauto.
Qed.

(** The text of an existing place leads to it. *)
Lemma find_place : forall k s last q x, wf s -> look (f_root s) q = Some x ->
  (forall i, x = NLeaf i -> link_text s i = None \/ last = false) ->
  find_at k s last (place_text q) = Found (k_links k) q.
Proof.
  intros k s last q x Hw H Hx. pose proof (wf_place _ _ _ (wf_root s Hw) H) as Hg.
  unfold find_at. rewrite comps_place by auto. unfold resolve_comps. cbn [place_text is_nil].
  rewrite starts_place. apply (steps_place _ _ _ _ q [] x); auto.
Qed.
Lemma entry_place : forall k s q x, wf s -> look (f_root s) q = Some x ->
  find_entry k s (place_text q) = Found (k_links k) q.
Proof.
  intros k s q x Hw H. pose proof (wf_place _ _ _ (wf_root s Hw) H) as Hg.
  unfold find_entry. rewrite names_place by auto. unfold resolve_comps. cbn [place_text is_nil].
  rewrite starts_place. apply (steps_place _ _ _ _ q [] x); auto.
Qed.

Lemma find_names : forall k s t l q i, wf s -> find_at k s true t = Found l q -> look (f_root s) q = Some (NDir i) ->
  resolve_comps k s true t (names t) = Found l q.
Proof.
  intros k s t l q i Hw H Hq. unfold find_at, resolve_comps, FS.comps in *.
  destruct (is_nil t); [discriminate|].
  destruct (ends_slash t && negb (is_nil (names t))); [|rewrite app_nil_r in H; auto].
  rewrite steps_app in H by discriminate.
  destruct (steps _ _ true _ _ (names t)) as [l1 q1| |] eqn:Hs; try discriminate.
  rewrite steps_cons in H. destruct (look (f_root s) q1) as [[|]|]; try discriminate.
  change (str_eqb (lit ".") (lit ".")) with true in H. cbn iota in H. rewrite steps_nil in H. congruence.
Qed.

(** A relative path joined to the path of a directory is followed from there. *)
Lemma find_under : forall k s last a b l q i, wf s ->
  find_at k s true a = Found l q -> look (f_root s) q = Some (NDir i) -> starts_slash b = false -> b <> [] ->
  find_at k s last (append_text a b) =
  if is_nil (FS.comps b) then Fail ENOENT else steps (look (f_root s)) (link_text s) last l q (FS.comps b).
Proof.
  intros k s last a b l q i Hw Ha Hq Hb Hne. pose proof (find_names _ _ _ _ _ _ Hw Ha Hq) as Hn.
  rewrite append_text_before by auto. unfold find_at, resolve_comps in *.
  destruct a as [|c a]; [discriminate Ha|]. cbn [is_nil] in *.
  assert (Hnb : names b <> []).
  { destruct b as [|d b]; [congruence|]. intros E. apply only_slashes_names in E. cbn in Hb, E. rewrite Hb in E. discriminate. }
  assert (Hc : FS.comps (before (c :: a) ++ b) = names (c :: a) ++ FS.comps b).
  { unfold FS.comps. rewrite names_before, ends_before by auto.
    destruct b as [|d b]; [congruence|]. cbn [is_nil].
    destruct (names (d :: b)) as [|m ms] eqn:Em; [congruence|].
    replace (is_nil (names (c :: a) ++ m :: ms)) with false by (destruct (names (c :: a)); reflexivity).
    rewrite <- app_assoc. reflexivity. }
  rewrite Hc, starts_before by auto.
  assert (Hcb : FS.comps b <> []).
  { intros E. apply comps_nil in E. congruence. }
  replace (is_nil (before (c :: a) ++ b)) with false by (unfold before; reflexivity).
  rewrite steps_app by auto. rewrite Hn. destruct (FS.comps b); [congruence|reflexivity].
Qed.

(** A single name under a directory. *)
Lemma find_child : forall k s last a n l q i, wf s ->
  find_at k s true a = Found l q -> look (f_root s) q = Some (NDir i) -> good_name n = true ->
  find_at k s last (append_text a n) = steps (look (f_root s)) (link_text s) last l q [n].
Proof.
  intros k s last a n l q i Hw Ha Hq Hn. apply good_plain in Hn as (_ & Hn & Hne & _).
  assert (Hc : FS.comps n = [n]).
  { unfold FS.comps. rewrite names_noslash, noslash_ends by auto. reflexivity. }
  assert (Hs : starts_slash n = false) by (destruct n; [congruence|apply noslash_cons in Hn; cbn; tauto]).
  rewrite (find_under k s last a n l q i) by auto.
  rewrite Hc. reflexivity.
Qed.
Lemma entry_child : forall k s a n l q i, wf s ->
  find_at k s true a = Found l q -> look (f_root s) q = Some (NDir i) -> good_name n = true ->
  find_entry k s (append_text a n) = steps (look (f_root s)) (link_text s) false l q [n].
Proof.
  intros k s a n l q i Hw Ha Hq Hn. rewrite <- (find_child k s false a n l q i) by auto.
  apply good_plain in Hn as (_ & Hn & Hne & _).
  assert (Hs : starts_slash n = false) by (destruct n; [congruence|apply noslash_cons in Hn; cbn; tauto]).
  unfold find_at, find_entry, FS.comps. rewrite append_text_before by auto. rewrite ends_before by auto.
  destruct n as [|c n]; [congruence|]. cbn [is_nil]. rewrite noslash_ends by auto. cbn [andb]. rewrite app_nil_r. reflexivity.
Qed.
Lemma steps_child : forall lk tg last l q n i, lk q = Some (NDir i) -> good_name n = true ->
  steps lk tg last l q [n] =
  match lk (q ++ [n]) with
  | None => Missing q n
  | Some (NDir _) => Found l (q ++ [n])
  | Some (NLeaf j) =>
      match tg j with
      | None => Found l (q ++ [n])
      | Some t =>
          if last then
            match l with
            | O => Fail ELOOP
            | S l' => steps lk tg true l' (if starts_slash t then [] else q) (FS.comps t)
            end
          else Found l (q ++ [n])
      end
  end.
Proof.
  intros lk tg last l q n i Hq Hn. apply good_plain in Hn as (_ & _ & _ & Hd).
  unfold is_dots in Hd. apply orb_false_iff in Hd as [Hd1 Hd2].
  rewrite steps_cons, Hq, Hd1, Hd2. destruct (lk (q ++ [n])) as [[j|j]|]; auto; [|apply steps_nil].
  destruct (tg j); auto. destruct last; auto. cbn [is_nil andb negb]. destruct l; auto. rewrite app_nil_r. reflexivity.
Qed.
