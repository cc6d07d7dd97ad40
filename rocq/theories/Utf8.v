(** The encoding forms of Unicode that paths and wide strings are written in, as the Unicode standard defines them (tables 3-5 and 3-6).
    Specification vocabulary: nothing here refers to the model. *)
From Coq Require Import Ascii String Bool Arith NArith ZArith Lia List.
From Verif Require Import Str PathSpec StrProofs.
Import ListNotations.
Local Open Scope N_scope.

(** Code points other than surrogates. *)
Definition scalar (c : N) : Prop := c < 55296 \/ 57344 <= c < 1114112.

(** A character in UTF-8: one to four bytes. *)
Definition utf8_char (c : N) : list N :=
  if c <? 128 then [c]
  else if c <? 2048 then [192 + c / 64; 128 + c mod 64]
  else if c <? 65536 then [224 + c / 4096; 128 + c / 64 mod 64; 128 + c mod 64]
  else [240 + c / 262144; 128 + c / 4096 mod 64; 128 + c / 64 mod 64; 128 + c mod 64].

Definition utf8 (cs : list N) : str := flat_map (fun c => map ascii_of_N (utf8_char c)) cs.

(** A character in UTF-16: one unit, or two surrogates. *)
Definition utf16_char (c : N) : list N :=
  if c <? 65536 then [c] else [55296 + (c - 65536) / 1024; 56320 + (c - 65536) mod 1024].

Definition utf16 (cs : list N) : list N := flat_map utf16_char cs.

(** Well-formed UTF-8. *)
Definition well_formed (s : str) : Prop := exists cs, Forall scalar cs /\ s = utf8 cs.

(** * Proofs *)

Definition continuation (a : ascii) : bool := (128 <=? N_of_ascii a) && (N_of_ascii a <? 192).
Definition is_ascii (a : ascii) : bool := N_of_ascii a <? 128.

Lemma n_of : forall n, n < 256 -> N_of_ascii (ascii_of_N n) = n.
Proof. intros. apply N_ascii_embedding. exact H. Qed.

Lemma cont_of : forall n, 128 <= n < 192 -> continuation (ascii_of_N n) = true.
Proof. intros n H. unfold continuation. rewrite n_of by lia. apply andb_true_intro. split; [apply N.leb_le|apply N.ltb_lt]; lia. Qed.

Lemma lead_of : forall n, n < 128 \/ 192 <= n < 256 -> continuation (ascii_of_N n) = false.
Proof.
  intros n H. unfold continuation. rewrite n_of by lia. destruct (N.leb_spec 128 n); [|reflexivity].
  apply N.ltb_ge. lia.
Qed.

Lemma scalar_small : forall c, scalar c -> c < 1114112.
Proof. unfold scalar. lia. Qed.

Ltac nlia := repeat match goal with
  | |- context [?a mod ?b] => let q := fresh "q" in set (q := a mod b) in *; clearbody q
  | _ : context [?a mod ?b] |- _ => let q := fresh "q" in set (q := a mod b) in *; clearbody q
  | |- context [?a / ?b] => let q := fresh "q" in set (q := a / b) in *; clearbody q
  | _ : context [?a / ?b] |- _ => let q := fresh "q" in set (q := a / b) in *; clearbody q
  end; lia.

(** A character is a leading byte followed by continuation bytes. *)
Lemma char_shape : forall c, scalar c -> exists l k, map ascii_of_N (utf8_char c) = l :: k /\
  continuation l = false /\ forallb continuation k = true /\ (c < 128 -> k = [] /\ l = ascii_of_N c).
Proof.
  intros c Hc. apply scalar_small in Hc. unfold utf8_char.
  destruct (N.ltb_spec c 128); [|destruct (N.ltb_spec c 2048); [|destruct (N.ltb_spec c 65536)]]; cbn [map]; do 2 eexists; (split; [reflexivity|]).
  - split; [apply lead_of; nlia|]. split; [reflexivity|]. auto.
  - assert (c / 64 < 32) by (apply N.div_lt_upper_bound; lia). pose proof (N.mod_lt c 64 ltac:(lia)).
    split; [apply lead_of; nlia|]. split; [cbn [forallb]; rewrite cont_of by nlia; reflexivity|nlia].
  - assert (c / 4096 < 16) by (apply N.div_lt_upper_bound; lia). pose proof (N.mod_lt c 64 ltac:(lia)). pose proof (N.mod_lt (c / 64) 64 ltac:(lia)).
    split; [apply lead_of; nlia|]. split; [cbn [forallb]; rewrite !cont_of by nlia; reflexivity|nlia].
  - assert (c / 262144 < 5) by (apply N.div_lt_upper_bound; lia). pose proof (N.mod_lt c 64 ltac:(lia)). pose proof (N.mod_lt (c / 64) 64 ltac:(lia)).
    pose proof (N.mod_lt (c / 4096) 64 ltac:(lia)).
    split; [apply lead_of; nlia|]. split; [cbn [forallb]; rewrite !cont_of by nlia; reflexivity|nlia].
Qed.

Lemma utf8_app : forall a b, utf8 (a ++ b) = (utf8 a ++ utf8 b)%list.
Proof. intros. apply flat_map_app. Qed.

Lemma wf_nil : well_formed [].
Proof. exists []. split; [constructor|reflexivity]. Qed.

Lemma wf_app : forall a b, well_formed a -> well_formed b -> well_formed (a ++ b).
Proof.
  intros a b (x & Hx & ->) (y & Hy & ->). exists (x ++ y)%list. split; [apply Forall_app; auto|]. rewrite utf8_app. reflexivity.
Qed.

(** A text cut in front of a byte that is no continuation byte is cut between characters. *)
Lemma wf_cut : forall a b, well_formed (a ++ b) -> match b with [] => True | c :: _ => continuation c = false end ->
  well_formed a /\ well_formed b.
Proof.
  intros a b (cs & Hcs & He) Hb. revert a He. induction cs as [|c cs IH]; intros a He.
  - cbn in He. apply app_eq_nil in He. destruct He as [-> ->]. split; apply wf_nil.
  - inversion Hcs as [|? ? Hc Hcs']; subst. specialize (IH Hcs'). destruct a as [|x a].
    + split; [apply wf_nil|]. exists (c :: cs). split; [exact Hcs|exact He].
    + change (utf8 (c :: cs)) with (map ascii_of_N (utf8_char c) ++ utf8 cs)%list in He.
      destruct (char_shape c Hc) as (l & k & Hk & _ & Hcont & _). rewrite Hk in He. cbn [app] in He. injection He as -> He.
      assert (Hsplit : exists a', a = (k ++ a')%list /\ (a' ++ b)%list = utf8 cs).
      { clear - He Hb Hcont. revert a He. induction k as [|y k IH]; intros a He.
        - exists a. auto.
        - cbn in Hcont. apply andb_prop in Hcont. destruct Hcont as [Hy Hk]. destruct a as [|z a].
          + cbn [app] in He. destruct b as [|w b]; [discriminate|]. injection He as -> _. congruence.
          + cbn [app] in He. injection He as -> He. destruct (IH Hk a He) as (a' & -> & Ha'). exists a'. auto. }
      destruct Hsplit as (a' & -> & Ha'). destruct (IH a' Ha') as [H1 H2]. split; [|exact H2].
      change (l :: (k ++ a'))%list with ((l :: k) ++ a')%list. apply wf_app; [|exact H1].
      exists [c]. split; [constructor; auto|]. cbn [utf8 flat_map]. rewrite Hk, app_nil_r. reflexivity.
Qed.

Lemma ascii_lead : forall a, is_ascii a = true -> continuation a = false.
Proof. intros a H. unfold is_ascii, continuation in *. apply N.ltb_lt in H. destruct (N.leb_spec 128 (N_of_ascii a)); [nlia|reflexivity]. Qed.

Lemma wf_ascii : forall s, forallb is_ascii s = true -> well_formed s.
Proof.
  induction s as [|a s IH]; intros H; [apply wf_nil|]. cbn in H. apply andb_prop in H. destruct H as [Ha Hs].
  change (a :: s) with ([a] ++ s)%list. apply wf_app; [|auto]. unfold is_ascii in Ha. apply N.ltb_lt in Ha.
  exists [N_of_ascii a]. split; [constructor; [left; nlia|constructor]|]. unfold utf8, utf8_char. cbn [flat_map]. apply N.ltb_lt in Ha. rewrite Ha.
  cbn. rewrite ascii_N_embedding. reflexivity.
Qed.

Lemma cons_inv : forall A (x y : A) a b, x :: a = y :: b -> x = y /\ a = b.
Proof. intros A x y a b H. injection H. auto. Qed.

Ltac conses := repeat match goal with H : _ :: _ = _ :: _ |- _ => apply cons_inv in H; destruct H end.

(** Around an ASCII character both sides are well-formed. *)
Lemma wf_split : forall a c b, is_ascii c = true -> well_formed (a ++ c :: b) -> well_formed a /\ well_formed b.
Proof.
  intros a c b Hc H. destruct (wf_cut a (c :: b) H (ascii_lead c Hc)) as [Ha Hb]. split; [exact Ha|].
  destruct Hb as (cs & Hcs & He). destruct cs as [|x cs]; [discriminate|]. inversion Hcs as [|? ? Hx Hcs']; subst.
  change (utf8 (x :: cs)) with (map ascii_of_N (utf8_char x) ++ utf8 cs)%list in He.
  assert (Hx1 : x < 128).
  { destruct (N.ltb_spec x 128) as [|Hge]; [assumption|]. exfalso. pose proof (scalar_small x Hx). unfold utf8_char in He. unfold is_ascii in Hc. apply N.ltb_lt in Hc.
    destruct (N.ltb_spec x 128); [nlia|]. destruct (N.ltb_spec x 2048); [|destruct (N.ltb_spec x 65536)]; cbn [map app] in He; apply cons_inv in He; destruct He as [He _]; rewrite He in Hc.
    - assert (x / 64 < 32) by (apply N.div_lt_upper_bound; lia). rewrite n_of in Hc by nlia. nlia.
    - assert (x / 4096 < 16) by (apply N.div_lt_upper_bound; lia). rewrite n_of in Hc by nlia. nlia.
    - assert (x / 262144 < 5) by (apply N.div_lt_upper_bound; lia). rewrite n_of in Hc by nlia. nlia. }
  destruct (char_shape x Hx) as (l & k & Hk & _ & _ & Hs). destruct (Hs Hx1) as [-> _]. rewrite Hk in He. cbn [app] in He.
  injection He as _ ->. exists cs. auto.
Qed.

(** Different characters are written differently, and none is the beginning of another. *)
Lemma char_prefix : forall c d x y, scalar c -> scalar d -> (utf8_char c ++ x = utf8_char d ++ y)%list -> c = d /\ x = y.
Proof.
  intros c d x y Hc Hd. apply scalar_small in Hc. apply scalar_small in Hd. unfold utf8_char.
  assert (M : forall a b, b <> 0 -> a = b * (a / b) + a mod b) by (intros; apply N.div_mod; assumption).
  assert (L : forall a b, b <> 0 -> a mod b < b) by (intros; apply N.mod_lt; assumption).
  assert (D1 : forall a, a / 4096 = a / 64 / 64) by (intros; rewrite N.div_div by nlia; reflexivity).
  assert (D2 : forall a, a / 262144 = a / 4096 / 64) by (intros; rewrite N.div_div by nlia; reflexivity).
  assert (U1 : forall a, a < 2048 -> a / 64 < 32) by (intros; apply N.div_lt_upper_bound; lia).
  assert (U2 : forall a, a < 65536 -> a / 4096 < 16) by (intros; apply N.div_lt_upper_bound; lia).
  assert (U3 : forall a, a < 1114112 -> a / 262144 < 5) by (intros; apply N.div_lt_upper_bound; lia).
  pose proof (M c 64 ltac:(lia)). pose proof (M (c / 64) 64 ltac:(lia)). pose proof (M (c / 4096) 64 ltac:(lia)).
  pose proof (M d 64 ltac:(lia)). pose proof (M (d / 64) 64 ltac:(lia)). pose proof (M (d / 4096) 64 ltac:(lia)).
  pose proof (U1 c). pose proof (U2 c). pose proof (U3 c). pose proof (U1 d). pose proof (U2 d). pose proof (U3 d).
  pose proof (D1 c). pose proof (D2 c). pose proof (D1 d). pose proof (D2 d). clear M L D1 D2 U1 U2 U3.
  destruct (N.ltb_spec c 128); [|destruct (N.ltb_spec c 2048); [|destruct (N.ltb_spec c 65536)]];
  (destruct (N.ltb_spec d 128); [|destruct (N.ltb_spec d 2048); [|destruct (N.ltb_spec d 65536)]]);
  cbn [app]; intros E; conses; first [exfalso; nlia|split; [nlia|assumption]].
Qed.

Lemma utf8_bytes : forall cs, utf8 cs = map ascii_of_N (flat_map utf8_char cs).
Proof. induction cs as [|c cs IH]; [reflexivity|]. cbn [utf8 flat_map]. rewrite map_app. f_equal. exact IH. Qed.

Lemma bytes_small : forall c, scalar c -> Forall (fun n => n < 256) (utf8_char c).
Proof.
  intros c Hc. apply scalar_small in Hc. unfold utf8_char.
  destruct (N.ltb_spec c 128); [|destruct (N.ltb_spec c 2048); [|destruct (N.ltb_spec c 65536)]]; repeat constructor; try nlia.
  - assert (c / 64 < 32) by (apply N.div_lt_upper_bound; lia). nlia.
  - pose proof (N.mod_lt c 64 ltac:(lia)). nlia.
  - assert (c / 4096 < 16) by (apply N.div_lt_upper_bound; lia). nlia.
  - pose proof (N.mod_lt (c / 64) 64 ltac:(lia)). nlia.
  - pose proof (N.mod_lt c 64 ltac:(lia)). nlia.
  - assert (c / 262144 < 5) by (apply N.div_lt_upper_bound; lia). nlia.
  - pose proof (N.mod_lt (c / 4096) 64 ltac:(lia)). nlia.
  - pose proof (N.mod_lt (c / 64) 64 ltac:(lia)). nlia.
  - pose proof (N.mod_lt c 64 ltac:(lia)). nlia.
Qed.

Lemma map_ascii_inj : forall a b, Forall (fun n => n < 256) a -> Forall (fun n => n < 256) b ->
  map ascii_of_N a = map ascii_of_N b -> a = b.
Proof.
  induction a as [|x a IH]; intros [|y b] Ha Hb H; try discriminate; [reflexivity|].
  inversion Ha; inversion Hb; subst. cbn in H. injection H as He Ht. f_equal; [|apply IH; auto].
  apply (f_equal N_of_ascii) in He. rewrite !n_of in He by assumption. exact He.
Qed.

Lemma utf8_inj : forall a b, Forall scalar a -> Forall scalar b -> utf8 a = utf8 b -> a = b.
Proof.
  intros a b Ha Hb H. rewrite !utf8_bytes in H.
  assert (S : forall l, Forall scalar l -> Forall (fun n => n < 256) (flat_map utf8_char l)).
  { induction l as [|c l IH]; intros Hl; [constructor|]. inversion Hl; subst. cbn. apply Forall_app. split; [apply bytes_small; auto|auto]. }
  apply map_ascii_inj in H; auto. revert b Hb H. induction a as [|c a IH]; intros [|d b] Hb H.
  - reflexivity.
  - exfalso. cbn in H. symmetry in H. apply app_eq_nil in H. destruct H as [H _]. unfold utf8_char in H.
    destruct (d <? 128), (d <? 2048), (d <? 65536); discriminate.
  - exfalso. cbn in H. apply app_eq_nil in H. destruct H as [H _]. unfold utf8_char in H.
    destruct (c <? 128), (c <? 2048), (c <? 65536); discriminate.
  - inversion Ha as [|? ? Hc Ha']; inversion Hb as [|? ? Hd Hb']; subst. cbn [flat_map] in H. destruct (char_prefix c d _ _ Hc Hd H) as [-> H']. f_equal. auto.
Qed.

Lemma utf16_inj : forall a b, Forall scalar a -> Forall scalar b -> utf16 a = utf16 b -> a = b.
Proof.
  induction a as [|c a IH]; intros [|d b] Ha Hb H.
  - reflexivity.
  - exfalso. cbn in H. unfold utf16_char in H. destruct (d <? 65536); discriminate.
  - exfalso. cbn in H. unfold utf16_char in H. destruct (c <? 65536); discriminate.
  - inversion Ha as [|? ? Hc Ha']; inversion Hb as [|? ? Hd Hb']; subst. cbn [utf16 flat_map] in H. fold (utf16 a) in H. fold (utf16 b) in H.
    unfold scalar in Hc, Hd.
    assert (U : forall x, x < 1114112 -> (x - 65536) / 1024 < 1024) by (intros; apply N.div_lt_upper_bound; lia).
    pose proof (N.div_mod (c - 65536) 1024 ltac:(lia)). pose proof (N.div_mod (d - 65536) 1024 ltac:(lia)).
    pose proof (U c). pose proof (U d). clear U.
    unfold utf16_char in H. destruct (N.ltb_spec c 65536), (N.ltb_spec d 65536); cbn [app] in H; conses;
      first [exfalso; nlia|f_equal; [nlia|apply IH; auto]].
Qed.
