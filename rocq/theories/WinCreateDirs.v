(** C82: create_directories on Windows.
    Sources: src/fs_ops.cpp:630-710 with ASAP_WINDOWS defined. *)
From Coq Require Import Ascii String Bool Arith NArith ZArith Lia List.
From Verif Require Import Str PathModel PathSpec StrProofs PathProofs PathOps WinPathProps WinPlace WinAppend WinNormal WinDrive WinPermsModel FlagsModel TimeModel WinStatModel WinStatProps WinOpsModel WinOpsProps.
From Verif Require WinRemoveTree.
Import ListNotations.
Local Open Scope N_scope.

(** * Paths made of a root and names *)

Section Paths.
Variable E : elision.

(** The root of the paths considered: nothing or a drive. *)
Definition local_root (rn : str) : Prop := rn = [] \/ exists a, rn = [a; colon] /\ is_wsep a = false.

Definition form (rn : str) (d : bool) (ns : list str) : path :=
  Path (ctext rn d ns false) (rootcs rn d ++ ntok (base rn d) ns) MULTI.

Definition rep (rn : str) (d : bool) (ns : list str) (p : path) : Prop :=
  p = split_components Windows (ctext rn d ns false) \/ (ctext rn d ns false = [] /\ p = path_default) \/
  (ctext rn d ns false <> [] /\ p = form rn d ns).

Lemma local_ok : forall rn d ns, local_root rn -> Forall proper ns -> ctext_ok rn d ns.
Proof.
  intros rn d ns Hr Hp. split; [destruct Hr as [Hr|Hr]; [left; exact Hr|right; left; exact Hr]|]. split; [apply propers_wnames; exact Hp|]. split.
  - intros _ _ n Hn. destruct ns as [|n0 r]; [discriminate|]. injection Hn as ->. inversion Hp as [|? ? (_ & _ & Hc) _]; subst.
    unfold no_drive. destruct n as [|? [|b ?]]; trivial. intros ->. apply Hc. right. left. reflexivity.
  - destruct Hr as [->|(a & -> & Ha)]; [discriminate|]. cbn. rewrite Ha. discriminate.
Qed.

Lemma rep_native : forall rn d ns p, local_root rn -> Forall proper ns -> rep rn d ns p -> native p = ctext rn d ns false.
Proof. intros rn d ns p Hr Hp [->|[[-> ->]|[_ ->]]]; [|reflexivity|reflexivity]. apply ctext_native. apply local_ok; assumption. Qed.

Lemma split_form : forall rn d ns, local_root rn -> Forall proper ns -> ctext rn d ns false <> [] -> split_components Windows (ctext rn d ns false) = trim (form rn d ns).
Proof.
  intros rn d ns Hr Hp Hn. rewrite split_ctext; [|apply local_ok; assumption|exact Hn]. unfold nfc, form. cbn [andb]. rewrite app_nil_r. reflexivity.
Qed.

Lemma last_no_backslash : forall t x, wname x -> match last (map Some (t ++ x)) None with Some c => Ascii.eqb c (preferred_separator Windows) | None => false end = false.
Proof.
  intros t x [Hx Hw]. destruct x as [|c x _] using rev_ind; [congruence|]. rewrite app_assoc, last_map_some.
  destruct (Ascii.eqb_spec c (preferred_separator Windows)) as [->|]; [|reflexivity]. exfalso. unfold wplain in Hw. rewrite forallb_app in Hw. cbn in Hw. rewrite andb_false_r in Hw. discriminate.
Qed.

Lemma ctext_nonempty : forall rn d ns x, proper x -> ctext rn d (ns ++ [x]) false <> [].
Proof.
  intros rn d ns x (Hx & _). rewrite <- ctext_snoc. intros K. apply app_eq_nil in K. destruct K. contradiction.
Qed.

Lemma rep_filename : forall rn d ns x p, local_root rn -> Forall proper (ns ++ [x]) -> rep rn d (ns ++ [x]) p ->
  has_filename Windows p = Ok true /\ exists q, filename Windows p = Ok q /\ native q = x.
Proof.
  intros rn d ns x p Hr Hp HR. assert (Hx : proper x) by (apply Forall_app in Hp; destruct Hp as [_ Hp]; inversion Hp; assumption).
  assert (H : exists q, filename Windows p = Ok q /\ native q = x).
  { destruct HR as [->|[[K _]|[_ ->]]].
    - apply (Rep_filename rn d (rev ns) x); cbn [rev]; rewrite rev_involutive; [apply local_ok; assumption|left; reflexivity].
    - exfalso. exact (ctext_nonempty rn d ns x Hx K).
    - unfold form, filename, empty. cbn [pathname ptyp comps].
      assert (is_nil (ctext rn d (ns ++ [x]) false) = false) as -> by (pose proof (ctext_nonempty rn d ns x Hx); destruct (ctext rn d (ns ++ [x]) false); [congruence|reflexivity]).
      rewrite <- ctext_snoc, last_no_backslash by (apply proper_wname; exact Hx). destruct (ntok_snoc ns x (base rn d)) as (o & Ho & _). rewrite Ho, app_assoc, last_map_some.
      cbn [c_type ptype_eqb]. eexists. split; [reflexivity|]. reflexivity. }
  split; [|exact H]. destruct H as (q & Hq & Hn). unfold has_filename. rewrite Hq. cbn [bind]. unfold empty. unfold native in Hn. rewrite Hn. destruct Hx as (Hx & _). destruct x; [congruence|reflexivity].
Qed.

Lemma rep_no_filename : forall rn d p, local_root rn -> rep rn d [] p -> has_filename Windows p = Ok false.
Proof.
  intros rn d p Hr [->|[[Hn ->]|[Hn ->]]].
  - pose proof (Rep_has_filename rn d [] false _ (local_ok rn d [] Hr (Forall_nil _)) (or_introl eq_refl)) as K. exact K.
  - reflexivity.
  - pose proof (multi_has_filename rn d [] false 0 (local_ok rn d [] Hr (Forall_nil _)) Hn (or_introl eq_refl)) as K. unfold nfc in K. cbn [is_nil negb andb] in K. unfold form. exact K.
Qed.

Lemma root_comps_local : forall rn d rest, local_root rn -> wstarts rest = d -> root_comps rn rest = rootcs rn d.
Proof.
  intros rn d rest Hr Hs. unfold root_comps, rootcs. rewrite Hs. destruct Hr as [->|(a & -> & Ha)]; [reflexivity|]. cbn [is_nil preferred map].
  rewrite (plain_nosep a Ha). reflexivity.
Qed.

Lemma rebuild_form : forall rn d ns, local_root rn -> Forall proper ns -> rebuild Windows (rootcs rn d ++ ntok (base rn d) ns) [] = ctext rn d ns false.
Proof.
  intros rn d ns Hr Hp. pose proof (local_ok rn d ns Hr Hp) as Hok. destruct (ctext_root rn d ns false Hok) as (rest & Hs & _ & Hst & Hn & _).
  rewrite <- (root_comps_local rn d rest Hr Hst), (rebuild_root _ rn rest (ntok (base rn d) ns) Hs); rewrite ?ntok_strs.
  - unfold parent_text, ctext. rewrite Hst. assert (host_root rn = false) as -> by (destruct Hr as [->|(a & -> & Ha)]; [reflexivity|apply no_host; exact Ha]).
    assert (preferred rn = rn) as -> by (destruct Hr as [->|(a & -> & Ha)]; [reflexivity|cbn [preferred map]; rewrite (plain_nosep a Ha); reflexivity]).
    cbn [andb]. rewrite app_nil_r. reflexivity.
  - intros K. rewrite Hn. intros ->. apply K. reflexivity.
  - apply propers_wnames. exact Hp.
  - eapply Forall_impl; [|exact Hp]. apply plain_colon.
  - destruct Hr as [->|(a & -> & Ha)]; [discriminate|rewrite (no_host a Ha); discriminate].
Qed.

Lemma form_parent : forall rn d ns x, local_root rn -> Forall proper (ns ++ [x]) -> exists q,
  parent_path Windows E (form rn d (ns ++ [x])) = Ok q /\ rep rn d ns q.
Proof.
  intros rn d ns x Hr Hp. pose proof Hp as Hp'. apply Forall_app in Hp'. destruct Hp' as [Hps Hx]. inversion Hx as [|? ? Hx1 _]; subst.
  unfold parent_path. pose proof (multi_has_relative E rn d (ns ++ [x]) false 0 (local_ok _ d _ Hr Hp) (ctext_nonempty rn d ns x Hx1)) as K.
  unfold nfc in K. cbn [andb] in K. rewrite app_nil_r in K. fold (form rn d (ns ++ [x])) in K. rewrite K. cbn [bind].
  assert (is_nil (ns ++ [x]) = false) as -> by (destruct ns; reflexivity). cbn [negb].
  unfold form. cbn [ptyp comps]. destruct (ntok_snoc ns x (base rn d)) as (o & Ho & _). rewrite Ho, app_assoc. unfold drop_end. rewrite rev_app_distr. cbn [rev app c_str].
  assert (is_nil x = false) as -> by (destruct Hx1 as [Hx1 _]; destruct x; [congruence|reflexivity]). rewrite rev_involutive. cbn [bind].
  rewrite (rebuild_form rn d ns Hr Hps). eexists. split; [reflexivity|]. unfold fin. destruct (el_parent E).
  - destruct (ctext rn d ns false) as [|c t] eqn:Ec.
    + right. left. split; [exact Ec|]. destruct (nil_parts _ _ _ _ (local_ok rn d ns Hr Hps) Ec) as (-> & -> & ->). reflexivity.
    + right. right. rewrite Ec. split; [discriminate|]. unfold form. rewrite Ec. reflexivity.
  - left. reflexivity.
Qed.

Lemma rep_parent : forall rn d ns x p, local_root rn -> Forall proper (ns ++ [x]) -> rep rn d (ns ++ [x]) p -> exists q,
  parent_path Windows E p = Ok q /\ rep rn d ns q.
Proof.
  intros rn d ns x p Hr Hp HR. assert (Hx : proper x) by (apply Forall_app in Hp; destruct Hp as [_ Hp']; inversion Hp'; assumption).
  destruct HR as [->|[[K _]|[_ ->]]]; [|exfalso; exact (ctext_nonempty rn d ns x Hx K)|apply form_parent; assumption].
  pose proof (Rep_has_relative E rn d (ns ++ [x]) false _ (local_ok rn d _ Hr Hp) (or_introl eq_refl)) as Hrel. revert Hrel.
  rewrite (split_form rn d (ns ++ [x]) Hr Hp (ctext_nonempty rn d ns x Hx)).
  unfold trim. destruct (comps (form rn d (ns ++ [x]))) as [|c [|c1 cs]] eqn:Ec; intros Hrel; [apply form_parent; assumption| |apply form_parent; assumption].
  destruct (ntok_snoc ns x (base rn d)) as (o & Ho & _). cbn [form comps] in Ec. rewrite Ho, app_assoc in Ec.
  assert (Hpre : rootcs rn d ++ ntok (base rn d) ns = []) by (destruct (rootcs rn d ++ ntok (base rn d) ns); [reflexivity|destruct l; discriminate]).
  rewrite Hpre in Ec. injection Ec as <-. destruct (pre_nil _ _ _ Hpre) as (-> & -> & ->). cbn [c_str c_type app].
  cbn [c_str c_type app is_nil negb] in Hrel. unfold parent_path. rewrite Hrel.
  cbn [bind negb ptyp]. eexists. split; [reflexivity|]. right. left. split; reflexivity.
Qed.

End Paths.

(** * Specification *)

Definition dotted (x : str) : Prop := x = lit "." \/ x = lit "..".

(** What is found under a name. *)
Inductive node := Dir | Doc.

(** What status sees of a thing: 2 and 3 are ERROR_FILE_NOT_FOUND and ERROR_PATH_NOT_FOUND. *)
Definition looks (i : winfo) (v : option node) : Prop :=
  match v with
  | None => w_attrs i = inl 2 \/ w_attrs i = inl 3
  | Some n => readable (w_security i) /\ exists attr, w_attrs i = inr attr /\ is_reparse attr = false /\
                is_dir attr = match n with Dir => true | Doc => false end
  end.

(** A system with directories. [view s a ns] is what is at the place [ns] of the drive [a] in the state [s]. [start rn d] is the place
    a text leads to that has the root name [rn] (none or a drive) and no name; [d] tells whether a separator follows: the current directory, that of a drive, or a root.
    A text leads from there along its names, "." and ".." being taken away from the text as Windows does. A directory is created where the parent is
    one and nothing is there, or the system refuses with a code other than ERROR_ALREADY_EXISTS. *)
Record folders {S} (h : wkernel S) (view : S -> ascii -> list str -> option node) (start : str -> bool -> ascii * list str) : Prop := {
  fo_info : forall s rn d ns, local_root rn -> Forall proper ns -> exists i,
    h (w_Info (ctext rn d ns false)) s = (i, s) /\ looks i (view s (fst (start rn d)) (PathSpec.walk (snd (start rn d)) ns));
  fo_create : forall s rn d ns x, local_root rn -> Forall proper (ns ++ [x]) -> ~ dotted x ->
    view s (fst (start rn d)) (PathSpec.walk (snd (start rn d)) ns) = Some Dir ->
    view s (fst (start rn d)) (PathSpec.walk (snd (start rn d)) (ns ++ [x])) = None ->
    (exists s', h (w_CreateDirectory (ctext rn d (ns ++ [x]) false)) s = (inr tt, s') /\
       forall b ms, view s' b ms = Some Dir /\ b = fst (start rn d) /\ ms = PathSpec.walk (snd (start rn d)) (ns ++ [x]) \/
                    view s' b ms = view s b ms /\ ~ (b = fst (start rn d) /\ ms = PathSpec.walk (snd (start rn d)) (ns ++ [x]))) \/
    (exists e, h (w_CreateDirectory (ctext rn d (ns ++ [x]) false)) s = (inl e, s) /\ e <> 0 /\ e <> 183) }.

(** * Proofs *)

Definition is_dotted (x : str) : bool := str_eqb x (lit ".") || str_eqb x (lit "..").

Lemma dotted_spec : forall x, is_dotted x = true <-> dotted x.
Proof. intros x. unfold is_dotted, dotted. rewrite orb_true_iff, !str_eqb_spec. tauto. Qed.

(** The texts put on the stack, top first. *)
Fixpoint texts (rn : str) (d : bool) (P l : list str) : list str :=
  match l with
  | [] => []
  | x :: r => (if is_dotted x then [] else [ctext rn d (P ++ [x]) false]) ++ texts rn d (P ++ [x]) r
  end.

Lemma texts_snoc : forall rn d l P x, texts rn d P (l ++ [x]) = texts rn d P l ++ (if is_dotted x then [] else [ctext rn d (P ++ l ++ [x]) false]).
Proof.
  intros rn d l. induction l as [|y l IH]; intros P x; cbn [texts app].
  - rewrite app_nil_r. reflexivity.
  - rewrite IH, <- !app_assoc. reflexivity.
Qed.

Lemma dots_native : forall q x, native q = x -> is_dot q || is_dotdot q = is_dotted x.
Proof.
  intros q x H. apply eq_true_iff_eq. unfold is_dot, is_dotdot, is_dotted. rewrite H, !orb_true_iff, !str_eqb_spec. change dot with "."%char. split.
  - intros [K|K].
    + destruct x as [|c [|? ?]]; try discriminate. apply Ascii.eqb_eq in K. subst c. left. reflexivity.
    + destruct x as [|c [|c2 [|? ?]]]; try discriminate. apply andb_prop in K. destruct K as [K1 K2]. apply Ascii.eqb_eq in K1, K2. subst. right. reflexivity.
  - intros [-> | ->]; [left|right]; reflexivity.
Qed.

Section Runs.
Variable E : elision.
Variable dbg : bool.

Lemma push_spec : forall rn d ns n pp M, local_root rn -> Forall proper ns -> rep rn d ns pp -> (length ns < n)%nat ->
  exists L, wpush_missing E n pp M = wret (L ++ M) 0 /\ map native L = texts rn d [] ns.
Proof.
  intros rn d ns. induction ns as [|x ns IH] using rev_ind; intros n pp M Hr Hp HR Hn; (destruct n as [|n]; [cbn in Hn; lia|]); cbn [wpush_missing].
  - rewrite (rep_no_filename rn d pp Hr HR). cbn [wlift negb]. exists []. split; reflexivity.
  - destruct (rep_filename rn d ns x pp Hr Hp HR) as (Hhf & q & Hq & Hqn). rewrite Hhf. cbn [wlift negb]. rewrite Hq. cbn [wlift].
    destruct (rep_parent E rn d ns x pp Hr Hp HR) as (up & Hup & HRu). rewrite Hup. cbn [wlift]. rewrite (dots_native q x Hqn).
    assert (Hps : Forall proper ns) by (apply Forall_app in Hp; apply Hp). rewrite app_length in Hn. cbn in Hn.
    destruct (IH n up (if is_dotted x then M else pp :: M) Hr Hps HRu ltac:(lia)) as (L & HL & HLn). rewrite HL.
    rewrite texts_snoc, <- HLn. destruct (is_dotted x).
    + exists L. rewrite app_nil_r. split; reflexivity.
    + exists (L ++ [pp]). rewrite <- app_assoc. split; [reflexivity|]. rewrite map_app. cbn [map app]. rewrite (rep_native rn d (ns ++ [x]) pp Hr Hp HR). reflexivity.
Qed.

Lemma looks_absent : forall i has, looks i None -> exists st e, wstatus_impl dbg has i = WRet st e /\ wis ft_not_found st = true /\ wis ft_directory st = false.
Proof.
  intros i has H. unfold wstatus_impl. destruct H as [-> | ->]; (rewrite cap by discriminate); destruct has; do 2 eexists; split; (reflexivity || split; reflexivity).
Qed.

Lemma looks_there : forall i v, looks i (Some v) -> exists st, wstatus_impl dbg true i = WRet st 0 /\ wis ft_not_found st = false.
Proof.
  intros i v (Hr & attr & Ha & Hrp & Hd). unfold wstatus_impl. rewrite Ha, reparse_attr, Hrp. unfold with_permissions.
  destruct (readable_permissions dbg true (w_security i) attr Hr) as [pr ->]. change (0 =? 0) with true. cbv iota.
  unfold directory_or_regular. rewrite dir_attr, Hd. destruct v; eexists; split; reflexivity.
Qed.

Lemma walk_snoc : forall b P x, ~ dotted x -> PathSpec.walk b (P ++ [x]) = PathSpec.walk b P ++ [x].
Proof.
  intros b P x H. unfold PathSpec.walk. rewrite fold_left_app. cbn [fold_left]. unfold walk1.
  destruct (str_eqb x (lit ".")) eqn:E1; [exfalso; apply H; left; apply str_eqb_spec; exact E1|].
  destruct (str_eqb x (lit "..")) eqn:E2; [exfalso; apply H; right; apply str_eqb_spec; exact E2|]. reflexivity.
Qed.

Lemma walk_dotted : forall b P x, dotted x -> exists t, PathSpec.walk b P = PathSpec.walk b (P ++ [x]) ++ t.
Proof.
  intros b P x H. unfold PathSpec.walk at 2. rewrite fold_left_app. cbn [fold_left]. fold (PathSpec.walk b P). unfold walk1. destruct H as [-> | ->].
  - exists []. rewrite app_nil_r. reflexivity.
  - change (str_eqb (lit "..") (lit ".")) with false. change (str_eqb (lit "..") (lit "..")) with true. cbv iota.
    destruct (PathSpec.walk b P) as [|y Q _] using rev_ind; [exists []; reflexivity|]. rewrite removelast_last. exists [y]. reflexivity.
Qed.

Section Tree.
Variable S : Type.
Variable h : wkernel S.
Variable view : S -> ascii -> list str -> option node.
Variable start : str -> bool -> ascii * list str.
Hypothesis Hf : folders h view start.
Variable rn : str.
Variable d : bool.
Hypothesis Hr : local_root rn.

Let a := fst (start rn d).
Let b := snd (start rn d).

Lemma create_spec : forall has l P M s c, Forall proper (P ++ l) -> map native M = texts rn d P l ->
  (forall u v, PathSpec.walk b P = u ++ v -> view s a u = Some Dir) ->
  (forall pre suf, l = pre ++ suf -> view s a (PathSpec.walk b (P ++ pre)) <> Some Doc) ->
  (exists c' s', wrun h (wcreate_missing dbg has M c) s = (WE (WRet c' 0), s') /\
     (c' = c /\ s' = s \/ c' = true /\ exists pre suf, l = pre ++ suf /\ view s a (PathSpec.walk b (P ++ pre)) = None) /\
     (forall pre suf, l = pre ++ suf -> view s' a (PathSpec.walk b (P ++ pre)) = Some Dir) /\
     (forall k ms, view s' k ms = view s k ms \/
        view s k ms = None /\ view s' k ms = Some Dir /\ k = a /\ exists pre suf, l = pre ++ suf /\ ms = PathSpec.walk b (P ++ pre))) \/
  (exists e s' pre x suf, wrun h (wcreate_missing dbg has M c) s = (told has false e, s') /\ e <> 0 /\ l = pre ++ x :: suf /\
     h (w_CreateDirectory (ctext rn d (P ++ pre ++ [x]) false)) s' = (inl e, s') /\ view s' a (PathSpec.walk b (P ++ pre ++ [x])) = None /\
     (forall k ms, view s' k ms = view s k ms \/
        view s k ms = None /\ view s' k ms = Some Dir /\ k = a /\ exists pre' suf', pre = pre' ++ suf' /\ ms = PathSpec.walk b (P ++ pre'))).
Proof.
  intros has l. induction l as [|x l IH]; intros P M s c Hp HM Hch Hdoc.
  - destruct M; [|discriminate]. cbn [wcreate_missing]. left. exists c, s. split; [reflexivity|]. split; [left; auto|]. split; [|intros k ms; left; reflexivity].
    intros pre suf K. symmetry in K. apply app_eq_nil in K. destruct K as [-> ->]. rewrite app_nil_r. apply (Hch _ []). rewrite app_nil_r. reflexivity.
  - assert (Hp' : Forall proper ((P ++ [x]) ++ l)) by (rewrite <- app_assoc; exact Hp).
    assert (Hpx : Forall proper (P ++ [x])) by (apply Forall_app in Hp'; apply Hp').
    assert (Hdir0 : view s a (PathSpec.walk b P) = Some Dir) by (apply (Hch _ []); rewrite app_nil_r; reflexivity).
    assert (Hdoc' : forall pre suf, l = pre ++ suf -> view s a (PathSpec.walk b ((P ++ [x]) ++ pre)) <> Some Doc).
    { intros pre suf ->. rewrite <- app_assoc. apply (Hdoc (x :: pre) suf). reflexivity. }
    cbn [texts] in HM. destruct (is_dotted x) eqn:Hx.
    + apply dotted_spec in Hx. cbn [app] in HM.
      assert (Hch' : forall u v, PathSpec.walk b (P ++ [x]) = u ++ v -> view s a u = Some Dir).
      { intros u v K. destruct (walk_dotted b P x Hx) as (t & Ht). apply (Hch u (v ++ t)). rewrite Ht, K, <- app_assoc. reflexivity. }
      destruct (IH (P ++ [x]) M s c Hp' HM Hch' Hdoc') as [(c' & s' & Hrun & Hc & Hall & Hfr)|(e & s' & pre & y & suf & Hrun & He & Hl & Hcr & Hv & Hfr)].
      * left. exists c', s'. split; [exact Hrun|]. split.
        { destruct Hc as [Hc|(Hc & pre & suf & -> & Hv)]; [left; exact Hc|]. right. split; [exact Hc|]. exists (x :: pre), suf. split; [reflexivity|]. rewrite <- app_assoc in Hv. exact Hv. }
        split.
        { intros [|y pre] suf K.
          - rewrite app_nil_r. destruct (Hfr a (PathSpec.walk b P)) as [->|(K2 & K3 & _)]; [exact Hdir0|exact K3].
          - cbn in K. injection K as <- ->. specialize (Hall pre suf eq_refl). rewrite <- app_assoc in Hall. exact Hall. }
        { intros k ms. destruct (Hfr k ms) as [K|(K1 & K2 & K3 & pre & suf & -> & ->)]; [left; exact K|]. right. split; [exact K1|]. split; [exact K2|]. split; [exact K3|].
          exists (x :: pre), suf. split; [reflexivity|]. rewrite <- app_assoc. reflexivity. }
      * right. exists e, s', (x :: pre), y, suf. rewrite <- app_assoc in Hcr, Hv. split; [exact Hrun|]. split; [exact He|]. split; [cbn; rewrite Hl; reflexivity|]. split; [exact Hcr|]. split; [exact Hv|].
        intros k ms. destruct (Hfr k ms) as [K|(K1 & K2 & K3 & pre' & suf' & -> & ->)]; [left; exact K|]. right. split; [exact K1|]. split; [exact K2|]. split; [exact K3|].
        exists (x :: pre'), suf'. split; [reflexivity|]. rewrite <- app_assoc. reflexivity.
    + assert (Hnd : ~ dotted x) by (intros K; apply dotted_spec in K; congruence).
      destruct M as [|top M]; [discriminate|]. cbn [map app] in HM. injection HM as Htop HM.
      destruct (fo_info _ _ _ Hf s rn d (P ++ [x]) Hr Hpx) as (i & Hi & Hlk). fold a b in Hlk.
      destruct (view s a (PathSpec.walk b (P ++ [x]))) as [v|] eqn:Hv.
      * destruct (looks_there i v Hlk) as (st & Hst & Hnf). 
        assert (Hgo : wrun h (wcreate_missing dbg has (top :: M) c) s = wrun h (wcreate_missing dbg has M c) s).
        { cbn [wcreate_missing]. unfold wstatus_of at 1. rewrite Htop. cbn [wbind wrun]. rewrite Hi. rewrite Hst. cbn [wbind]. rewrite Hnf. cbn [wret wbind]. change (negb (0 =? 0)) with false. cbn iota. cbn [wbind]. change (negb (0 =? 0)) with false. cbn iota. rewrite orb_false_r. reflexivity. }
        rewrite Hgo.
        assert (Hvd : v = Dir).
        { destruct v; [reflexivity|]. exfalso. apply (Hdoc [x] l eq_refl). exact Hv. }
        subst v.
        assert (Hch' : forall u v, PathSpec.walk b (P ++ [x]) = u ++ v -> view s a u = Some Dir).
        { intros u v K. rewrite walk_snoc in K, Hv by exact Hnd. destruct v as [|z v _] using rev_ind; [rewrite app_nil_r in K; subst u; exact Hv|].
          rewrite app_assoc in K. apply app_inj_tail in K. destruct K as [K _]. apply (Hch u v K). }
        destruct (IH (P ++ [x]) M s c Hp' HM Hch' Hdoc') as [(c' & s' & Hrun & Hc & Hall & Hfr)|(e & s' & pre & y & suf & Hrun & He & Hl & Hcr & Hv' & Hfr)].
        -- left. exists c', s'. split; [exact Hrun|]. split.
           { destruct Hc as [Hc|(Hc & pre & suf & -> & Hv')]; [left; exact Hc|]. right. split; [exact Hc|]. exists (x :: pre), suf. split; [reflexivity|]. rewrite <- app_assoc in Hv'. exact Hv'. }
           split.
           { intros [|y pre] suf K.
             - rewrite app_nil_r. destruct (Hfr a (PathSpec.walk b P)) as [->|(K2 & K3 & _)]; [exact Hdir0|exact K3].
             - cbn in K. injection K as <- ->. specialize (Hall pre suf eq_refl). rewrite <- app_assoc in Hall. exact Hall. }
           { intros k ms. destruct (Hfr k ms) as [K|(K1 & K2 & K3 & pre & suf & -> & ->)]; [left; exact K|]. right. split; [exact K1|]. split; [exact K2|]. split; [exact K3|].
             exists (x :: pre), suf. split; [reflexivity|]. rewrite <- app_assoc. reflexivity. }
        -- right. exists e, s', (x :: pre), y, suf. rewrite <- app_assoc in Hcr, Hv'. split; [exact Hrun|]. split; [exact He|]. split; [cbn; rewrite Hl; reflexivity|]. split; [exact Hcr|]. split; [exact Hv'|].
           intros k ms. destruct (Hfr k ms) as [K|(K1 & K2 & K3 & pre' & suf' & -> & ->)]; [left; exact K|]. right. split; [exact K1|]. split; [exact K2|]. split; [exact K3|].
           exists (x :: pre'), suf'. split; [reflexivity|]. rewrite <- app_assoc. reflexivity.
      * destruct (looks_absent i true Hlk) as (st & e0 & Hst & Hnf & _). 
        destruct (fo_create _ _ _ Hf s rn d P x Hr Hpx Hnd Hdir0 Hv) as [(s1 & Hmk & Hch1)|(e & Hmk & He & He2)]; [fold a b in Hch1|].
        -- assert (Hgo : wrun h (wcreate_missing dbg has (top :: M) c) s = wrun h (wcreate_missing dbg has M true) s1).
           { cbn [wcreate_missing]. unfold wstatus_of at 1. rewrite Htop. cbn [wbind wrun]. rewrite Hi. rewrite Hst. cbn [wbind]. rewrite Hnf. cbn iota. unfold wcreate_directory. rewrite Htop. cbn [wbind wrun]. rewrite Hmk. cbn [wret wbind]. change (negb (0 =? 0)) with false. cbn iota. cbn [wbind]. change (negb (0 =? 0)) with false. cbn iota. rewrite orb_true_r. reflexivity. }
           rewrite Hgo.
           assert (Hstep : forall k ms, view s1 k ms = view s k ms \/ view s k ms = None /\ view s1 k ms = Some Dir /\ k = a /\ ms = PathSpec.walk b (P ++ [x])).
           { intros k ms. destruct (Hch1 k ms) as [(K1 & -> & ->)|[K1 _]]; [right; auto|left; exact K1]. }
           assert (Hnew : view s1 a (PathSpec.walk b (P ++ [x])) = Some Dir).
           { destruct (Hch1 a (PathSpec.walk b (P ++ [x]))) as [(K1 & _)|[_ K1]]; [exact K1|]. exfalso. apply K1. auto. }
           assert (Hkeep : forall k ms, view s k ms = Some Dir -> view s1 k ms = Some Dir).
           { intros k ms K. destruct (Hstep k ms) as [->|(K1 & K2 & _)]; [exact K|exact K2]. }
           assert (Hch' : forall u v, PathSpec.walk b (P ++ [x]) = u ++ v -> view s1 a u = Some Dir).
           { intros u v K. pose proof Hnew as Hnew2. rewrite walk_snoc in K, Hnew2 by exact Hnd. destruct v as [|z v _] using rev_ind; [rewrite app_nil_r in K; subst u; exact Hnew2|].
             rewrite app_assoc in K. apply app_inj_tail in K. destruct K as [K _]. apply Hkeep. apply (Hch u v K). }
           assert (Hdoc1 : forall pre suf, l = pre ++ suf -> view s1 a (PathSpec.walk b ((P ++ [x]) ++ pre)) <> Some Doc).
           { intros pre suf K. destruct (Hstep a (PathSpec.walk b ((P ++ [x]) ++ pre))) as [->|(_ & -> & _)]; [apply (Hdoc' pre suf K)|discriminate]. }
           assert (Htrans : forall s' k ms (Q : Prop), (view s' k ms = view s1 k ms \/ view s1 k ms = None /\ view s' k ms = Some Dir /\ k = a /\ Q) ->
             (view s' k ms = view s k ms \/ view s k ms = None /\ view s' k ms = Some Dir /\ k = a /\ (Q \/ ms = PathSpec.walk b (P ++ [x])))).
           { intros s' k ms Q H. destruct (Hstep k ms) as [K|(K1 & K2 & K3 & K4)].
             - rewrite K in H. tauto.
             - rewrite K2 in H. destruct H as [H|[H _]]; [|discriminate]. right. rewrite H. tauto. }
           destruct (IH (P ++ [x]) M s1 true Hp' HM Hch' Hdoc1) as [(c' & s' & Hrun & Hc & Hall & Hfr)|(e & s' & pre & y & suf & Hrun & He & Hl & Hcr & Hv' & Hfr)].
           ++ left. exists c', s'. split; [exact Hrun|]. split.
              { right. split; [destruct Hc as [[Hc _]|[Hc _]]; exact Hc|]. exists [x], l. split; [reflexivity|exact Hv]. }
              split.
              { intros [|y pre] suf K.
                - rewrite app_nil_r. pose proof (Hkeep _ _ Hdir0) as K1. destruct (Hfr a (PathSpec.walk b P)) as [->|(K2 & K3 & _)]; [exact K1|exact K3].
                - cbn in K. injection K as <- ->. specialize (Hall pre suf eq_refl). rewrite <- app_assoc in Hall. exact Hall. }
              { intros k ms. destruct (Htrans s' k ms _ (Hfr k ms)) as [K|(K1 & K2 & K3 & K4)]; [left; exact K|]. right. split; [exact K1|]. split; [exact K2|]. split; [exact K3|].
                destruct K4 as [(pre & suf & -> & ->)| ->].
                - exists (x :: pre), suf. split; [reflexivity|]. rewrite <- app_assoc. reflexivity.
                - exists [x], l. split; reflexivity. }
           ++ right. exists e, s', (x :: pre), y, suf. rewrite <- app_assoc in Hcr, Hv'. split; [exact Hrun|]. split; [exact He|]. split; [cbn; rewrite Hl; reflexivity|]. split; [exact Hcr|]. split; [exact Hv'|].
              intros k ms. destruct (Htrans s' k ms _ (Hfr k ms)) as [K|(K1 & K2 & K3 & K4)]; [left; exact K|]. right. split; [exact K1|]. split; [exact K2|]. split; [exact K3|].
              destruct K4 as [(pre' & suf' & -> & ->)| ->].
              ** exists (x :: pre'), suf'. split; [reflexivity|]. rewrite <- app_assoc. reflexivity.
              ** exists [x], pre. split; reflexivity.
        -- right. exists e, s, [], x, l. split.
           { cbn [wcreate_missing]. unfold wstatus_of at 1. rewrite Htop. cbn [wbind wrun]. rewrite Hi. rewrite Hst. cbn [wbind]. rewrite Hnf. cbn iota. unfold wcreate_directory. rewrite Htop. cbn [wbind wrun]. rewrite Hmk. unfold ERROR_ALREADY_EXISTS. assert (e =? 183 = false) as -> by (apply N.eqb_neq; exact He2). cbn [negb].
           unfold wfail, wcapture, wreport. assert (e =? 0 = false) as He0 by (apply N.eqb_neq; exact He). rewrite He0, andb_false_r. cbn [wbind wret]. rewrite He0. cbn [negb].
           unfold wstatus_of. rewrite Htop. cbn [wbind wrun]. rewrite Hi. destruct (looks_absent i false Hlk) as (st2 & e2 & Hst2 & _ & Hd2). rewrite Hst2. cbn [wbind wret]. rewrite Hd2, He0. cbn [negb].
             reflexivity. }
           split; [exact He|]. split; [reflexivity|]. split; [exact Hmk|]. split; [exact Hv|]. intros k ms. left. reflexivity.
Qed.

End Tree.
End Runs.
