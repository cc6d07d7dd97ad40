(** C71: canonical on Windows.
    Sources: src/fs_ops.cpp:84-162 with ASAP_WINDOWS defined, src/windows/stat.cpp:110-146. *)
From Coq Require Import Ascii String Bool Arith NArith ZArith Lia List.
From Verif Require Import Str PathModel PathSpec StrProofs PathProofs PathOps WinPathProps WinPlace WinRelative WinAppend WinDrive WinPermsModel FlagsModel TimeModel WinStatModel WinStatProps WinOpsModel WinOpsProps.
From Verif Require WinRemoveTree.
Import ListNotations.
Local Open Scope N_scope.

(** * Specification *)

(** What there is at a place: a place is a drive and the names below its root directory. *)
Inductive thing := Folder | Plain | Link (target : str).
Definition world := ascii -> list str -> option thing.

(** Names with a colon are left out: they denote streams of a file. *)
Definition no_colon (n : str) : bool := negb (existsb (Ascii.eqb colon) n).

(** "C:\a\b": the drive and the names. *)
Definition full (t : str) : option (ascii * list str) :=
  match t with
  | a :: c :: s :: r =>
      if negb (is_wsep a) && Ascii.eqb c colon && is_wsep s && forallb no_colon (wnames r) then Some (a, wnames r) else None
  | _ => None
  end.

(** The text of a link in the directory [ns] of the drive [a]: where the way goes on, and the names to follow from there. *)
Definition goes_to (a : ascii) (ns : list str) (t : str) : option (ascii * list str * list str) :=
  match full t with
  | Some (b, steps) => Some (b, [], steps)
  | None => if negb (wstarts t) && forallb no_colon (wnames t) then Some (a, ns, wnames t) else None
  end.

(** Following names from a place, one after the other: "." needs a directory, ".." goes to the parent and stays at the root, links are
    followed. The last number counts the links. *)
Inductive walk (T : world) : ascii -> list str -> list str -> ascii -> list str -> nat -> Prop :=
| walk_done : forall a ns, walk T a ns [] a ns 0
| walk_here : forall a ns r b ms k, T a ns = Some Folder -> walk T a ns r b ms k -> walk T a ns (lit "." :: r) b ms k
| walk_up : forall a ns r b ms k, walk T a (removelast ns) r b ms k -> walk T a ns (lit ".." :: r) b ms k
| walk_down : forall a ns n r b ms k, n <> lit "." -> n <> lit ".." ->
    T a (ns ++ [n]) = Some Folder \/ T a (ns ++ [n]) = Some Plain ->
    walk T a (ns ++ [n]) r b ms k -> walk T a ns (n :: r) b ms k
| walk_link : forall a ns n r t c ls steps b ms k, n <> lit "." -> n <> lit ".." ->
    T a (ns ++ [n]) = Some (Link t) -> goes_to a ns t = Some (c, ls, steps) ->
    walk T c ls (steps ++ r) b ms k -> walk T a ns (n :: r) b ms (S k).

(** From which drive, and along which names, the text [t] leads when the current directory is [cwd]: "C:\a", "\a" or "a". Texts with a
    drive and no separator after it ("C:a") and hosts ("\\h\a") are left out. *)
Definition begins (cwd t : str) : option (ascii * list str) :=
  match full t with
  | Some x => Some x
  | None =>
      match full cwd with
      | Some (a, ns) =>
          if forallb no_colon (wnames t) then
            if wstarts t then (if wstarts (tl t) then None else Some (a, wnames t)) else Some (a, ns ++ wnames t)
          else None
      | None => None
      end
  end.

(** The text [t] as DeviceIoControl gives it for a symbolic link: two words of flags, and the print name at its offset, both in bytes
    (SymbolicLinkReparseBuffer). *)
Definition link_data (d : reparse_data) (t : str) : Prop :=
  exists f0 f1 before after, rp_words d = f0 :: f1 :: before ++ map N_of_ascii t ++ after /\
    rp_print_offset d = 2 * N.of_nat (length before) /\ rp_print_length d = 2 * N.of_nat (length t).

(** Windows shows the things of [T]. Of a thing it does not show it says so with a code other than ERROR_SHARING_VIOLATION. *)
Definition shows (ans : forall c, wanswer c) (T : world) : Prop :=
  forall a ns, is_wsep a = false -> Forall proper ns ->
  let i := ans (w_Info (wtext a ns)) in
  match T a ns with
  | None => exists e, w_attrs i = inl e /\ e <> 0 /\ e <> 32
  | Some o =>
      readable (w_security i) /\ exists attr, w_attrs i = inr attr /\
      match o with
      | Folder => is_reparse attr = false /\ is_dir attr = true
      | Plain => is_reparse attr = false /\ is_dir attr = false
      | Link t => is_reparse attr = true /\ w_open_link i = inr tt /\ (exists tag, w_tag i = inr tag /\ link_tag tag) /\
                  exists d, ans (w_Reparse (wtext a ns)) = inr d /\ link_data d t
      end
  end.

(** The roots are no links, and links have texts of the forms above. *)
Definition usual (T : world) : Prop :=
  (forall a t, T a [] <> Some (Link t)) /\ (forall a ns t, T a ns = Some (Link t) -> goes_to a [] t <> None).

(** * Proofs *)

Lemma no_colon_spec : forall n, no_colon n = true <-> ~ In colon n.
Proof.
  intros n. unfold no_colon. rewrite negb_true_iff. split.
  - intros H K. assert (X : existsb (Ascii.eqb colon) n = true) by (apply existsb_exists; exists colon; split; [exact K|apply Ascii.eqb_refl]). congruence.
  - intros H. destruct (existsb (Ascii.eqb colon) n) eqn:E; [|reflexivity]. exfalso. apply existsb_exists in E. destruct E as (x & Hx & Ex). apply Ascii.eqb_eq in Ex. subst. contradiction.
Qed.

Lemma no_colons : forall l, forallb no_colon l = true <-> Forall (fun n => ~ In colon n) l.
Proof.
  intros l. rewrite forallb_forall, Forall_forall. split; intros H x Hx; apply no_colon_spec; apply H; exact Hx.
Qed.

Lemma names_proper : forall t, Forall (fun n => ~ In colon n) (wnames t) -> Forall proper (wnames t).
Proof.
  intros t H. rewrite Forall_forall in *. intros n Hn. pose proof (wnames_all t) as Ha. rewrite Forall_forall in Ha. destruct (Ha n Hn). split; [assumption|]. split; [assumption|].
  apply H. exact Hn.
Qed.

Lemma full_is_text : forall t a l, full t = Some (a, l) -> full_text t a l /\ Forall proper l.
Proof.
  intros [|a [|c [|s r]]] b l H; try discriminate. cbn [full] in H.
  destruct (is_wsep a) eqn:Ha; [discriminate|]. destruct (Ascii.eqb_spec c colon) as [->|]; [|discriminate]. destruct (is_wsep s) eqn:Hs; [|discriminate].
  destruct (forallb no_colon (wnames r)) eqn:Hc; [|discriminate]. cbn [negb andb] in H. injection H as <- <-.
  apply no_colons in Hc. pose proof (names_proper r Hc) as Hp. split; [|exact Hp]. split; [exact Ha|]. exists (s :: r).
  split; [cbn [split_root]; rewrite Ha; cbn [andb]; unfold no_wsep; rewrite Ha; reflexivity|]. split; [exact Hs|].
  unfold wnames at 1. cbn [wpieces]. rewrite Hs. reflexivity.
Qed.

Lemma ascii_words : forall t, map char_of (map N_of_ascii t) = t.
Proof. induction t as [|c t IH]; [reflexivity|]. cbn [map]. rewrite IH. unfold char_of. rewrite ascii_N_embedding. reflexivity. Qed.

Lemma link_data_name : forall d t, link_data d t -> print_name d = t.
Proof.
  intros d t (f0 & f1 & b & c & Hw & Ho & Hl). unfold print_name, path_buffer. rewrite Hw, Ho, Hl. cbn [skipn].
  replace (2 * N.of_nat (length b) / 2) with (N.of_nat (length b)) by (rewrite N.mul_comm, N.div_mul by discriminate; reflexivity).
  replace (2 * N.of_nat (length t) / 2) with (N.of_nat (length t)) by (rewrite N.mul_comm, N.div_mul by discriminate; reflexivity).
  rewrite !Nat2N.id. rewrite skipn_app, skipn_all, Nat.sub_diag. cbn [skipn app].
  replace (length t) with (length (map N_of_ascii t)) by apply map_length. rewrite firstn_app, firstn_all, Nat.sub_diag. cbn [firstn]. rewrite app_nil_r. apply ascii_words.
Qed.

Definition is_link (o : option thing) : bool := match o with Some (Link _) => true | _ => false end.
Definition is_folder (o : option thing) : bool := match o with Some Folder => true | _ => false end.
Definition there (o : option thing) : bool := match o with Some _ => true | None => false end.

Section Canon.
Variable dbg : bool.
Variable E : elision.
Variable S : Type.
Variable h : wkernel S.
Variable ans : forall c, wanswer c.
Hypothesis Hst : steady h ans.
Variable T : world.
Hypothesis Hshow : shows ans T.
Hypothesis Huse : usual T.

Lemma told_codes : forall e, e <> 0 -> e <> 32 -> exists st code, ProcessStatusFailure true e = WRet st code /\ code <> 0 /\
  wtype_is ft_symlink (fst st) = false /\ wtype_is ft_directory (fst st) = false /\ wexists (fst st) = false.
Proof.
  intros e He He2. unfold ProcessStatusFailure. destruct (N.eqb_spec e 0) as [|_]; [contradiction|]. destruct (IsNotFoundError e).
  - do 2 eexists. split; [reflexivity|]. repeat split. exact He.
  - destruct (N.eqb_spec e ERROR_SHARING_VIOLATION) as [->|_]; [contradiction He2; reflexivity|]. do 2 eexists. split; [reflexivity|].
    repeat split. destruct (e =? ERROR_ACCESS_DENIED); [discriminate|exact He].
Qed.

Lemma symlink_fact : forall a ns B (f : bool -> N -> wprog B) s, is_wsep a = false -> Forall proper ns ->
  exists e, wrun h (wbind (wis_symlink_ec dbg (dpath a ns)) f) s = wrun h (f (is_link (T a ns)) e) s /\ (e = 0 <-> T a ns <> None).
Proof.
  intros a ns B f s Ha Hp. pose proof (propers_wnames ns Hp) as Hw. pose proof (Hshow a ns Ha Hp) as Hsh. cbn zeta in Hsh.
  unfold wis_symlink_ec, wsymlink_status_of. rewrite (dpath_native a ns Ha Hw). cbn [wbind wrun]. rewrite (Hst (w_Info (wtext a ns)) s eq_refl).
  set (i := ans (w_Info (wtext a ns))) in *. unfold wsymlink_status_impl.
  destruct (T a ns) as [o|] eqn:ET.
  - destruct Hsh as (Hr & attr & Hat & Ho). rewrite Hat. unfold with_permissions. destruct (readable_permissions dbg true (w_security i) attr Hr) as [pr ->]. change (0 =? 0) with true. cbv iota.
    rewrite reparse_attr. exists 0. split; [|split; [discriminate|reflexivity]].
    destruct o as [| |t].
    + destruct Ho as [-> Hd]. unfold directory_or_regular. rewrite dir_attr, Hd. reflexivity.
    + destruct Ho as [-> Hd]. unfold directory_or_regular. rewrite dir_attr, Hd. reflexivity.
    + destruct Ho as (-> & Hol & (tag & Htag & Hlt) & _). unfold IsReparsePointSymlink. rewrite Hol, Htag.
      assert ((tag =? IO_REPARSE_TAG_SYMLINK) || (tag =? IO_REPARSE_TAG_MOUNT_POINT) = true) as -> by (destruct Hlt as [-> | ->]; reflexivity). reflexivity.
  - destruct Hsh as (e & Hat & He & He2). rewrite Hat. rewrite cap by exact He. destruct (told_codes e He He2) as (st & code & -> & Hc & Hl & _).
    exists code. cbn [is_link]. unfold wis. rewrite <- Hl. split; [reflexivity|]. split; [contradiction|intros K; contradiction].
Qed.

Lemma status_fact : forall a ns B (f : wstatus -> N -> wprog B) s, is_wsep a = false -> Forall proper ns -> is_link (T a ns) = false ->
  exists st e, wrun h (wbind (wstatus_of dbg true (dpath a ns)) f) s = wrun h (f st e) s /\ (e = 0 <-> T a ns <> None) /\
    wis ft_directory st = is_folder (T a ns) /\ wexists (fst st) = there (T a ns).
Proof.
  intros a ns B f s Ha Hp Hnl. pose proof (propers_wnames ns Hp) as Hw. pose proof (Hshow a ns Ha Hp) as Hsh. cbn zeta in Hsh.
  unfold wstatus_of. rewrite (dpath_native a ns Ha Hw). cbn [wbind wrun]. rewrite (Hst (w_Info (wtext a ns)) s eq_refl).
  set (i := ans (w_Info (wtext a ns))) in *. unfold wstatus_impl.
  destruct (T a ns) as [o|] eqn:ET.
  - destruct Hsh as (Hr & attr & Hat & Ho). rewrite Hat, reparse_attr. destruct o as [| |t]; [| |discriminate Hnl]; destruct Ho as [-> Hd]; unfold with_permissions;
      destruct (readable_permissions dbg true (w_security i) attr Hr) as [pr ->]; change (0 =? 0) with true; cbv iota;
      unfold directory_or_regular; rewrite dir_attr, Hd; do 2 eexists; (split; [reflexivity|]); (split; [split; [discriminate|reflexivity]|]); split; reflexivity.
  - destruct Hsh as (e & Hat & He & He2). rewrite Hat. rewrite cap by exact He. destruct (told_codes e He He2) as (st & code & -> & Hc & _ & Hd & Hx).
    exists st, code. split; [reflexivity|]. split; [split; [contradiction|intros K; contradiction]|]. split; assumption.
Qed.

Lemma wbind_assoc : forall A B C (p : wprog A) (f : A -> N -> wprog B) (g : B -> N -> wprog C) s,
  wrun h (wbind (wbind p f) g) s = wrun h (wbind p (fun a e => wbind (f a e) g)) s.
Proof.
  intros A B C p f g. induction p as [r|c k IH]; intros s.
  - destruct r as [[a e|c|]| | |]; reflexivity.
  - cbn [wbind wrun]. destruct (h c s) as [r s']. apply IH.
Qed.

Lemma directory_fact : forall a ns B (f : bool -> N -> wprog B) s, is_wsep a = false -> Forall proper ns -> is_link (T a ns) = false ->
  exists e, wrun h (wbind (wis_directory_ec dbg (dpath a ns)) f) s = wrun h (f (is_folder (T a ns)) e) s /\ (e = 0 <-> T a ns <> None).
Proof.
  intros a ns B f s Ha Hp Hnl. unfold wis_directory_ec. rewrite wbind_assoc.
  destruct (status_fact a ns B (fun st e => wbind (wret (wis ft_directory st) e) f) s Ha Hp Hnl) as (st & e & -> & He & Hd & _).
  exists e. rewrite <- Hd. split; [reflexivity|exact He].
Qed.

Lemma exists_fact : forall a ns B (f : bool -> N -> wprog B) s, is_wsep a = false -> Forall proper ns -> is_link (T a ns) = false ->
  exists e, wrun h (wbind (wexists_ec dbg (dpath a ns)) f) s = wrun h (f (there (T a ns)) e) s.
Proof.
  intros a ns B f s Ha Hp Hnl. unfold wexists_ec. rewrite wbind_assoc.
  destruct (status_fact a ns B (fun st e => wbind (wret (wexists (fst st)) (if wknown st then 0 else e)) f) s Ha Hp Hnl) as (st & e & -> & _ & _ & Hx).
  rewrite <- Hx. eexists. reflexivity.
Qed.

Lemma read_fact : forall a ns t B (f : path -> N -> wprog B) s, is_wsep a = false -> Forall proper ns -> T a ns = Some (Link t) ->
  wrun h (wbind (wread_symlink dbg true (dpath a ns)) f) s = wrun h (f (wpath t) 0) s.
Proof.
  intros a ns t B f s Ha Hp HT. pose proof (propers_wnames ns Hp) as Hw. pose proof (Hshow a ns Ha Hp) as Hsh. cbn zeta in Hsh. rewrite HT in Hsh.
  destruct Hsh as (_ & attr & _ & _ & _ & _ & d & Hd & Hl). unfold wread_symlink. rewrite (dpath_native a ns Ha Hw). cbn [wbind wrun].
  rewrite (Hst (w_Reparse (wtext a ns)) s eq_refl), Hd. rewrite (link_data_name d t Hl). reflexivity.
Qed.

(** ** The loop *)

(** A place reached: its names are names, and it and the places above it exist and are no links. *)
Definition real (a : ascii) (ns : list str) : Prop :=
  is_wsep a = false /\ Forall (fun n => proper n /\ n <> lit "." /\ n <> lit "..") ns /\
  forall pre r, ns = pre ++ r -> pre <> [] -> T a pre = Some Folder \/ T a pre = Some Plain.

Lemma real_proper : forall a ns, real a ns -> Forall proper ns.
Proof. intros a ns (_ & H & _). eapply Forall_impl; [|exact H]. intros n K. apply K. Qed.

Lemma real_link : forall a ns, real a ns -> is_link (T a ns) = false.
Proof.
  intros a [|n ns] (_ & _ & H).
  - destruct Huse as [Hr _]. destruct (T a []) as [[| |t]|] eqn:X; try reflexivity. destruct (Hr a t X).
  - destruct (H (n :: ns) [] (eq_sym (app_nil_r _)) ltac:(discriminate)) as [-> | ->]; reflexivity.
Qed.

Lemma real_root : forall a, is_wsep a = false -> real a [].
Proof. intros a Ha. split; [exact Ha|]. split; [constructor|]. intros pre r H K. destruct pre; [congruence|discriminate]. Qed.

Lemma real_up : forall a ns, real a ns -> real a (removelast ns).
Proof.
  intros a ns (Ha & Hn & H). split; [exact Ha|]. split; [apply Forall_removelast; exact Hn|]. intros pre r Hr Hp.
  destruct ns as [|x ns _] using rev_ind; [destruct pre; [congruence|discriminate]|]. rewrite removelast_snoc in Hr. apply (H pre (r ++ [x])); [|exact Hp]. rewrite Hr, app_assoc. reflexivity.
Qed.

Lemma real_down : forall a ns n, real a ns -> proper n -> n <> lit "." -> n <> lit ".." -> T a (ns ++ [n]) = Some Folder \/ T a (ns ++ [n]) = Some Plain -> real a (ns ++ [n]).
Proof.
  intros a ns n (Ha & Hn & H) Hp H1 H2 HT. split; [exact Ha|]. split; [apply Forall_app; split; [exact Hn|repeat constructor; try assumption; apply Hp]|].
  intros pre r Hr Hpre. destruct r as [|y r _] using rev_ind.
  - rewrite app_nil_r in Hr. subst pre. exact HT.
  - rewrite app_assoc in Hr. apply app_inj_tail in Hr. destruct Hr as [Hr _]. apply (H pre r Hr Hpre).
Qed.

(** Components to come: names and empty components. *)
Definition piece (n : str) : Prop := n = [] \/ proper n.
Definition kept (l : list str) : list str := filter (fun n => negb (is_nil n)) l.

Lemma kept_app : forall a b, kept (a ++ b) = kept a ++ kept b.
Proof. intros. apply filter_app. Qed.
Lemma kept_proper : forall l, Forall proper l -> kept l = l.
Proof. induction l as [|n l IH]; intros H; [reflexivity|]. inversion H as [|? ? (Hn & _) Hl]; subst. unfold kept in *. cbn [filter]. destruct n; [congruence|]. cbn. rewrite IH by exact Hl. reflexivity. Qed.
Lemma kept_tail : forall l (e : bool), Forall proper l -> kept (l ++ (if e then [[]] else [])) = l.
Proof. intros l e H. rewrite kept_app, kept_proper by exact H. destruct e; apply app_nil_r. Qed.
Lemma pieces_tail : forall l (e : bool), Forall proper l -> Forall piece (l ++ (if e then [[]] else [])).
Proof.
  intros l e H. apply Forall_app. split; [eapply Forall_impl; [|exact H]; intros n K; right; exact K|]. destruct e; repeat constructor.
Qed.

Lemma moved : forall n, piece n -> fst (move_ctor Windows (fpath n)) = split_components Windows n.
Proof. reflexivity. Qed.

Lemma moved_empty : forall n, piece n -> empty (split_components Windows n) = is_nil n.
Proof. intros n [-> |H]; [reflexivity|]. rewrite (name_path n H). reflexivity. Qed.

Lemma dot_test : forall n, proper n -> is_dot (split_components Windows n) = str_eqb n (lit ".").
Proof.
  intros n H. rewrite (name_path n H). unfold is_dot, native. cbn [pathname]. apply eq_true_iff_eq. rewrite str_eqb_spec. split.
  - destruct n as [|c [|d n]]; try discriminate. intros K. apply Ascii.eqb_eq in K. subst c. reflexivity.
  - intros ->. reflexivity.
Qed.

Lemma dotdot_test : forall n, proper n -> is_dotdot (split_components Windows n) = str_eqb n (lit "..").
Proof.
  intros n H. rewrite (name_path n H). unfold is_dotdot, native. cbn [pathname]. apply eq_true_iff_eq. rewrite str_eqb_spec. split.
  - destruct n as [|c [|d [|x n]]]; try discriminate. intros K. apply andb_prop in K. destruct K as [K1 K2]. apply Ascii.eqb_eq in K1. apply Ascii.eqb_eq in K2. subst. reflexivity.
  - intros ->. reflexivity.
Qed.

(** Where a link of [T] leads. *)
Lemma link_to : forall a ns t, is_wsep a = false -> goes_to a ns t <> None ->
  exists c ls steps, goes_to a ns t = Some (c, ls, steps) /\ Forall proper steps /\ is_wsep c = false /\
    ((is_absolute Windows E (wpath t) = true /\ ls = [] /\ root_path Windows E (wpath t) = dpath c [] /\
      exists rel (e : bool), relative_path Windows E (wpath t) = Ok rel /\ elems rel = map fpath (steps ++ (if e then [[]] else []))) \/
     (is_absolute Windows E (wpath t) = false /\ c = a /\ ls = ns /\ exists e : bool, elems (wpath t) = map fpath (steps ++ (if e then [[]] else [])))).
Proof.
  intros a ns t Ha Ht. unfold goes_to in *. destruct (full t) as [[b steps]|] eqn:Ef.
  - destruct (full_is_text t b steps Ef) as [Hf Hp]. exists b, [], steps. split; [reflexivity|]. split; [exact Hp|]. split; [apply Hf|]. left.
    destruct (full_absolute E t b steps Hf) as [Hab _]. split; [exact Hab|]. split; [reflexivity|]. split; [apply (full_root_path E t b steps Hf)|].
    apply (full_relative E t b steps Hf). eapply Forall_impl; [|exact Hp]. intros n (_ & _ & K). exact K.
  - destruct (wstarts t) eqn:Hs; [cbn in Ht; congruence|]. cbn [negb andb] in *. destruct (forallb no_colon (wnames t)) eqn:Hc; [|congruence].
    apply no_colons in Hc. exists a, ns, (wnames t). split; [reflexivity|]. split; [apply names_proper; exact Hc|]. split; [exact Ha|]. right.
    pose proof (names_unrooted t Hs Hc) as Hr. unfold wpath. rewrite (is_absolute_split E t _ _ Hr). cbn [host_root orb]. split; [exact Hs|]. split; [reflexivity|]. split; [reflexivity|].
    rewrite elems_all. unfold all_comps. rewrite Hr. unfold root_comps. cbn [is_nil]. rewrite Hs. cbn [app]. rewrite names_comps. eexists. reflexivity.
Qed.

Lemma goes_any : forall a ns t, goes_to a [] t <> None -> goes_to a ns t <> None.
Proof. intros a ns t H. unfold goes_to in *. destruct (full t) as [[b l]|]; [discriminate|]. destruct (_ && _); [discriminate|congruence]. Qed.

(** The error_code, once set, stays set. *)
Lemma code_stays : forall n has root result cmpts links m_ec ec s v ec' s',
  wrun h (canonical_loop dbg E n has root result cmpts links m_ec ec) s = (WE (WRet v ec'), s') -> ec <> 0 -> ec' <> 0.
Proof.
  assert (Hb : forall A B (p : wprog A) (f : A -> N -> wprog B) s v e s', wrun h (wbind p f) s = (WE (WRet v e), s') ->
            exists a e1 s1, wrun h (f a e1) s1 = (WE (WRet v e), s')).
  { intros A B p f. induction p as [r|c k IH]; intros s v e s' H; cbn [wbind wrun] in H.
    - destruct r as [[a x|x|]| | |]; try discriminate. eauto.
    - destruct (h c s) as [r s1]. apply (IH r s1 _ _ _ H). }
  assert (Hl : forall A B (x : out A) (f : A -> wprog B) s v e s', wrun h (wlift x f) s = (WE (WRet v e), s') -> exists a, wrun h (f a) s = (WE (WRet v e), s')).
  { intros A B [a|ex| |] f s v e s' H; try discriminate. eauto. }
  induction n as [|n IH]; intros has root result cmpts links m_ec ec s v ec' s' H He; [discriminate|].
  cbn [canonical_loop] in H. destruct cmpts as [|f0 rest]; [cbn in H; injection H as _ <- _; exact He|].
  destruct (negb (m_ec =? 0)); [cbn in H; injection H as _ <- _; exact He|].
  destruct (empty (fst (move_ctor Windows f0))); [apply (IH _ _ _ _ _ _ _ _ _ _ _ H He)|].
  destruct (is_dot (fst (move_ctor Windows f0))).
  { apply Hb in H. destruct H as (d & e & s1 & H). destruct (negb d && (e =? 0)); [destruct has; [|discriminate]|]; apply (IH _ _ _ _ _ _ _ _ _ _ _ H); [discriminate|exact He]. }
  destruct (is_dotdot (fst (move_ctor Windows f0))).
  { apply Hl in H. destruct H as (q & H). apply (IH _ _ _ _ _ _ _ _ _ _ _ H He). }
  apply Hl in H. destruct H as (q & H). apply Hb in H. destruct H as (l & e & s1 & H). destruct l; [|apply (IH _ _ _ _ _ _ _ _ _ _ _ H He)].
  apply Hb in H. destruct H as (lk & e2 & s2 & H). destruct (e2 =? 0); [|apply (IH _ _ _ _ _ _ _ _ _ _ _ H He)].
  destruct (links - 1 <? - 2 ^ 31)%Z; [discriminate|]. destruct (links - 1 =? 0)%Z.
  { destruct has; [|discriminate]. apply (IH _ _ _ _ _ _ _ _ _ _ _ H). discriminate. }
  destruct (is_absolute Windows E lk); apply Hl in H; destruct H as (q2 & H); apply (IH _ _ _ _ _ _ _ _ _ _ _ H He).
Qed.

(** One step of the loop on a path that stands at a place. *)
Lemma step_empty : forall n has root a ns l links ec s,
  wrun h (canonical_loop dbg E (Datatypes.S n) has root (dpath a ns) (map fpath ([] :: l)) links 0 ec) s =
  wrun h (canonical_loop dbg E n has root (dpath a ns) (map fpath l) links 0 ec) s.
Proof. reflexivity. Qed.

Lemma step_dot : forall n has root a ns l links ec s, real a ns ->
  exists e, (e = 0 <-> T a ns <> None) /\
  wrun h (canonical_loop dbg E (Datatypes.S n) has root (dpath a ns) (map fpath (lit "." :: l)) links 0 ec) s =
  wrun h (if negb (is_folder (T a ns)) && (e =? 0) then
            if has then canonical_loop dbg E n has root (dpath a ns) (map fpath l) links e errc_not_a_directory
            else WEnd (WE (WThrow errc_not_a_directory))
          else canonical_loop dbg E n has root (dpath a ns) (map fpath l) links e ec) s.
Proof.
  intros n has root a ns l links ec s Hr. pose proof (real_proper a ns Hr) as Hp. pose proof (real_link a ns Hr) as Hl. destruct Hr as (Ha & _).
  match goal with |- exists e, _ /\ _ = wrun h (if _ then ?x else _) s => idtac end.
  destruct (directory_fact a ns _ (fun d e => if negb d && (e =? 0) then if has then canonical_loop dbg E n has root (dpath a ns) (map fpath l) links e errc_not_a_directory else WEnd (WE (WThrow errc_not_a_directory)) else canonical_loop dbg E n has root (dpath a ns) (map fpath l) links e ec) s Ha Hp Hl) as (e & Hrun & He).
  exists e. split; [exact He|]. exact Hrun.
Qed.

Lemma step_dotdot : forall n has root a ns l links ec s, real a ns ->
  wrun h (canonical_loop dbg E (Datatypes.S n) has root (dpath a ns) (map fpath (lit ".." :: l)) links 0 ec) s =
  wrun h (canonical_loop dbg E n has root (dpath a (removelast ns)) (map fpath l) links 0 ec) s.
Proof.
  intros n has root a ns l links ec s Hr. pose proof (real_proper a ns Hr) as Hp. destruct Hr as (Ha & _).
  cbn [map canonical_loop]. change (negb (0 =? 0)) with false. cbv iota. change (empty (fst (move_ctor Windows (fpath (lit ".."))))) with false.
  change (is_dot (fst (move_ctor Windows (fpath (lit ".."))))) with false. change (is_dotdot (fst (move_ctor Windows (fpath (lit ".."))))) with true. cbv iota.
  rewrite (dpath_parent E a ns Ha Hp). cbn [wlift]. rewrite dpath_empty; [reflexivity|exact Ha|]. apply propers_wnames. apply Forall_removelast. exact Hp.
Qed.

Lemma step_name : forall n has root a ns x l links ec s, real a ns -> proper x -> x <> lit "." -> x <> lit ".." ->
  exists e, (e = 0 <-> T a (ns ++ [x]) <> None) /\
  wrun h (canonical_loop dbg E (Datatypes.S n) has root (dpath a ns) (map fpath (x :: l)) links 0 ec) s =
  wrun h (match T a (ns ++ [x]) with
          | Some (Link t) =>
              if (links - 1 <? - 2 ^ 31)%Z then WEnd WStop
              else if (links - 1 =? 0)%Z then
                if has then canonical_loop dbg E n has root (dpath a (ns ++ [x])) (map fpath l) (links - 1) 0 errc_too_many_symbolic_link_levels
                else WEnd (WE (WThrow errc_too_many_symbolic_link_levels))
              else if is_absolute Windows E (wpath t) then
                wlift (relative_path Windows E (wpath t)) (fun rel =>
                  canonical_loop dbg E n has root (root_path Windows E (wpath t)) (elems rel ++ map fpath l) (links - 1) 0 ec)
              else canonical_loop dbg E n has root (dpath a ns) (elems (wpath t) ++ map fpath l) (links - 1) 0 ec
          | _ => canonical_loop dbg E n has root (dpath a (ns ++ [x])) (map fpath l) links e ec
          end) s.
Proof.
  intros n has root a ns x l links ec s Hr Hx H1 H2. pose proof (real_proper a ns Hr) as Hp. destruct Hr as (Ha & _).
  assert (Hp' : Forall proper (ns ++ [x])) by (apply Forall_app; split; [exact Hp|repeat constructor; apply Hx]).
  cbn [map canonical_loop]. change (negb (0 =? 0)) with false. cbv iota. rewrite (moved x (or_intror Hx)), (moved_empty x (or_intror Hx)), (dot_test x Hx), (dotdot_test x Hx).
  assert (is_nil x = false) as -> by (destruct Hx as [Hx _]; destruct x; [congruence|reflexivity]).
  assert (str_eqb x (lit ".") = false) as -> by (destruct (str_eqb x (lit ".")) eqn:X; [apply str_eqb_spec in X; contradiction|reflexivity]).
  assert (str_eqb x (lit "..") = false) as -> by (destruct (str_eqb x (lit "..")) eqn:X; [apply str_eqb_spec in X; contradiction|reflexivity]).
  rewrite (name_path x Hx). fold (fpath x). rewrite (dpath_append E a ns x Ha (propers_wnames ns Hp)). cbn [wlift].
  match goal with |- context [wbind (wis_symlink_ec _ _) ?f] => destruct (symlink_fact a (ns ++ [x]) _ f s Ha Hp') as (e & Hrun & He) end.
  exists e. split; [exact He|]. rewrite Hrun. clear Hrun. destruct (T a (ns ++ [x])) as [[| |t]|] eqn:ET; cbn [is_link]; try reflexivity.
  rewrite (read_fact a (ns ++ [x]) t _ _ s Ha Hp' ET). change (0 =? 0) with true. cbv iota zeta.
  destruct (links - 1 <? - 2 ^ 31)%Z; [reflexivity|]. destruct (links - 1 =? 0)%Z; [reflexivity|]. destruct (is_absolute Windows E (wpath t)); [reflexivity|].
  rewrite (dpath_parent E a _ Ha Hp'), removelast_snoc. reflexivity.
Qed.

(** ** The loop follows the specification *)

Lemma loop_sound : forall n has root a ns l links ec s q m_ec ec' s', real a ns -> Forall piece l -> (0 < links)%Z ->
  wrun h (canonical_loop dbg E n has root (dpath a ns) (map fpath l) links 0 ec) s = (WE (WRet (q, m_ec) ec'), s') ->
  ec' = 0 -> m_ec = 0 -> s' = s /\ exists b ms k, walk T a ns (kept l) b ms k /\ (Z.of_nat k < links)%Z /\ q = dpath b ms /\ real b ms.
Proof.
  induction n as [|n IH]; intros has root a ns l links ec s q m_ec ec' s' Hr Hl Hlk H He Hm; [discriminate|].
  destruct l as [|x l].
  { cbn in H. injection H as <- <- _ <-. split; [reflexivity|]. exists a, ns, 0%nat. split; [constructor|]. split; [cbn; lia|]. split; [reflexivity|exact Hr]. }
  inversion Hl as [|? ? Hx Hl']; subst.
  assert (Hbad : forall has' root' result rest links' m e s1, m <> 0 -> wrun h (canonical_loop dbg E n has' root' result rest links' m e) s1 = (WE (WRet (q, 0) 0), s') -> rest = [] /\ False \/ False).
  { intros has' root' result rest links' m e s1 Hm1 K. right. destruct n as [|n']; [discriminate|]. cbn [canonical_loop] in K. apply N.eqb_neq in Hm1 as Hm2.
    destruct rest; [cbn in K; injection K as _ K _ _; congruence|]. rewrite Hm2 in K. cbn in K. injection K as _ K _ _. congruence. }
  destruct Hx as [-> |Hx]; [rewrite step_empty in H; apply (IH _ _ _ _ _ _ _ _ _ _ _ _ Hr Hl' Hlk H eq_refl eq_refl)|].
  assert (Hkept : kept (x :: l) = x :: kept l) by (destruct Hx as [Hx _]; destruct x; [congruence|reflexivity]). rewrite Hkept.
  destruct (list_eq_dec ascii_dec x (lit ".")) as [-> |Hd1].
  { destruct (step_dot n has root a ns l links ec s Hr) as (e & He & Hrun). rewrite Hrun in H. clear Hrun.
    destruct (N.eqb_spec e 0) as [He0|He0].
    - rewrite He0 in H. rewrite andb_true_r in H. destruct (is_folder (T a ns)) eqn:Hf; cbn [negb] in H.
      + destruct (IH _ _ _ _ _ _ _ _ _ _ _ _ Hr Hl' Hlk H eq_refl eq_refl) as (Hs & b & ms & k & Hw & Hk & Hq & Hre).
        split; [exact Hs|]. exists b, ms, k. split; [|auto]. apply walk_here; [|exact Hw]. destruct (T a ns) as [[| |]|]; try discriminate. reflexivity.
      + destruct has; [|discriminate]. exfalso. apply (code_stays _ _ _ _ _ _ _ _ _ _ _ _ H); [discriminate|reflexivity].
    - rewrite andb_false_r in H. destruct (Hbad _ _ _ _ _ _ _ _ He0 H) as [[_ []]|[]]. }
  destruct (list_eq_dec ascii_dec x (lit "..")) as [-> |Hd2].
  { rewrite (step_dotdot n has root a ns l links ec s Hr) in H.
    destruct (IH _ _ _ _ _ _ _ _ _ _ _ _ (real_up a ns Hr) Hl' Hlk H eq_refl eq_refl) as (Hs & b & ms & k & Hw & Hk & Hq & Hre).
    split; [exact Hs|]. exists b, ms, k. split; [apply walk_up; exact Hw|auto]. }
  destruct (step_name n has root a ns x l links ec s Hr Hx Hd1 Hd2) as (e & He & Hrun). rewrite Hrun in H. clear Hrun.
  assert (Hdown : T a (ns ++ [x]) = Some Folder \/ T a (ns ++ [x]) = Some Plain ->
     wrun h (canonical_loop dbg E n has root (dpath a (ns ++ [x])) (map fpath l) links e ec) s = (WE (WRet (q, 0) 0), s') ->
     s' = s /\ exists b ms k, walk T a ns (x :: kept l) b ms k /\ (Z.of_nat k < links)%Z /\ q = dpath b ms /\ real b ms).
  { intros HT K. assert (e = 0) as -> by (apply He; destruct HT as [-> | ->]; discriminate).
    destruct (IH _ _ _ _ _ _ _ _ _ _ _ _ (real_down a ns x Hr Hx Hd1 Hd2 HT) Hl' Hlk K eq_refl eq_refl) as (Hs & b & ms & k & Hw & Hk & Hq & Hre).
    split; [exact Hs|]. exists b, ms, k. split; [apply walk_down; assumption|auto]. }
  destruct (T a (ns ++ [x])) as [[| |t]|] eqn:ET; [apply Hdown; auto|apply Hdown; auto| |].
  - clear Hdown Hbad. destruct (Z.ltb_spec (links - 1) (- 2 ^ 31)); [discriminate|].
    destruct (Z.eqb_spec (links - 1) 0).
    { destruct has; [|discriminate]. exfalso. apply (code_stays _ _ _ _ _ _ _ _ _ _ _ _ H); [discriminate|reflexivity]. }
    destruct Huse as [_ Hgo]. pose proof (proj1 Hr) as Ha. destruct (link_to a ns t Ha (goes_any a ns t (Hgo _ _ _ ET))) as (c & ls & steps & Hg & Hst' & Hc & Hcase).
    assert (Hfin : forall ed : bool, real c ls -> wrun h (canonical_loop dbg E n has root (dpath c ls) (map fpath ((steps ++ (if ed then [[]] else [])) ++ l)) (links - 1) 0 ec) s = (WE (WRet (q, 0) 0), s') ->
       s' = s /\ exists b ms k, walk T a ns (x :: kept l) b ms k /\ (Z.of_nat k < links)%Z /\ q = dpath b ms /\ real b ms).
    { intros ed Hre K. assert (Hpc : Forall piece ((steps ++ (if ed then [[]] else [])) ++ l)) by (apply Forall_app; split; [apply pieces_tail; exact Hst'|exact Hl']).
      assert (Hlk' : (0 < links - 1)%Z) by lia.
      destruct (IH _ _ _ _ _ _ _ _ _ _ _ _ Hre Hpc Hlk' K eq_refl eq_refl) as (Hs & b & ms & k & Hw & Hk & Hq & Hre').
      split; [exact Hs|]. exists b, ms, (Datatypes.S k). rewrite kept_app, (kept_tail steps ed Hst') in Hw.
      split; [eapply walk_link; eassumption|]. split; [lia|auto]. }
    destruct Hcase as [(Hab & -> & Hrp & rel & ed & Hrel & Hel)|(Hab & -> & -> & ed & Hel)]; rewrite Hab in H.
    + rewrite Hrel in H. cbn [wlift] in H. rewrite Hrp, Hel, <- map_app in H. apply (Hfin ed); [apply real_root; exact Hc|exact H].
    + rewrite Hel, <- map_app in H. apply (Hfin ed); [exact Hr|exact H].
  - assert (Hne : e <> 0) by (intros K; apply (proj1 He K); reflexivity). destruct (Hbad _ _ _ _ _ _ _ _ Hne H) as [[_ []]|[]].
Qed.

Lemma walk_real : forall a ns steps b ms k, walk T a ns steps b ms k -> Forall proper steps -> real a ns -> real b ms.
Proof.
  intros a ns steps b ms k Hw. induction Hw; intros Hp Hr.
  - exact Hr.
  - inversion Hp; subst. auto.
  - inversion Hp; subst. apply IHHw; [assumption|]. apply real_up. exact Hr.
  - inversion Hp; subst. apply IHHw; [assumption|]. apply real_down; assumption.
  - inversion Hp; subst. pose proof (proj1 Hr) as Ha. destruct (link_to a ns t Ha ltac:(congruence)) as (c' & ls' & st' & Hg & Hs & Hc & Hcase).
    rewrite H2 in Hg. injection Hg as <- <- <-. apply IHHw; [apply Forall_app; split; assumption|].
    destruct Hcase as [(_ & -> & _)|(_ & -> & -> & _)]; [apply real_root; exact Hc|exact Hr].
Qed.

(** After the empty components comes the first name, or nothing. *)
Lemma skip_empty : forall l a ns links ec has root s (res : wend (path * N) * S), Forall piece l ->
  (kept l = [] -> res = (WE (WRet (dpath a ns, 0) ec), s)) ->
  (forall x l', proper x -> Forall piece l' -> kept l = x :: kept l' ->
     exists n0, forall n, (n0 <= n)%nat -> wrun h (canonical_loop dbg E n has root (dpath a ns) (map fpath (x :: l')) links 0 ec) s = res) ->
  exists n0, forall n, (n0 <= n)%nat -> wrun h (canonical_loop dbg E n has root (dpath a ns) (map fpath l) links 0 ec) s = res.
Proof.
  induction l as [|x l IH]; intros a ns links ec has root s res Hl Hend Hgo.
  - exists 1%nat. intros n Hn. destruct n as [|n]; [lia|]. rewrite (Hend eq_refl). reflexivity.
  - inversion Hl as [|? ? Hx Hl']; subst. destruct Hx as [-> |Hx].
    + destruct (IH a ns links ec has root s res Hl' Hend Hgo) as (n0 & Hn0). exists (Datatypes.S n0). intros n Hn. destruct n as [|n]; [lia|].
      rewrite step_empty. apply Hn0. lia.
    + apply (Hgo x l Hx Hl'). destruct Hx as [Hx _]. destruct x; [congruence|reflexivity].
Qed.

Lemma loop_complete : forall a ns steps b ms k, walk T a ns steps b ms k -> forall l links ec has root s, real a ns -> Forall piece l -> kept l = steps -> (Z.of_nat k < links)%Z -> (links <= 40)%Z ->
  exists n0, forall n, (n0 <= n)%nat -> wrun h (canonical_loop dbg E n has root (dpath a ns) (map fpath l) links 0 ec) s = (WE (WRet (dpath b ms, 0) ec), s).
Proof.
  intros a ns steps b ms k Hw. induction Hw; intros l links ec has root s Hr Hl Hk Hlk H40.
  - apply skip_empty; [exact Hl|reflexivity|]. intros x l' _ _ K. rewrite Hk in K. discriminate.
  - apply skip_empty; [exact Hl|rewrite Hk; discriminate|]. intros x l' Hx Hl' K. rewrite Hk in K. pose proof (f_equal (hd []) K) as Kx. apply (f_equal (@tl str)) in K. cbn [hd tl] in Kx, K. subst x.
    destruct (IHHw l' links ec has root s Hr Hl' (eq_sym K) Hlk H40) as (n0 & Hn0). exists (Datatypes.S n0). intros n Hn. destruct n as [|n]; [lia|].
    destruct (step_dot n has root a ns l' links ec s Hr) as (e & He & ->). assert (e = 0) as -> by (apply He; rewrite H; discriminate). rewrite H. cbn [is_folder negb andb]. apply Hn0. lia.
  - apply skip_empty; [exact Hl|rewrite Hk; discriminate|]. intros x l' Hx Hl' K. rewrite Hk in K. pose proof (f_equal (hd []) K) as Kx. apply (f_equal (@tl str)) in K. cbn [hd tl] in Kx, K. subst x.
    destruct (IHHw l' links ec has root s (real_up a ns Hr) Hl' (eq_sym K) Hlk H40) as (n0 & Hn0). exists (Datatypes.S n0). intros n Hn. destruct n as [|n]; [lia|].
    rewrite (step_dotdot n has root a ns l' links ec s Hr). apply Hn0. lia.
  - apply skip_empty; [exact Hl|rewrite Hk; discriminate|]. intros x l' Hx Hl' K. rewrite Hk in K. pose proof (f_equal (hd []) K) as Kx. apply (f_equal (@tl str)) in K. cbn [hd tl] in Kx, K. subst x.
    destruct (IHHw l' links ec has root s (real_down a ns n Hr Hx H H0 H1) Hl' (eq_sym K) Hlk H40) as (n0 & Hn0). exists (Datatypes.S n0). intros j Hj. destruct j as [|j]; [lia|].
    destruct (step_name j has root a ns n l' links ec s Hr Hx H H0) as (e & He & ->). assert (e = 0) as -> by (apply He; destruct H1 as [-> | ->]; discriminate).
    destruct H1 as [-> | ->]; apply Hn0; lia.
  - apply skip_empty; [exact Hl|rewrite Hk; discriminate|]. intros x l' Hx Hl' K. rewrite Hk in K. pose proof (f_equal (hd []) K) as Kx. apply (f_equal (@tl str)) in K. cbn [hd tl] in Kx, K. subst x.
    pose proof (proj1 Hr) as Ha. destruct (link_to a ns t Ha ltac:(congruence)) as (c' & ls' & st' & Hg & Hs & Hc & Hcase).
    rewrite H2 in Hg. injection Hg as <- <- <-.
    assert (Hre : real c ls) by (destruct Hcase as [(_ & -> & _)|(_ & -> & -> & _)]; [apply real_root; exact Hc|exact Hr]).
    assert (Hgo : forall ed : bool, exists n0, forall j, (n0 <= j)%nat -> wrun h (canonical_loop dbg E j has root (dpath c ls) (map fpath ((steps ++ (if ed then [[]] else [])) ++ l')) (links - 1) 0 ec) s = (WE (WRet (dpath b ms, 0) ec), s)).
    { intros ed. apply IHHw; [exact Hre| | |lia|lia].
      - apply Forall_app. split; [apply pieces_tail; exact Hs|exact Hl'].
      - rewrite kept_app, (kept_tail steps ed Hs), <- K. reflexivity. }
    assert (Hl1 : (links - 1 <? - 2 ^ 31)%Z = false) by (apply Z.ltb_ge; lia). assert (Hl2 : (links - 1 =? 0)%Z = false) by (apply Z.eqb_neq; lia).
    destruct Hcase as [(Hab & -> & Hrp & rel & ed & Hrel & Hel)|(Hab & -> & -> & ed & Hel)]; destruct (Hgo ed) as (n0 & Hn0); exists (Datatypes.S n0); intros j Hj; (destruct j as [|j]; [lia|]);
      destruct (step_name j has root a ns n l' links ec s Hr Hx H H0) as (e & He & ->) || destruct (step_name j has root _ _ n l' links ec s Hr Hx H H0) as (e & He & ->);
      rewrite H1, Hl1, Hl2, Hab.
    + rewrite Hrel. cbn [wlift]. rewrite Hrp, Hel, <- map_app. apply Hn0. lia.
    + rewrite Hel, <- map_app. apply Hn0. lia.
Qed.

(** ** From the text to the loop *)

Variable cwd : str.
Hypothesis Hcwd : ans w_CurrentDirectory = inr cwd.

Lemma begin_path : forall t a steps B (f : path -> N -> wprog B) s has, begins cwd t = Some (a, steps) ->
  is_wsep a = false /\ Forall proper steps /\
  exists u, full_text u a steps /\ wrun h (wbind (wabsolute dbg E has (wpath t)) f) s = wrun h (f (split_components Windows u) 0) s.
Proof.
  intros t a steps B f s has Hb. unfold begins in Hb. destruct (full t) as [[b l]|] eqn:Ef.
  - injection Hb as -> ->. destruct (full_is_text t a steps Ef) as [Hf Hp]. split; [apply Hf|]. split; [exact Hp|]. exists t. split; [exact Hf|].
    unfold wabsolute. destruct (full_absolute E t a steps Hf) as [Hab Hrn]. unfold wpath. rewrite Hab, Hrn. reflexivity.
  - destruct (full cwd) as [[b ns]|] eqn:Ec; [|discriminate]. destruct (full_is_text cwd b ns Ec) as [Hf Hp].
    destruct (forallb no_colon (wnames t)) eqn:Hc; [|discriminate]. apply no_colons in Hc. pose proof (names_proper t Hc) as Hpt.
    assert (Hrt : split_root no_wsep t = ([], t) /\ (a, steps) = (b, if wstarts t then wnames t else ns ++ wnames t)).
    { destruct (wstarts t) eqn:Hs.
      - destruct (wstarts (tl t)) eqn:Hs2; [discriminate|]. injection Hb as <- <-. split; [|reflexivity]. destruct t as [|x [|y r]]; try reflexivity. cbn in Hs, Hs2. cbn [split_root].
        destruct (Ascii.eqb_spec x y) as [-> |]; [congruence|]. rewrite andb_false_r. cbn [andb]. unfold no_wsep. rewrite Hs. reflexivity.
      - injection Hb as <- <-. split; [|reflexivity]. apply names_unrooted; assumption. }
    destruct Hrt as [Hrt Hx]. injection Hx as -> ->. pose proof (proj1 Hf) as Ha. destruct Hf as (_ & rest & Hrc & Hsc & Hnc).
    assert (Hps : Forall proper (if wstarts t then wnames t else ns ++ wnames t)) by (destruct (wstarts t); [exact Hpt|apply Forall_app; split; assumption]).
    split; [exact Ha|]. split; [exact Hps|].
    destruct (C75_operator_slash E cwd t) as (q & Hq & Hsq & Heq).
    exists (native q). split.
    + rewrite <- Hsq, win_elems in Heq. unfold appended in Heq. rewrite Hrc, Hrt in Heq. cbn [is_nil negb andb orb] in Heq. rewrite Hsc, Hnc in Heq. cbn [orb] in Heq.
      cbn [preferred map] in Heq. rewrite (plain_nosep b Ha) in Heq. change (if Ascii.eqb colon slash then backslash else colon) with colon in Heq.
      destruct (wstarts t); eapply full_elements; try exact Ha; try exact Heq; apply propers_wnames; exact Hps.
    + unfold wabsolute. unfold wpath at 1 2. rewrite (is_absolute_split E t _ _ Hrt), (has_root_name_split t _ _ Hrt). cbn [is_nil negb]. rewrite andb_false_r.
      unfold wcurrent_path. cbn [wbind wrun]. rewrite (Hst w_CurrentDirectory s eq_refl), Hcwd. cbn [wbind wret wrun]. change (0 =? 0) with true. cbv iota.
      unfold wpath. rewrite Hq. cbn [wlift wbind wret]. rewrite Hsq. reflexivity.
Qed.

Lemma canonical_start : forall t a steps n s has, begins cwd t = Some (a, steps) ->
  is_wsep a = false /\ Forall proper steps /\ exists e : bool,
  wrun h (wcanonical dbg E n has (wpath t)) s =
  wrun h (wbind (canonical_loop dbg E n has (dpath a []) (dpath a []) (map fpath (steps ++ (if e then [[]] else []))) max_links 0 0) (fun r ec =>
      let '(result, m_ec) := r in
      if negb (m_ec =? 0) then wbad has path_default errc_no_such_file_or_directory
      else wbind (wexists_ec dbg result) (fun b _ => if b then wret result ec else wbad has path_default errc_no_such_file_or_directory))) s.
Proof.
  intros t a steps n s has Hb. unfold wcanonical.
  match goal with |- context [wbind (wabsolute _ _ _ _) ?f] => destruct (begin_path t a steps _ f s has Hb) as (Ha & Hp & u & Hu & Hrun) end.
  split; [exact Ha|]. split; [exact Hp|]. rewrite Hrun. clear Hrun. cbv beta zeta. rewrite (full_root_path E u a steps Hu).
  destruct (full_relative E u a steps Hu) as (rel & e & Hrel & Hel); [eapply Forall_impl; [|exact Hp]; intros x (_ & _ & K); exact K|].
  exists e. rewrite Hrel. cbn [wlift]. rewrite Hel. reflexivity.
Qed.

Lemma canonical_sound : forall t a steps n s has q s', begins cwd t = Some (a, steps) ->
  wrun h (wcanonical dbg E n has (wpath t)) s = (WE (WRet q 0), s') ->
  s' = s /\ exists b ms k, walk T a [] steps b ms k /\ (k < 40)%nat /\ T b ms <> None /\ native q = wtext b ms /\ real b ms.
Proof.
  intros t a steps n s has q s' Hb H. destruct (canonical_start t a steps n s has Hb) as (Ha & Hp & e & Hrun). rewrite Hrun in H. clear Hrun.
  assert (Hinv : forall A B (p : wprog A) (f : A -> N -> wprog B) s0 v c s2, wrun h (wbind p f) s0 = (WE (WRet v c), s2) ->
            exists x c1 s1, wrun h p s0 = (WE (WRet x c1), s1) /\ wrun h (f x c1) s1 = (WE (WRet v c), s2)).
  { intros A B p f. induction p as [r|c k IH]; intros s0 v c0 s2 K; cbn [wbind wrun] in K |- *.
    - destruct r as [[x c1|x|]| | |]; try discriminate. eauto.
    - destruct (h c s0) as [r s1]. apply (IH r s1 _ _ _ K). }
  apply Hinv in H. destruct H as ([result m_ec] & ec & s1 & Hloop & H). cbv beta iota zeta in H.
  destruct (N.eqb_spec m_ec 0) as [-> |Hm]; [cbn [negb] in H|destruct has; discriminate H].
  apply Hinv in H. destruct H as (x & c1 & s2 & Hex & H). destruct x; [|destruct has; discriminate H]. cbn in H. injection H as <- Hec <-.
  destruct (loop_sound n has _ a [] _ max_links 0 s result 0 ec s1 (real_root a Ha) (pieces_tail steps e Hp) ltac:(reflexivity) Hloop Hec eq_refl) as (-> & b & ms & k & Hw & Hk & -> & Hre).
  rewrite (kept_tail steps e Hp) in Hw. pose proof (real_proper b ms Hre) as Hpm. pose proof (proj1 Hre) as Hab.
  pose proof (exists_fact b ms bool (fun x c => wret x c) s Hab Hpm (real_link b ms Hre)) as (c2 & Hc2).
  assert (Hex2 : wrun h (wbind (wexists_ec dbg (dpath b ms)) (fun x c => wret x c)) s = (WE (WRet true c1), s2)).
  { rewrite (WinRemoveTree.wrun_bind _ _ _ h _ _ _ _ _ _ Hex). reflexivity. }
  rewrite Hex2 in Hc2. cbn in Hc2. injection Hc2 as Hth _ Hs2. split; [congruence|].
  exists b, ms, k. split; [exact Hw|]. split; [unfold max_links in Hk; lia|]. split; [destruct (T b ms); [discriminate|discriminate Hth]|].
  split; [apply dpath_native; [exact Hab|apply propers_wnames; exact Hpm]|exact Hre].
Qed.

Lemma canonical_complete_path : forall t a steps s has b ms k, begins cwd t = Some (a, steps) -> walk T a [] steps b ms k -> (k < 40)%nat -> T b ms <> None ->
  exists n0, forall n, (n0 <= n)%nat -> real b ms /\ wrun h (wcanonical dbg E n has (wpath t)) s = (WE (WRet (dpath b ms) 0), s).
Proof.
  intros t a steps s has b ms k Hb Hw Hk HT.
  assert (Hae : is_wsep a = false /\ Forall proper steps) by (destruct (canonical_start t a steps 0 s has Hb) as (Ha & Hp & _); split; assumption). destruct Hae as [Ha Hp].
  assert (Hboth : forall e : bool, exists n0, forall n, (n0 <= n)%nat -> wrun h (canonical_loop dbg E n has (dpath a []) (dpath a []) (map fpath (steps ++ (if e then [[]] else []))) max_links 0 0) s = (WE (WRet (dpath b ms, 0) 0), s)).
  { intros e. apply (loop_complete a [] steps b ms k Hw); [apply real_root; exact Ha|apply pieces_tail; exact Hp|apply kept_tail; exact Hp|unfold max_links; lia|unfold max_links; lia]. }
  destruct (Hboth true) as (n1 & Hn1). destruct (Hboth false) as (n2 & Hn2). exists (n1 + n2)%nat. intros n Hn.
  destruct (canonical_start t a steps n s has Hb) as (_ & _ & e & ->). pose proof (walk_real _ _ _ _ _ _ Hw Hp (real_root a Ha)) as Hre.
  assert (Hrun : wrun h (canonical_loop dbg E n has (dpath a []) (dpath a []) (map fpath (steps ++ (if e then [[]] else []))) max_links 0 0) s = (WE (WRet (dpath b ms, 0) 0), s)) by (destruct e; [apply Hn1|apply Hn2]; lia).
  rewrite (WinRemoveTree.wrun_bind _ _ _ h _ _ _ _ _ _ Hrun). cbv beta iota zeta. change (negb (0 =? 0)) with false. cbv iota.
  pose proof (real_proper b ms Hre) as Hpm. pose proof (proj1 Hre) as Hab.
  match goal with |- context [wbind (wexists_ec _ _) ?f] => destruct (exists_fact b ms _ f s Hab Hpm (real_link b ms Hre)) as (c & ->) end.
  destruct (T b ms) as [o|]; [|congruence]. cbn [there]. split; [exact Hre|reflexivity].
Qed.

Lemma canonical_complete : forall t a steps s has b ms k, begins cwd t = Some (a, steps) -> walk T a [] steps b ms k -> (k < 40)%nat -> T b ms <> None ->
  exists n0, forall n, (n0 <= n)%nat -> exists q, wrun h (wcanonical dbg E n has (wpath t)) s = (WE (WRet q 0), s) /\ native q = wtext b ms.
Proof.
  intros t a steps s has b ms k Hb Hw Hk HT. destruct (canonical_complete_path t a steps s has b ms k Hb Hw Hk HT) as (n0 & H). exists n0. intros n Hn.
  destruct (H n Hn) as (Hre & Hr). exists (dpath b ms). split; [exact Hr|]. apply dpath_native; [exact (proj1 Hre)|apply propers_wnames; exact (real_proper b ms Hre)].
Qed.

End Canon.
