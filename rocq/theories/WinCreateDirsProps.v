(** C82: create_directories on Windows.
    Sources: src/fs_ops.cpp:630-710 with ASAP_WINDOWS defined. *)
From Coq Require Import Ascii String Bool Arith NArith ZArith Lia List.
From Verif Require Import Str PathModel PathSpec StrProofs PathProofs PathOps WinPathProps WinPlace WinAppend WinNormal WinDrive WinPermsModel FlagsModel TimeModel WinStatModel WinStatProps WinOpsModel WinOpsProps WinCreateDirs.
From Verif Require WinRemoveTree.
Import ListNotations.
Local Open Scope N_scope.

(** For a path with no root name or a drive, no trailing separator, no name with a colon and single separators, on every system with directories ([folders]): when the place the root leads
    to and all above it are directories and no file is in the way, either every place along the path is a directory afterwards and the value tells whether something
    was missing, or Windows refused to create one of them and the failure is told with its code. Nothing that was there is changed, and
    nothing outside the path is created. *)
Theorem C82_tree_partial : forall E dbg has S (h : wkernel S) view start rn d ns n s,
  folders h view start -> local_root rn -> Forall proper ns -> ctext rn d ns false <> [] -> (length ns < n)%nat ->
  let a := fst (start rn d) in
  let b := snd (start rn d) in
  (forall u v, b = u ++ v -> view s a u = Some Dir) ->
  (forall pre suf, ns = pre ++ suf -> view s a (walk b pre) <> Some Doc) ->
  (exists created s', wrun h (wcreate_directories dbg E n has (wpath (ctext rn d ns false))) s = (WE (WRet created 0), s') /\
     (created = true <-> exists pre suf, ns = pre ++ suf /\ view s a (walk b pre) = None) /\
     (created = false -> s' = s) /\
     (forall pre suf, ns = pre ++ suf -> view s' a (walk b pre) = Some Dir) /\
     (forall k ms, view s' k ms <> view s k ms -> view s k ms = None /\ k = a /\ exists pre suf, ns = pre ++ suf /\ ms = walk b pre)) \/
  (exists e s' pre x suf, wrun h (wcreate_directories dbg E n has (wpath (ctext rn d ns false))) s = (told has false e, s') /\ e <> 0 /\
     ns = pre ++ x :: suf /\ h (w_CreateDirectory (ctext rn d (pre ++ [x]) false)) s' = (inl e, s') /\ view s' a (walk b (pre ++ [x])) = None /\
     (forall k ms, view s' k ms <> view s k ms -> view s k ms = None /\ view s' k ms = Some Dir /\ k = a /\ exists pre' suf', pre = pre' ++ suf' /\ ms = walk b pre')).
Proof.
  intros E dbg has S h view start rn d ns n s Hf Hr Hp Hne Hn a b Hch Hdoc.
  unfold wcreate_directories. assert (Hem : empty (wpath (ctext rn d ns false)) = false).
  { unfold empty. fold (native (wpath (ctext rn d ns false))). unfold wpath. rewrite ctext_native by (apply local_ok; assumption). destruct (ctext rn d ns false); [congruence|reflexivity]. }
  rewrite Hem. destruct (push_spec E rn d ns n (wpath (ctext rn d ns false)) [] Hr Hp (or_introl eq_refl) Hn) as (L & HL & HLn). rewrite HL, app_nil_r. cbn [wret wbind].
  assert (Hmatch : forall r, wrun h (wcreate_missing dbg has L false) s = r -> wrun h (match L with [] => wret false 0 | _ :: _ => wcreate_missing dbg has L false end) s = r).
  { intros r <-. destruct L; reflexivity. }
  destruct (create_spec dbg S h view start Hf rn d Hr has ns [] L s false Hp HLn Hch Hdoc)
    as [(c' & s' & Hrun & Hc & Hall & Hfr)|(e & s' & pre & x & suf & Hrun & He & Hl & Hcr & Hv & Hfr)]; cbn [app] in *.
  - left. exists c', s'. split; [apply Hmatch; exact Hrun|]. split; [|split; [|split]].
    + split.
      * intros ->. destruct Hc as [[Hc _]|[_ Hc]]; [discriminate|exact Hc].
      * intros (pre & suf & Hl & Hv). destruct Hc as [[-> ->]|[Hc _]]; [|exact Hc]. assert (K : view s a (walk b pre) = Some Dir) by (exact (Hall pre suf Hl)). congruence.
    + intros ->. destruct Hc as [[_ Hc]|[Hc _]]; [exact Hc|discriminate].
    + exact Hall.
    + intros k ms K. destruct (Hfr k ms) as [K2|(K1 & _ & K2 & K3)]; [contradiction|]. auto.
  - right. exists e, s', pre, x, suf. split; [apply Hmatch; exact Hrun|]. split; [exact He|]. split; [exact Hl|]. split; [exact Hcr|]. split; [exact Hv|].
    intros k ms K. destruct (Hfr k ms) as [K2|K2]; [contradiction|exact K2].
Qed.

(** ** A disk for the examples *)

(** The state is the list of the directories; the current directory is "w" on each drive, "C" the current drive. *)
Definition place_eqb (p q : ascii * list str) : bool := if list_eq_dec (list_eq_dec ascii_dec) (snd p) (snd q) then Ascii.eqb (fst p) (fst q) else false.
Definition on_disk (s : list (ascii * list str)) (p : ascii * list str) : bool := existsb (place_eqb p) s.
Definition disk_start (rn : str) (d : bool) : ascii * list str :=
  (match rn with a :: _ => a | [] => "C"%char end, if d then [] else [lit "w"]).
Definition disk_view (s : list (ascii * list str)) (a : ascii) (ns : list str) : option node := if on_disk s (a, ns) then Some Dir else None.
Definition place_of (t : str) : ascii * list str :=
  let (rn, rest) := split_root no_wsep t in
  let (a, b) := disk_start rn (wstarts rest) in (a, walk b (wnames rest)).
Definition disk_info (there : bool) : winfo :=
  WInfo (if there then inr 16 else inl 2) (inl 2) (inl 2) (inl 2) (inl 2) plain_security.
Definition disk : wkernel (list (ascii * list str)) := fun c s =>
  match c return wanswer c * _ with
  | w_Info t => (disk_info (on_disk s (place_of t)), s)
  | w_CreateDirectory t =>
      if on_disk s (place_of t) then (inl 183, s)
      else if on_disk s (fst (place_of t), removelast (snd (place_of t))) then (inr tt, place_of t :: s) else (inl 3, s)
  | w_FileInfo _ | w_AttributesEx _ | w_Attributes _ | w_Reparse _ | w_WriteTime _ | w_CurrentDirectory | w_DiskFreeSpace _ => (inl 5, s)
  | w_Find _ => ((inl 5, 5), s)
  | w_TempPath => ((0, 5, []), s)
  | _ => (inl 5, s)
  end.

Lemma place_eqb_spec : forall p q, place_eqb p q = true <-> p = q.
Proof.
  intros [a p] [b q]. unfold place_eqb. cbn [fst snd]. destruct (list_eq_dec (list_eq_dec ascii_dec) p q) as [->|K].
  - rewrite Ascii.eqb_eq. split; [intros ->; reflexivity|intros K; injection K; auto].
  - split; [discriminate|]. intros X. injection X. intros. contradiction.
Qed.

Lemma place_of_text : forall rn d ns, local_root rn -> Forall proper ns -> place_of (ctext rn d ns false) = (fst (disk_start rn d), walk (snd (disk_start rn d)) ns).
Proof.
  intros rn d ns Hr Hp. destruct (ctext_root rn d ns false (local_ok rn d ns Hr Hp)) as (rest & Hs & _ & Hst & Hn & _). unfold place_of. rewrite Hs, Hst, Hn. reflexivity.
Qed.

Lemma plain_readable : readable plain_security.
Proof. split; [reflexivity|]. intros t Ht. eexists. reflexivity. Qed.

Lemma disk_folders : folders disk disk_view disk_start.
Proof.
  split.
  - intros s rn d ns Hr Hp. eexists. split; [reflexivity|]. rewrite place_of_text by assumption. unfold disk_view. destruct (on_disk s _); cbn.
    + split; [exact plain_readable|]. exists 16. repeat split; reflexivity.
    + left. reflexivity.
  - intros s rn d ns x Hr Hp Hx Hup Hnone. left. cbn [disk]. rewrite place_of_text by assumption. unfold disk_view in *. cbn [fst snd].
    destruct (on_disk s (fst (disk_start rn d), walk (snd (disk_start rn d)) (ns ++ [x]))) eqn:E1; [discriminate|].
    rewrite walk_snoc by exact Hx. rewrite removelast_last. destruct (on_disk s (fst (disk_start rn d), walk (snd (disk_start rn d)) ns)) eqn:E2; [|discriminate].
    eexists. split; [reflexivity|]. intros b ms. unfold on_disk. cbn [existsb]. destruct (place_eqb (b, ms) (fst (disk_start rn d), walk (snd (disk_start rn d)) ns ++ [x])) eqn:E3; cbn [orb].
    + left. apply place_eqb_spec in E3. injection E3 as -> ->. auto.
    + right. split; [reflexivity|]. intros [-> ->]. assert (K : place_eqb (fst (disk_start rn d), walk (snd (disk_start rn d)) ns ++ [x]) (fst (disk_start rn d), walk (snd (disk_start rn d)) ns ++ [x]) = true) by (apply place_eqb_spec; reflexivity). congruence.
Qed.

Definition small_disk : list (ascii * list str) := [("C"%char, []); ("C"%char, [lit "w"]); ("C"%char, [lit "w"; lit "a"])].

(** "a\.\b\..\c" below the current directory "C:\w", where "a" is there: "b" and "c" are created. *)
Example ex_C82_tree : forall E dbg, exists s', wrun disk (wcreate_directories dbg E 9 true (wpath (lit "a\.\b\..\c"))) small_disk = (WE (WRet true 0), s') /\
  on_disk s' ("C"%char, [lit "w"; lit "a"; lit "b"]) = true /\ on_disk s' ("C"%char, [lit "w"; lit "a"; lit "c"]) = true.
Proof.
  intros E dbg.
  destruct (C82_tree_partial E dbg true _ disk disk_view disk_start [] false [lit "a"; lit "."; lit "b"; lit ".."; lit "c"] 9 small_disk disk_folders) as [(c & s' & Hrun & Hc & _ & Hall & _)|H].
  - left. reflexivity.
  - repeat constructor; try discriminate; cbn; intuition discriminate.
  - discriminate.
  - cbn. lia.
  - intros [|u0 [|u1 u]] v K; cbn in K; [reflexivity| |destruct u; discriminate]. injection K as <- <-. reflexivity.
  - intros pre suf _. unfold disk_view. destruct (on_disk _ _); discriminate.
  - exists s'. assert (c = true) as ->.
    { apply Hc. exists [lit "a"; lit "."; lit "b"], [lit ".."; lit "c"]. split; reflexivity. }
    split; [exact Hrun|]. pose proof (Hall [lit "a"; lit "."; lit "b"] [lit ".."; lit "c"] eq_refl) as H1. pose proof (Hall _ [] (eq_sym (app_nil_r _))) as H2.
    unfold disk_view in H1, H2. cbn in H1, H2. split.
    + destruct (on_disk s' ("C"%char, [lit "w"; lit "a"; lit "b"])) eqn:K; [reflexivity|]. exfalso. cbn in H1. unfold lit in K. cbn in K. rewrite K in H1. discriminate.
    + destruct (on_disk s' ("C"%char, [lit "w"; lit "a"; lit "c"])) eqn:K; [reflexivity|]. exfalso. unfold lit in K. cbn in K. rewrite K in H2. discriminate.
  - exfalso. destruct H as (e & s' & pre & x & suf & Hrun & _). revert Hrun. destruct E as [[] [] []], dbg; vm_compute; discriminate.
Qed.

(** ** Any system *)

Lemma made_missing : forall dbg has S (h : wkernel S) M c s call, In call (made h (wcreate_missing dbg has M c) s) -> exists p, In p M /\ call = w_CreateDirectory (native p).
Proof.
  intros dbg has S h M. unfold made. induction M as [|top M IH]; intros c s call H; [destruct H|]. cbn [wcreate_missing] in H. unfold wstatus_of at 1 in H. cbn [wbind wcalls] in H.
  destruct (h (w_Info (native top)) s) as [i s1]. cbn [filter changes] in H.
  assert (Hlast : forall c' s2 m_ec, In call (filter changes (wcalls h (wbind (if negb (m_ec =? 0) then wbind (wstatus_of dbg false top) (fun st' _ => wret tt (if wis ft_directory st' then 0 else m_ec)) else wret tt 0)
    (fun _ m_ec2 => if negb (m_ec2 =? 0) then wbad has false m_ec2 else wcreate_missing dbg has M c')) s2)) -> exists p, In p (top :: M) /\ call = w_CreateDirectory (native p)).
  { intros c' s2 m_ec K.
    assert (Hend : forall e s3, In call (filter changes (wcalls h (if negb (e =? 0) then wbad has false e else wcreate_missing dbg has M c') s3)) -> exists p, In p (top :: M) /\ call = w_CreateDirectory (native p)).
    { intros e s3 X. destruct (negb (e =? 0)); [destruct X|]. destruct (IH _ _ _ X) as (p & Hp & ->). exists p. split; [right; exact Hp|reflexivity]. }
    destruct (negb (m_ec =? 0)).
    - unfold wstatus_of in K. cbn [wbind wcalls] in K. destruct (h (w_Info (native top)) s2) as [j s3]. cbn [filter changes] in K.
      destruct (wstatus_impl dbg false j) as [st e|code|]; cbn [wbind wret] in K; [|destruct K|destruct K]. apply (Hend _ _ K).
    - cbn [wret wbind] in K. apply (Hend 0 s2). exact K. }
  destruct (wstatus_impl dbg true i) as [st e|code|]; cbn [wbind] in H; [|destruct H|destruct H].
  destruct (wis ft_not_found st).
  - unfold wcreate_directory in H. cbn [wbind wcalls] in H. destruct (h (w_CreateDirectory (native top)) s1) as [[e2|u] s2]; cbn [filter changes] in H; destruct H as [<-|H].
    1, 3: exists top; split; [left; reflexivity|reflexivity].
    + destruct (negb (e2 =? ERROR_ALREADY_EXISTS)).
      * unfold wfail, wcapture, wreport in H. destruct (dbg && (e2 =? 0)); cbn [wbind wret] in H; [destruct H|]. apply (Hlast _ _ _ H).
      * cbn [wbind wret] in H. apply (Hlast (c || true) s2 0). exact H.
    + cbn [wbind wret] in H. apply (Hlast (c || true) s2 0). exact H.
  - cbn [wbind wret] in H. apply (Hlast _ _ _ H).
Qed.

Lemma texts_in : forall rn d l P t, In t (texts rn d P l) -> exists pre x suf, l = pre ++ x :: suf /\ ~ dotted x /\ t = ctext rn d (P ++ pre ++ [x]) false.
Proof.
  intros rn d l. induction l as [|y l IH]; intros P t H; [destruct H|]. cbn [texts] in H. apply in_app_or in H. destruct H as [H|H].
  - destruct (is_dotted y) eqn:Hy; [destruct H|]. destruct H as [<-|[]]. exists [], y, l. split; [reflexivity|]. split; [intros K; apply dotted_spec in K; congruence|reflexivity].
  - destruct (IH _ _ H) as (pre & x & suf & -> & Hx & ->). exists (y :: pre), x, suf. split; [reflexivity|]. split; [exact Hx|]. rewrite <- app_assoc. reflexivity.
Qed.

(** Whatever Windows answers, the only changes tried are creations of the path and of its beginnings that end in a name other than "." and "..". *)
Theorem C82_only_prefixes_partial : forall E dbg has S (h : wkernel S) rn d ns n s call, local_root rn -> Forall proper ns -> (length ns < n)%nat ->
  In call (made h (wcreate_directories dbg E n has (wpath (ctext rn d ns false))) s) ->
  exists pre x suf, ns = pre ++ x :: suf /\ ~ dotted x /\ call = w_CreateDirectory (ctext rn d (pre ++ [x]) false).
Proof.
  intros E dbg has S h rn d ns n s call Hr Hp Hn H. unfold wcreate_directories in H. destruct (empty (wpath (ctext rn d ns false))); [destruct H|].
  destruct (push_spec E rn d ns n (wpath (ctext rn d ns false)) [] Hr Hp (or_introl eq_refl) Hn) as (L & HL & HLn). rewrite HL, app_nil_r in H. cbn [wret wbind] in H.
  assert (K : In call (made h (wcreate_missing dbg has L false) s)) by (destruct L; [destruct H|exact H]).
  destruct (made_missing _ _ _ _ _ _ _ _ K) as (p & Hin & ->). assert (Ht : In (native p) (texts rn d [] ns)) by (rewrite <- HLn; apply in_map; exact Hin).
  destruct (texts_in _ _ _ _ _ Ht) as (pre & x & suf & -> & Hx & E1). exists pre, x, suf. cbn [app] in E1. rewrite E1. auto.
Qed.

(** "C:\a\..\b" with nothing there: "C:\a" and "C:\a\..\b" are created, in this order. *)
Example ex_C82_only_prefixes : forall E dbg,
  made disk (wcreate_directories dbg E 9 true (wpath (lit "C:\a\..\b"))) small_disk = [w_CreateDirectory (lit "C:\a"); w_CreateDirectory (lit "C:\a\..\b")].
Proof. intros [[] [] []] []; vm_compute; reflexivity. Qed.

(** Refuted: a path that ends in a separator. No call is made, nothing is created, and there is no error. *)
Theorem C82_trailing_refuted : forall E dbg has S (h : wkernel S) rn d ns n s, local_root rn -> Forall proper ns -> ns <> [] -> (0 < n)%nat ->
  wrun h (wcreate_directories dbg E n has (wpath (ctext rn d ns true))) s = (WE (WRet false 0), s) /\
  wcalls h (wcreate_directories dbg E n has (wpath (ctext rn d ns true))) s = [].
Proof.
  intros E dbg has S h rn d ns n s Hr Hp Hns Hn. unfold wcreate_directories. pose proof (local_ok rn d ns Hr Hp) as Hok.
  assert (Hem : empty (wpath (ctext rn d ns true)) = false).
  { unfold empty. fold (native (wpath (ctext rn d ns true))). unfold wpath. rewrite ctext_native by exact Hok. destruct (ctext rn d ns true) eqn:K; [|reflexivity].
    exfalso. destruct (nil_parts rn d ns true Hok K) as (_ & _ & X). contradiction. }
  rewrite Hem. destruct n as [|n]; [lia|]. cbn [wpush_missing].
  pose proof (Rep_has_filename rn d ns true (wpath (ctext rn d ns true)) Hok (or_introl eq_refl)) as K. rewrite andb_false_r in K. rewrite K.
  cbn [wlift negb wret wbind]. split; reflexivity.
Qed.

Example ex_C82_trailing : forall E dbg has, wrun disk (wcreate_directories dbg E 9 has (wpath (lit "C:\x\y\"))) small_disk = (WE (WRet false 0), small_disk).
Proof.
  intros E dbg has. apply (C82_trailing_refuted E dbg has _ disk (lit "C:") true [lit "x"; lit "y"] 9 small_disk); [right; exists "C"%char; split; reflexivity| |discriminate|lia].
  repeat constructor; try discriminate; cbn; intuition discriminate.
Qed.

(** Refuted: a file of that name. The value is false and there is no error, as for a directory that is there ([attr] may be either). *)
Theorem C82_file_refuted : forall E dbg has S (h : wkernel S) rn d x n s i attr, local_root rn -> proper x -> ~ dotted x -> (1 < n)%nat ->
  h (w_Info (ctext rn d [x] false)) s = (i, s) -> readable (w_security i) -> w_attrs i = inr attr -> is_reparse attr = false ->
  wrun h (wcreate_directories dbg E n has (wpath (ctext rn d [x] false))) s = (WE (WRet false 0), s).
Proof.
  intros E dbg has S h rn d x n s i attr Hr Hx Hd Hn Hi Hs Ha Hrp. unfold wcreate_directories. assert (Hp : Forall proper [x]) by (constructor; [exact Hx|constructor]).
  assert (Hem : empty (wpath (ctext rn d [x] false)) = false).
  { unfold empty. fold (native (wpath (ctext rn d [x] false))). unfold wpath. rewrite ctext_native by (apply local_ok; assumption).
    pose proof (ctext_nonempty rn d [] x Hx) as K. cbn [app] in K. destruct (ctext rn d [x] false); [congruence|reflexivity]. }
  rewrite Hem. destruct (push_spec E rn d [x] n (wpath (ctext rn d [x] false)) [] Hr Hp (or_introl eq_refl)) as (L & HL & HLn); [cbn; lia|]. rewrite HL, app_nil_r. cbn [wret wbind].
  cbn [texts app] in HLn. destruct (is_dotted x) eqn:Hdx; [apply dotted_spec in Hdx; contradiction|]. destruct L as [|top [|? ?]]; try discriminate. injection HLn as Htop.
  cbn [wcreate_missing]. unfold wstatus_of at 1. rewrite Htop. cbn [wbind wrun]. rewrite Hi.
  destruct (looks_there dbg i (if is_dir attr then Dir else Doc)) as (st & Hst & Hnf).
  { split; [exact Hs|]. exists attr. split; [exact Ha|]. split; [exact Hrp|]. destruct (is_dir attr); reflexivity. }
  rewrite Hst. cbn [wbind]. rewrite Hnf. reflexivity.
Qed.

(** A system where everything is a file: attribute 128, FILE_ATTRIBUTE_NORMAL. *)
Definition all_files : wkernel unit := fun c s =>
  match c return wanswer c * _ with
  | w_Info t => (WInfo (inr 128) (inl 2) (inl 2) (inl 2) (inl 2) plain_security, s)
  | w_FileInfo _ | w_AttributesEx _ | w_Attributes _ | w_Reparse _ | w_WriteTime _ | w_CurrentDirectory | w_DiskFreeSpace _ => (inl 5, s)
  | w_Find _ => ((inl 5, 5), s)
  | w_TempPath => ((0, 5, []), s)
  | _ => (inl 5, s)
  end.
Example ex_C82_file : forall E dbg has, wrun all_files (wcreate_directories dbg E 9 has (wpath (lit "C:\x"))) tt = (WE (WRet false 0), tt).
Proof.
  intros E dbg has. eapply (C82_file_refuted E dbg has _ all_files (lit "C:") true (lit "x") 9 tt); [right; exists "C"%char; split; reflexivity| | | |reflexivity|exact plain_readable|reflexivity|reflexivity].
  - split; [discriminate|]. split; [reflexivity|]. cbn. intuition discriminate.
  - intros [K|K]; discriminate.
  - lia.
Qed.

(** Refuted: between the status and CreateDirectory another process makes something of that name, even a file: Windows answers ERROR_ALREADY_EXISTS, and the
    value is true though nothing was created. *)
Theorem C82_race_refuted : forall E dbg has S (h : wkernel S) rn d x n s i s1 s2, local_root rn -> proper x -> ~ dotted x -> (1 < n)%nat ->
  h (w_Info (ctext rn d [x] false)) s = (i, s1) -> w_attrs i = inl 2 -> h (w_CreateDirectory (ctext rn d [x] false)) s1 = (inl 183, s2) ->
  wrun h (wcreate_directories dbg E n has (wpath (ctext rn d [x] false))) s = (WE (WRet true 0), s2).
Proof.
  intros E dbg has S h rn d x n s i s1 s2 Hr Hx Hd Hn Hi Ha Hc. unfold wcreate_directories. assert (Hp : Forall proper [x]) by (constructor; [exact Hx|constructor]).
  assert (Hem : empty (wpath (ctext rn d [x] false)) = false).
  { unfold empty. fold (native (wpath (ctext rn d [x] false))). unfold wpath. rewrite ctext_native by (apply local_ok; assumption).
    pose proof (ctext_nonempty rn d [] x Hx) as K. cbn [app] in K. destruct (ctext rn d [x] false); [congruence|reflexivity]. }
  rewrite Hem. destruct (push_spec E rn d [x] n (wpath (ctext rn d [x] false)) [] Hr Hp (or_introl eq_refl)) as (L & HL & HLn); [cbn; lia|]. rewrite HL, app_nil_r. cbn [wret wbind].
  cbn [texts app] in HLn. destruct (is_dotted x) eqn:Hdx; [apply dotted_spec in Hdx; contradiction|]. destruct L as [|top [|? ?]]; try discriminate. injection HLn as Htop.
  cbn [wcreate_missing]. unfold wstatus_of at 1. rewrite Htop. cbn [wbind wrun]. rewrite Hi.
  destruct (looks_absent dbg i true (or_introl Ha)) as (st & e & Hst & Hnf & _). rewrite Hst. cbn [wbind]. rewrite Hnf. unfold wcreate_directory. rewrite Htop. cbn [wbind wrun]. rewrite Hc. reflexivity.
Qed.

(** A system where the name is taken at the first try to create a directory. *)
Definition busy : wkernel bool := fun c s =>
  match c return wanswer c * _ with
  | w_Info t => (WInfo (if s then inr 128 else inl 2) (inl 2) (inl 2) (inl 2) (inl 2) plain_security, s)
  | w_CreateDirectory t => (inl 183, true)
  | w_FileInfo _ | w_AttributesEx _ | w_Attributes _ | w_Reparse _ | w_WriteTime _ | w_CurrentDirectory | w_DiskFreeSpace _ => (inl 5, s)
  | w_Find _ => ((inl 5, 5), s)
  | w_TempPath => ((0, 5, []), s)
  | _ => (inl 5, s)
  end.
Example ex_C82_race : forall E dbg has, wrun busy (wcreate_directories dbg E 9 has (wpath (lit "x"))) false = (WE (WRet true 0), true).
Proof.
  intros E dbg has. eapply (C82_race_refuted E dbg has _ busy [] false (lit "x") 9 false); [left; reflexivity| | | |reflexivity|reflexivity|reflexivity].
  - split; [discriminate|]. split; [reflexivity|]. cbn. intuition discriminate.
  - intros [K|K]; discriminate.
  - lia.
Qed.

(** The empty path is refused with EINVAL, without a call. *)
Theorem C82_empty : forall E dbg has S (h : wkernel S) n s, wrun h (wcreate_directories dbg E n has (wpath [])) s = (told has false 22, s).
Proof. intros. reflexivity. Qed.

Print Assumptions C82_tree_partial.
Print Assumptions C82_only_prefixes_partial.
Print Assumptions C82_trailing_refuted.
Print Assumptions C82_file_refuted.
Print Assumptions C82_race_refuted.
Print Assumptions C82_empty.
