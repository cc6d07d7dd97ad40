(** C71: canonical on Windows. The specification is at the head of WinCanon.v: [world], [walk], [begins], [shows], [usual].
    Sources: src/fs_ops.cpp:39-56, 84-162 with ASAP_WINDOWS defined, src/windows/stat.cpp:110-146. *)
From Coq Require Import Ascii String Bool Arith NArith ZArith Lia List.
From Verif Require Import Str PathModel PathSpec StrProofs PathProofs PathOps WinPathProps WinPlace WinRelative WinAppend WinDrive WinPermsModel FlagsModel TimeModel WinStatModel WinStatProps WinOpsModel WinOpsProps WinCanon.
Import ListNotations.
Local Open Scope N_scope.

(** * The result *)

(** What canonical returns without an error is the place the names lead to, through fewer than 40 links; it exists, no place on the way
    from the root is a link, no name is "." or "..", and nothing was changed. *)
Theorem C71_sound_partial : forall dbg E S (h : wkernel S) ans T cwd t a steps n has s q s',
  steady h ans -> shows ans T -> usual T -> ans w_CurrentDirectory = inr cwd -> begins cwd t = Some (a, steps) ->
  wrun h (wcanonical dbg E n has (wpath t)) s = (WE (WRet q 0), s') ->
  s' = s /\ exists b ms k, walk T a [] steps b ms k /\ (k < 40)%nat /\ native q = wtext b ms /\ T b ms <> None /\
    Forall (fun n => n <> lit "." /\ n <> lit "..") ms /\
    forall pre r, ms = pre ++ r -> forall u, T b pre <> Some (Link u).
Proof.
  intros dbg E S h ans T cwd t a steps n has s q s' Hst Hsh Hus Hcwd Hb H.
  destruct (canonical_sound dbg E S h ans Hst T Hsh Hus cwd Hcwd t a steps n s has q s' Hb H) as (Hs & b & ms & k & Hw & Hk & HT & Hq & Hre).
  split; [exact Hs|]. exists b, ms, k. split; [exact Hw|]. split; [exact Hk|]. split; [exact Hq|]. split; [exact HT|].
  destruct Hre as (_ & Hd & Hp). split; [eapply Forall_impl; [|exact Hd]; intros x (_ & K); exact K|].
  intros pre r Hr u K. destruct pre as [|x pre]; [exact (proj1 Hus b u K)|]. destruct (Hp (x :: pre) r Hr ltac:(discriminate)) as [X|X]; congruence.
Qed.

(** Where the names lead through fewer than 40 links to a place that exists, canonical returns that place. *)
Theorem C71_complete_partial : forall dbg E S (h : wkernel S) ans T cwd t a steps b ms k has s,
  steady h ans -> shows ans T -> usual T -> ans w_CurrentDirectory = inr cwd -> begins cwd t = Some (a, steps) ->
  walk T a [] steps b ms k -> (k < 40)%nat -> T b ms <> None ->
  exists n0, forall n, (n0 <= n)%nat ->
    exists q, wrun h (wcanonical dbg E n has (wpath t)) s = (WE (WRet q 0), s) /\ native q = wtext b ms.
Proof.
  intros dbg E S h ans T cwd t a steps b ms k has s Hst Hsh Hus Hcwd Hb Hw Hk HT.
  exact (canonical_complete dbg E S h ans Hst T Hsh Hus cwd Hcwd t a steps s has b ms k Hb Hw Hk HT).
Qed.

(** The names lead to one place only. *)
Theorem C71_one_place : forall T a ns steps b ms k b' ms' k', walk T a ns steps b ms k -> walk T a ns steps b' ms' k' -> b = b' /\ ms = ms' /\ k = k'.
Proof.
  intros T a ns steps b ms k b' ms' k' Hw. revert b' ms' k'. induction Hw; intros b' ms' k' H'; inversion H'; subst; try congruence; auto.
  all: try solve [exfalso; match goal with K : _ <> _ |- _ => apply K; reflexivity end].
  all: try (repeat match goal with K : _ \/ _ |- _ => destruct K end; congruence).
  assert (t0 = t) by congruence. subst t0.
  match goal with K1 : goes_to a ns t = Some _, K2 : goes_to a ns t = Some _ |- _ => rewrite K1 in K2; injection K2 as <- <- <- end.
  match goal with K : walk T c ls _ b' ms' _ |- _ => destruct (IHHw _ _ _ K) as (-> & -> & ->) end. auto.
Qed.

(** ** The result once more *)

Lemma full_of_text : forall a ns, is_wsep a = false -> Forall proper ns -> full (wtext a ns) = Some (a, ns).
Proof.
  intros a ns Ha Hp. unfold full, wtext. rewrite Ha, Ascii.eqb_refl. change (is_wsep backslash) with true. cbn [negb andb].
  rewrite (wjoin_names ns (propers_wnames ns Hp)). assert (forallb no_colon ns = true) as ->; [|reflexivity].
  apply no_colons. eapply Forall_impl; [|exact Hp]. intros n (_ & _ & K). exact K.
Qed.

Lemma walk_straight : forall T a r ns, Forall (fun n => n <> lit "." /\ n <> lit "..") r ->
  (forall pre post, r = pre ++ post -> pre <> [] -> T a (ns ++ pre) = Some Folder \/ T a (ns ++ pre) = Some Plain) -> walk T a ns r a (ns ++ r) 0.
Proof.
  intros T a. induction r as [|n r IH]; intros ns Hd H; [rewrite app_nil_r; constructor|].
  inversion Hd as [|? ? [H1 H2] Hd']; subst. apply walk_down; [exact H1|exact H2| |].
  - apply (H [n] r); [reflexivity|discriminate].
  - replace (ns ++ n :: r) with ((ns ++ [n]) ++ r) by (rewrite <- app_assoc; reflexivity). apply IH; [exact Hd'|].
    intros pre post -> Hp. rewrite <- app_assoc. apply (H (n :: pre) post); [reflexivity|discriminate].
Qed.

(** canonical of a result is that result. *)
Theorem C71_idempotent_partial : forall dbg E S (h : wkernel S) ans T cwd t a steps n has s q s',
  steady h ans -> shows ans T -> usual T -> ans w_CurrentDirectory = inr cwd -> begins cwd t = Some (a, steps) ->
  wrun h (wcanonical dbg E n has (wpath t)) s = (WE (WRet q 0), s') ->
  exists n0, forall n, (n0 <= n)%nat ->
    exists q', wrun h (wcanonical dbg E n has (wpath (native q))) s = (WE (WRet q' 0), s) /\ native q' = native q.
Proof.
  intros dbg E S h ans T cwd t a steps n has s q s' Hst Hsh Hus Hcwd Hb H.
  destruct (canonical_sound dbg E S h ans Hst T Hsh Hus cwd Hcwd t a steps n s has q s' Hb H) as (Hs & b & ms & k & Hw & Hk & HT & Hq & Hre).
  rewrite Hq. pose proof (real_proper T b ms Hre) as Hp. destruct Hre as (Hb' & Hd & Hr).
  assert (Hw2 : walk T b [] ms b ms 0).
  { apply (walk_straight T b ms []); [eapply Forall_impl; [|exact Hd]; intros x (_ & K); exact K|]. intros pre post Hpp Hne. exact (Hr pre post Hpp Hne). }
  assert (Hbeg : begins cwd (wtext b ms) = Some (b, ms)) by (unfold begins; rewrite full_of_text by assumption; reflexivity).
  exact (canonical_complete dbg E S h ans Hst T Hsh Hus cwd Hcwd (wtext b ms) b ms s has b ms 0 Hbeg Hw2 ltac:(lia) HT).
Qed.

(** * What does not hold *)

(** Not every failure is told with its code: whatever code Windows gives for a missing or unreachable name ([shows] allows any other than 0 and
    32, so also 5, ERROR_ACCESS_DENIED), the caller is told 2. *)
Theorem C71_codes_refuted : forall dbg E S (h : wkernel S) ans T cwd a x n (has : bool) s,
  steady h ans -> shows ans T -> usual T -> ans w_CurrentDirectory = inr cwd -> is_wsep a = false -> proper x -> x <> lit "." -> x <> lit ".." ->
  T a [x] = None -> (2 <= n)%nat ->
  wrun h (wcanonical dbg E n has (wpath (wtext a [x]))) s = (WE (if has then WRet path_default 2 else WThrow 2), s).
Proof.
  intros dbg E S h ans T cwd a x n has s Hst Hsh Hus Hcwd Ha Hx H1 H2 HT Hn.
  assert (Hb : begins cwd (wtext a [x]) = Some (a, [x])) by (unfold begins; rewrite full_of_text by (assumption || (repeat constructor; apply Hx)); reflexivity).
  destruct (canonical_start dbg E S h ans Hst cwd Hcwd (wtext a [x]) a [x] n s has Hb) as (_ & _ & e & ->).
  destruct n as [|[|n]]; [lia|lia|].
  assert (Hloop : exists m, m <> 0 /\ wrun h (canonical_loop dbg E (Datatypes.S (Datatypes.S n)) has (dpath a []) (dpath a []) (map fpath ([x] ++ (if e then [[]] else []))) max_links 0 0) s =
                         (WE (WRet (dpath a [x], m) 0), s)).
  { destruct (step_name dbg E S h ans Hst T Hsh (Datatypes.S n) has (dpath a []) a [] x (if e then [[]] else []) max_links 0 s (real_root T a Ha) Hx H1 H2) as (m & Hm & Hrun).
    cbn [app] in Hrun, Hm |- *. rewrite HT in *. assert (Hne : m <> 0) by (intros ->; apply (proj1 Hm eq_refl); reflexivity). exists m. split; [exact Hne|]. rewrite Hrun.
    apply N.eqb_neq in Hne. destruct e; cbn [map canonical_loop]; [rewrite Hne|]; reflexivity. }
  destruct Hloop as (m & Hm & Hrun). rewrite (WinRemoveTree.wrun_bind _ _ _ h _ _ _ _ _ _ Hrun). cbv beta iota zeta. apply N.eqb_neq in Hm. rewrite Hm. destruct has; reflexivity.
Qed.

(** A code does not mean that no path is returned: for a file followed by "." the code is 20, not a directory, and the path is that of the file. *)
Theorem C71_empty_on_error_refuted : forall dbg E S (h : wkernel S) ans T cwd a x n s,
  steady h ans -> shows ans T -> usual T -> ans w_CurrentDirectory = inr cwd -> is_wsep a = false -> proper x -> x <> lit "." -> x <> lit ".." ->
  T a [x] = Some Plain -> (4 <= n)%nat ->
  exists q, wrun h (wcanonical dbg E n true (wpath (wtext a [x; lit "."]))) s = (WE (WRet q 20), s) /\ native q = wtext a [x].
Proof.
  intros dbg E S h ans T cwd a x n s Hst Hsh Hus Hcwd Ha Hx H1 H2 HT Hn.
  assert (Hdot : proper (lit ".")) by (split; [discriminate|split; [reflexivity|intros [K|[]]; discriminate]]).
  assert (Hb : begins cwd (wtext a [x; lit "."]) = Some (a, [x; lit "."])) by (unfold begins; rewrite full_of_text by (try assumption; repeat (constructor; try assumption)); reflexivity).
  destruct (canonical_start dbg E S h ans Hst cwd Hcwd _ a _ n s true Hb) as (_ & _ & e & ->).
  destruct n as [|[|[|[|n]]]]; try lia.
  pose proof (real_root T a Ha) as Hr0. assert (Hre : real T a [x]) by (apply (real_down T a [] x Hr0 Hx H1 H2); right; exact HT).
  assert (Hloop : wrun h (canonical_loop dbg E (4 + n) true (dpath a []) (dpath a []) (map fpath ([x; lit "."] ++ (if e then [[]] else []))) max_links 0 0) s =
                         (WE (WRet (dpath a [x], 0) 20), s)).
  { destruct (step_name dbg E S h ans Hst T Hsh (3 + n) true (dpath a []) a [] x (lit "." :: if e then [[]] else []) max_links 0 s Hr0 Hx H1 H2) as (m & Hm & Hrun).
    cbn [app plus] in Hrun, Hm |- *. rewrite HT in *. assert (m = 0) as -> by (apply Hm; discriminate). rewrite Hrun. clear Hrun Hm.
    destruct (step_dot dbg E S h ans Hst T Hsh Hus (2 + n) true (dpath a []) a [x] (if e then [[]] else []) max_links 0 s Hre) as (m & Hm & Hrun).
    rewrite HT in *. assert (m = 0) as -> by (apply Hm; discriminate). cbn [plus] in Hrun |- *. rewrite Hrun. destruct e; reflexivity. }
  cbn [plus] in Hloop. rewrite (WinRemoveTree.wrun_bind _ _ _ h _ _ _ _ _ _ Hloop). cbv beta iota zeta. change (negb (0 =? 0)) with false. cbv iota.
  match goal with |- context [wbind (wexists_ec _ _) ?f] => destruct (exists_fact dbg S h ans Hst T Hsh a [x] _ f s Ha (real_proper T a [x] Hre) (real_link T Hus a [x] Hre)) as (c & ->) end.
  rewrite HT. cbn [there]. exists (dpath a [x]). split; [reflexivity|]. apply dpath_native; [exact Ha|]. apply propers_wnames. exact (real_proper T a [x] Hre).
Qed.

Lemma self_link : forall E x, proper x -> is_absolute Windows E (wpath x) = false /\ elems (wpath x) = [fpath x].
Proof.
  intros E x Hx. unfold wpath. pose proof Hx as (X1 & X2 & X3). pose proof (proper_starts x Hx) as Hs.
  assert (Hn : wnames x = [x]) by (apply (wjoin_names [x]); repeat constructor; assumption).
  assert (Hr : split_root no_wsep x = ([], x)) by (apply names_unrooted; [exact Hs|rewrite Hn; repeat constructor; exact X3]).
  rewrite (is_absolute_split E x _ _ Hr). split; [exact Hs|]. rewrite (name_path x Hx). destruct x; [congruence|reflexivity].
Qed.

(** canonical with an error_code does not always come to an end: with a link [x] to itself, "C:\x\..\x" is followed until the counter, an
    int, leaves its range. *)
Lemma endless : forall dbg E S (h : wkernel S) ans T a x, steady h ans -> shows ans T -> usual T -> is_wsep a = false -> proper x -> x <> lit "." -> x <> lit ".." ->
  T a [x] = Some (Link x) -> forall n has root links ec l s, (links <= 0)%Z ->
  exists r, (r = WFuel \/ r = WStop) /\ wrun h (canonical_loop dbg E n has root (dpath a []) (map fpath (x :: l)) links 0 ec) s = (r, s).
Proof.
  intros dbg E S h ans T a x Hst Hsh Hus Ha Hx H1 H2 HT. induction n as [|n IH]; intros has root links ec l s Hl; [exists WFuel; auto|].
  destruct (step_name dbg E S h ans Hst T Hsh n has root a [] x l links ec s (real_root T a Ha) Hx H1 H2) as (m & _ & ->). cbn [app]. rewrite HT.
  destruct (links - 1 <? - 2 ^ 31)%Z; [exists WStop; auto|]. destruct (Z.eqb_spec (links - 1) 0); [lia|].
  destruct (self_link E x Hx) as [-> ->]. apply (IH has root (links - 1)%Z ec l s). lia.
Qed.

Lemma countdown : forall dbg E S (h : wkernel S) ans T a x, steady h ans -> shows ans T -> usual T -> is_wsep a = false -> proper x -> x <> lit "." -> x <> lit ".." ->
  T a [x] = Some (Link x) -> forall k n root ec l s,
  wrun h (canonical_loop dbg E n true root (dpath a []) (map fpath (x :: l)) (Z.of_nat (Datatypes.S k)) 0 ec) s = (WFuel, s) \/
  exists n', wrun h (canonical_loop dbg E n true root (dpath a []) (map fpath (x :: l)) (Z.of_nat (Datatypes.S k)) 0 ec) s =
     wrun h (canonical_loop dbg E n' true root (dpath a [x]) (map fpath l) 0 0 errc_too_many_symbolic_link_levels) s.
Proof.
  intros dbg E S h ans T a x Hst Hsh Hus Ha Hx H1 H2 HT. induction k as [|k IH]; intros n root ec l s; (destruct n as [|n]; [left; reflexivity|]).
  - destruct (step_name dbg E S h ans Hst T Hsh n true root a [] x l (Z.of_nat 1) ec s (real_root T a Ha) Hx H1 H2) as (m & _ & ->). cbn [app]. rewrite HT.
    right. exists n. reflexivity.
  - destruct (step_name dbg E S h ans Hst T Hsh n true root a [] x l (Z.of_nat (Datatypes.S (Datatypes.S k))) ec s (real_root T a Ha) Hx H1 H2) as (m & _ & ->). cbn [app]. rewrite HT.
   destruct (Z.ltb_spec (Z.of_nat (Datatypes.S (Datatypes.S k)) - 1) (- 2 ^ 31)); [lia|]. destruct (Z.eqb_spec (Z.of_nat (Datatypes.S (Datatypes.S k)) - 1) 0); [lia|].
    destruct (self_link E x Hx) as [-> ->]. replace (Z.of_nat (Datatypes.S (Datatypes.S k)) - 1)%Z with (Z.of_nat (Datatypes.S k)) by lia. apply (IH n root ec l s).
Qed.

Theorem C71_ends_refuted : forall dbg E S (h : wkernel S) ans T cwd a x n s,
  steady h ans -> shows ans T -> usual T -> ans w_CurrentDirectory = inr cwd -> is_wsep a = false -> proper x -> x <> lit "." -> x <> lit ".." ->
  T a [x] = Some (Link x) ->
  exists r, (r = WFuel \/ r = WStop) /\ wrun h (wcanonical dbg E n true (wpath (wtext a [x; lit ".."; x]))) s = (r, s).
Proof.
  intros dbg E S h ans T cwd a x n s Hst Hsh Hus Hcwd Ha Hx H1 H2 HT.
  assert (Hdd : proper (lit "..")) by (split; [discriminate|split; [reflexivity|intros [K|[K|[]]]; discriminate]]).
  assert (Hb : begins cwd (wtext a [x; lit ".."; x]) = Some (a, [x; lit ".."; x])) by (unfold begins; rewrite full_of_text by (try assumption; repeat (constructor; try assumption)); reflexivity).
  destruct (canonical_start dbg E S h ans Hst cwd Hcwd _ a _ n s true Hb) as (_ & _ & e & ->).
  assert (Hloop : exists r, (r = WFuel \/ r = WStop) /\ wrun h (canonical_loop dbg E n true (dpath a []) (dpath a []) (map fpath ([x; lit ".."; x] ++ (if e then [[]] else []))) max_links 0 0) s = (r, s)).
  { cbn [app]. change max_links with (Z.of_nat 40). destruct (countdown dbg E S h ans T a x Hst Hsh Hus Ha Hx H1 H2 HT 39 n (dpath a []) 0 (lit ".." :: x :: if e then [[]] else []) s) as [-> |(n' & ->)]; [exists WFuel; auto|].
    destruct n' as [|n']; [exists WFuel; auto|].
    assert (Hup : parent_path Windows E (dpath a [x]) = Ok (dpath a [])) by (apply (dpath_parent E a [x] Ha); repeat constructor; apply Hx).
    cbn [map canonical_loop]. change (negb (0 =? 0)) with false. cbv iota. change (empty (fst (move_ctor Windows (fpath (lit ".."))))) with false.
    change (is_dot (fst (move_ctor Windows (fpath (lit ".."))))) with false. change (is_dotdot (fst (move_ctor Windows (fpath (lit ".."))))) with true. cbv iota.
    rewrite Hup. cbn [wlift]. rewrite dpath_empty by (assumption || constructor).
    apply (endless dbg E S h ans T a x Hst Hsh Hus Ha Hx H1 H2 HT n' true (dpath a []) 0 errc_too_many_symbolic_link_levels (if e then [[]] else []) s). lia. }
  destruct Hloop as (r & Hr & Hrun).
  assert (Hbind : forall A B (p : wprog A) (f : A -> N -> wprog B) s0 s1, (wrun h p s0 = (WFuel, s1) -> wrun h (wbind p f) s0 = (WFuel, s1)) /\ (wrun h p s0 = (WStop, s1) -> wrun h (wbind p f) s0 = (WStop, s1))).
  { intros A B p f. induction p as [r0|c k IH]; intros s0 s1; cbn [wbind wrun].
    - split; intros K; injection K as -> ->; reflexivity.
    - destruct (h c s0) as [r0 s2]. apply IH. }
  destruct Hr as [-> | ->]; [exists WFuel; split; [auto|]; apply (proj1 (Hbind _ _ _ _ _ _) Hrun)|exists WStop; split; [auto|]; apply (proj2 (Hbind _ _ _ _ _ _) Hrun)].
Qed.

(** * Instances *)

(** A Windows that shows the world [T], with the current directory [cwd]; what a link leads to is shown as a directory. *)
Definition shown (T : world) (cwd : str) : forall c, wanswer c := fun c =>
  match c return wanswer c with
  | w_Info p =>
      match full p with
      | Some (a, ns) =>
          match T a ns with
          | Some Folder => WInfo (inr 16) (inr tt) (inr 16) (inr tt) (inl 4390) plain_security
          | Some Plain => WInfo (inr 128) (inr tt) (inr 128) (inr tt) (inl 4390) plain_security
          | Some (Link _) => WInfo (inr 1024) (inr tt) (inr 16) (inr tt) (inr 2684354572) plain_security
          | None => WInfo (inl 2) (inl 2) (inl 2) (inl 2) (inl 2) plain_security
          end
      | None => WInfo (inl 3) (inl 3) (inl 3) (inl 3) (inl 3) plain_security
      end
  | w_Reparse p =>
      match full p with
      | Some (a, ns) =>
          match T a ns with
          | Some (Link t) => inr (Reparse 2684354572 0 0 0 (2 * N.of_nat (length t)) (1 :: 0 :: map N_of_ascii t))
          | _ => inl 4390
          end
      | None => inl 3
      end
  | w_CurrentDirectory => inr cwd
  | w_TempPath => (0, 5, [])
  | w_Find _ => (inl 2, 0)
  | w_FileInfo _ => inl 5
  | w_AttributesEx _ => inl 5
  | w_Attributes _ => inl 5
  | w_WriteTime _ => inl 5
  | w_DiskFreeSpace _ => inl 5
  | w_RemoveDirectory _ => inl 5
  | w_DeleteFile _ => inl 5
  | w_CreateDirectory _ => inl 5
  | w_CreateDirectoryEx _ _ => inl 5
  | w_CopyFile _ _ _ => inl 5
  | w_CreateSymbolicLink _ _ _ => inl 5
  | w_CreateHardLink _ _ => inl 5
  | w_SetWriteTime _ _ => inl 5
  | w_SetCurrentDirectory _ => inl 5
  | w_Rename _ _ => inl 5
  | w_OpenExclusive _ => inl 5
  | w_SetEnd _ _ => inl 5
  end.
Definition still (T : world) (cwd : str) : wkernel unit := fun c s => (shown T cwd c, s).

Lemma still_steady : forall T cwd, steady (still T cwd) (shown T cwd).
Proof. intros T cwd c s _. reflexivity. Qed.

Lemma plain_readable : readable plain_security.
Proof. split; [reflexivity|]. intros t _. eexists. reflexivity. Qed.

Lemma shown_shows : forall T cwd, shows (shown T cwd) T.
Proof.
  intros T cwd a ns Ha Hp. cbv zeta. unfold shown. rewrite (full_of_text a ns Ha Hp).
  destruct (T a ns) as [[| |t]|]; cbn.
  - split; [exact plain_readable|]. exists 16. repeat split.
  - split; [exact plain_readable|]. exists 128. repeat split.
  - split; [exact plain_readable|]. exists 1024. split; [reflexivity|]. split; [reflexivity|]. split; [reflexivity|]. split; [exists 2684354572; split; [reflexivity|left; reflexivity]|].
    eexists. split; [reflexivity|]. exists 1, 0, [], []. cbn. rewrite app_nil_r. repeat split; reflexivity.
  - exists 2. repeat split; discriminate.
Qed.

(** C:\ with a directory d holding a file f, a link l to "d", a link k to "..\l\.\f" in d, a link z to itself and a link m to "C:/d/k". *)
Definition small : world := fun a ns =>
  if Ascii.eqb a "C" then
    match ns with
    | [] => Some Folder
    | [x] => if str_eqb x (lit "d") then Some Folder else if str_eqb x (lit "f") then Some Plain else if str_eqb x (lit "l") then Some (Link (lit "d"))
             else if str_eqb x (lit "z") then Some (Link (lit "z")) else if str_eqb x (lit "m") then Some (Link (lit "C:/d/k"))
             else if str_eqb x (lit "h") then Some (Link (lit ".")) else None
    | [x; y] => if str_eqb x (lit "d") then if str_eqb y (lit "f") then Some Plain else if str_eqb y (lit "k") then Some (Link (lit "..\l\.\f")) else None else None
    | _ => None
    end
  else None.

Lemma small_usual : usual small.
Proof.
  split.
  - intros a t. unfold small. destruct (Ascii.eqb a "C"); discriminate.
  - intros a ns t. unfold small. destruct (Ascii.eqb a "C"); [|discriminate].
    destruct ns as [|x [|y [|z ns]]]; try discriminate; repeat match goal with |- context [str_eqb ?u ?v] => destruct (str_eqb u v) end; intros H; try discriminate H; injection H as <-; discriminate.
Qed.

Definition Cd : ascii := "C".

Example C71_example : begins (lit "C:\d") (lit "../m") = Some (Cd, [lit "d"; lit ".."; lit "m"]) /\
  walk small Cd [] [lit "d"; lit ".."; lit "m"] Cd [lit "d"; lit "f"] 3 /\ small Cd [lit "d"; lit "f"] <> None /\
  forall E, exists q, wrun (still small (lit "C:\d")) (wcanonical true E 20 true (wpath (lit "../m"))) tt = (WE (WRet q 0), tt) /\ native q = lit "C:\d\f".
Proof.
  split; [reflexivity|]. split.
  { apply walk_down; [discriminate|discriminate|left; reflexivity|]. apply walk_up. eapply walk_link; [discriminate|discriminate|reflexivity|reflexivity|].
    apply walk_down; [discriminate|discriminate|left; reflexivity|]. eapply walk_link; [discriminate|discriminate|reflexivity|reflexivity|]. apply walk_up.
    eapply walk_link; [discriminate|discriminate|reflexivity|reflexivity|]. apply walk_down; [discriminate|discriminate|left; reflexivity|].
    apply walk_here; [reflexivity|]. apply walk_down; [discriminate|discriminate|right; reflexivity|]. constructor. }
  split; [discriminate|]. intros [a b c]. destruct a, b, c; eexists; split; vm_compute; reflexivity.
Qed.

Example C71_refuted_example : small Cd [lit "q"] = None /\ small Cd [lit "f"] = Some Plain /\ small Cd [lit "z"] = Some (Link (lit "z")) /\
  steady (still small (lit "C:\")) (shown small (lit "C:\")) /\ shows (shown small (lit "C:\")) small /\ usual small /\ shown small (lit "C:\") w_CurrentDirectory = inr (lit "C:\") /\
  wtext Cd [lit "f"; lit "."] = lit "C:\f\." /\ wtext Cd [lit "z"; lit ".."; lit "z"] = lit "C:\z\..\z".
Proof. repeat split; try reflexivity; try apply still_steady; try apply shown_shows; apply small_usual. Qed.

(** ** Too many links, and links without a drive *)

(** With an error_code, the 40th link of a path is left in the result beside the code 114: "C:\h\h..." with 40 times the link h to ".". *)
Theorem C71_links_refuted : forall E, exists q, wrun (still small (lit "C:\")) (wcanonical true E 100 true (wpath (wtext Cd (repeat (lit "h") 40)))) tt = (WE (WRet q 114), tt) /\
  native q = lit "C:\h" /\ small Cd [lit "h"] = Some (Link (lit ".")).
Proof. intros [a b c]. destruct a, b, c; eexists; (split; [vm_compute; reflexivity|]); split; reflexivity. Qed.

(** A link on drive D whose text is "\f" leads to the file f of drive D. canonical returns the text "\f", which has no drive: with a current
    directory on another drive it denotes a file there. *)
Definition rooted (c : wcall) : wanswer c :=
  let file := WInfo (inr 128) (inr tt) (inr 128) (inr tt) (inl 4390) plain_security in
  let link := WInfo (inr 1024) (inr tt) (inr 128) (inr tt) (inr 2684354572) plain_security in
  match c return wanswer c with
  | w_Info p => if str_eqb p (lit "D:\r") then link else file
  | w_Reparse p => if str_eqb p (lit "D:\r") then inr (Reparse 2684354572 0 0 0 4 (0 :: 0 :: map N_of_ascii (lit "\f"))) else inl 4390
  | w_CurrentDirectory => inr (lit "C:\")
  | c => shown small [] c
  end.
Theorem C71_drive_refuted : forall dbg E, exists q,
  wrun (fun c (s : unit) => (rooted c, s)) (wcanonical dbg E 9 true (wpath (lit "D:\r"))) tt = (WE (WRet q 0), tt) /\ native q = lit "\f" /\ has_root_name q = false.
Proof. intros dbg [a b c]. destruct dbg, a, b, c; eexists; (split; [vm_compute; reflexivity|]); split; reflexivity. Qed.

Print Assumptions C71_sound_partial.
Print Assumptions C71_complete_partial.
Print Assumptions C71_one_place.
Print Assumptions C71_idempotent_partial.
Print Assumptions C71_codes_refuted.
Print Assumptions C71_empty_on_error_refuted.
Print Assumptions C71_ends_refuted.
Print Assumptions C71_links_refuted.
Print Assumptions C71_drive_refuted.
