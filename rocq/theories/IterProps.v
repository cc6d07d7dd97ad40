(** Properties of the directory iterators over every kernel. *)
From Coq Require Import Ascii String Bool Arith NArith ZArith Lia.
From Verif Require Import Str PathModel PathSpec StrProofs PathProofs PathOps PathOps2 PathReach PathLaws
  FlagsModel TimeModel Prog DirModel OpsModel OpsProps FSOps.
From Coq Require Import List.
Import ListNotations.

(** * C47 directory_iterator *)

(** From the state [s] reading the stream [d] delivers the entries [l], then the end of the directory or
    the error [e], leaving the state [s']. *)
Inductive delivers {S : Type} (h : kernel S) (d : N) : S -> list (str * dtype) -> ecode -> S -> Prop :=
| dl_end : forall s s', h (c_readdir d) s = (Val None, s') -> delivers h d s [] None s'
| dl_err : forall s e s', h (c_readdir d) s = (Err e, s') -> delivers h d s [] (Some e) s'
| dl_entry : forall s name t s1 l e s2,
    h (c_readdir d) s = (Val (Some (name, t)), s1) -> delivers h d s1 l e s2 -> delivers h d s ((name, t) :: l) e s2.

(** The names a system delivers: not empty, without a slash; the types are those of dirent.h. *)
Definition possible (x : str * dtype) : Prop := noslash (fst x) /\ fst x <> [] /\ snd x <> DT_OTHER.

(** The type of file an entry of the directory tells. *)
Definition told (t : dtype) : file_type :=
  match t with
  | DT_BLK => ft_block | DT_CHR => ft_character | DT_DIR => ft_directory | DT_FIFO => ft_fifo
  | DT_LNK => ft_symlink | DT_REG => ft_regular | DT_SOCK => ft_socket | DT_UNKNOWN | DT_OTHER => ft_none
  end.

Definition not_dots (x : str * dtype) : bool := negb (str_eqb (fst x) (lit ".") || str_eqb (fst x) (lit "..")).

(** The loop of a client: for (directory_iterator it(p, opts, ec); it != end; it.increment(ec)) visit( *it ). The result is
    the entries visited and the code after the loop. With [has] false the overloads without ec are used. *)
Fixpoint visit_all (cf : config) (n : nat) (has : bool) (k : nat) (it : dir_iter) (ec : ecode) : prog (list dir_entry * ecode) :=
  match k with
  | O => Stop FFuel
  | S k' =>
      if is_end it then Ret ([], ec)
      else
        let! e := dir_iter_deref cf it in
        let! j := dir_iter_increment cf n has it in
        let! r := visit_all cf n has k' (fst j) (snd j) in
        Ret (e :: fst r, snd r)
  end.
Definition visit_directory (cf : config) (n : nat) (has : bool) (p : path) (opts : N) : prog (list dir_entry * ecode) :=
  let! i := dir_iter_ctor cf n has p opts in visit_all cf n has n (fst i) (snd i).

Definition shown (e : dir_entry) : str * file_type := (native (de_path e), cd_type (de_data e)).
Definition expected (dir : str) (l : list (str * dtype)) : list (str * file_type) :=
  map (fun x => (append_text dir (fst x), told (snd x))) (filter not_dots l).

Lemma get_told : forall S (h : kernel S) t s, t <> DT_OTHER -> run h (get_file_type t) s = Done (told t) s.
Proof. intros S h t s Ht. destruct t; try reflexivity. congruence. Qed.

Lemma run_readdir : forall S (h : kernel S) d s, run h (posix_readdir d) s =
  match h (c_readdir d) s with
  | (Err e, s1) => Done ([], ft_none, Some e) s1
  | (Val None, s1) => Done ([], ft_none, None) s1
  | (Val (Some (name, t)), s1) =>
      match t with DT_OTHER => Failed FUB s1 | _ => Done (name, told t, None) s1 end
  end.
Proof.
  intros. unfold posix_readdir. rewrite run_sys. destruct (h (c_readdir d) s) as [[e|[[name t]|]] s1]; cbn [fst snd]; try reflexivity.
  rewrite run_bind. destruct t; reflexivity.
Qed.

(** The entries before the first that is no dot entry. *)
Definition next_of (l : list (str * dtype)) : option (str * dtype * list (str * dtype)) :=
  (fix go (l : list (str * dtype)) :=
     match l with [] => None | x :: r => if not_dots x then Some (x, r) else go r end) l.

Lemma run_advance : forall S (h : kernel S) cf d s l e s2, delivers h d s l e s2 -> Forall possible l ->
  forall n root ent, canon root -> length l < n ->
  match next_of l with
  | Some (name, t, r) => exists s1 p,
      run h (advance cf n (Stream (Some d) root ent)) s =
        Done (true, None, Stream (Some d) root (Entry p (iter_data (de_data ent) (told t)))) s1 /\
      canon p /\ native p = append_text (native root) name /\ delivers h d s1 r e s2 /\ length r < length l /\
      Forall possible r /\ filter not_dots l = (name, t) :: filter not_dots r
  | None =>
      run h (advance cf n (Stream (Some d) root ent)) s =
        Done (false, e, Stream None root ent) (snd (h (c_closedir d) s2)) /\ filter not_dots l = []
  end.
Proof.
  intros S h cf d s l e s2 H. induction H as [s s' H|s e s' H|s name t s1 l e s2 H Hd IH]; intros HF n root ent Hr Hn.
  - cbn [next_of]. destruct n as [|n]; [cbn in Hn; lia|]. cbn [advance ds_handle]. rewrite run_bind, run_readdir, H. cbn iota.
    cbn [str_eqb failed orb is_nil]. split; [|reflexivity]. cbn -[run]. rewrite run_sys. reflexivity.
  - cbn [next_of]. destruct n as [|n]; [cbn in Hn; lia|]. cbn [advance ds_handle]. rewrite run_bind, run_readdir, H. cbn iota.
    split; [|reflexivity]. cbn -[run]. rewrite run_sys. reflexivity.
  - inversion HF as [|? ? (H1 & H2 & H3) HF']; subst. cbn [fst snd] in *. destruct n as [|n]; [cbn in Hn; lia|].
    assert (Hadv : run h (advance cf (Datatypes.S n) (Stream (Some d) root ent)) s =
      if not_dots (name, t) then
        run h (let! p := lift (path_div Posix (cf_el cf) root (split_components Posix name)) in
               Ret (true, None, Stream (Some d) root (Entry p (iter_data (de_data ent) (told t))))) s1
      else run h (advance cf n (Stream (Some d) root ent)) s1).
    { cbn [advance ds_handle]. rewrite run_bind, run_readdir, H. unfold not_dots. cbn [fst].
      destruct t; try congruence; cbn iota;
      (destruct (str_eqb name (lit ".") || str_eqb name (lit "..")); [reflexivity|];
       cbn [negb failed orb]; destruct name; [congruence|]; reflexivity). }
    rewrite Hadv. cbn [next_of]. destruct (not_dots (name, t)) eqn:Hnd.
    + destruct (gives_div (cf_el cf) root (mkpath name) Hr (canon_mkpath name)) as (p & Hp & Hc & Hnp).
      rewrite native_is_text in Hnp by (apply noslash_text; auto).
      exists s1, p. rewrite run_bind. change (split_components Posix name) with (mkpath name). rewrite Hp. cbn [lift run].
      split; [reflexivity|]. split; [auto|]. split.
      * rewrite Hnp. rewrite <- native_mkpath. apply native_is_text.
        apply append_text_text; [apply canon_native; auto|apply noslash_text; auto].
      * split; [auto|]. split; [cbn; lia|]. split; [auto|]. cbn [filter]. rewrite Hnd. reflexivity.
    + specialize (IH HF' n root ent Hr ltac:(cbn in Hn; lia)). fold (next_of l).
      destruct (next_of l) as [[[name' t'] r]|].
      * destruct IH as (s3 & p & I1 & I2 & I3 & I4 & I5 & I6 & I7). exists s3, p. repeat split; auto; [cbn; lia|].
        cbn [filter]. rewrite Hnd. auto.
      * cbn [filter]. rewrite Hnd. auto.
Qed.

Lemma run_visit_all : forall S (h : kernel S) cf d n (has : bool) p m l, length l < m -> forall s e s2, delivers h d s l e s2 -> Forall possible l ->
  canon p -> length l < n ->
  forall ent k, length l < k -> exists es,
    run h (visit_all cf n has (Datatypes.S k) (Some (Stream (Some d) p ent)) None) s =
      (match e with
       | None => Done (ent :: es, None) (snd (h (c_closedir d) s2))
       | Some _ => if has then Done (ent :: es, e) (snd (h (c_closedir d) s2))
                   else Failed (FThrow e []) (snd (h (c_closedir d) s2))
       end) /\
    map shown es = expected (native p) l.
Proof.
  intros S h cf d n has p. induction m as [|m IH]; intros l Hm s e s2 Hd HF Hp Hn ent k Hk; [lia|].
  pose proof (run_advance S h cf d s l e s2 Hd HF n p ent Hp Hn) as Ha.
  cbn [visit_all is_end]. unfold dir_iter_deref. cbn [pbind]. rewrite run_bind. cbn [dir_iter_increment]. rewrite run_bind.
  destruct (next_of l) as [[[name t] r]|].
  - destruct Ha as (s1 & q & I1 & I2 & I3 & I4 & I5 & I6 & I7). rewrite I1. cbn iota. cbn [run fst snd].
    destruct k as [|k]; [lia|].
    destruct (IH r ltac:(lia) s1 e s2 I4 I6 Hp ltac:(lia) (Entry q (iter_data (de_data ent) (told t))) k ltac:(lia)) as (es & J1 & J2).
    exists (Entry q (iter_data (de_data ent) (told t)) :: es). split.
    + rewrite run_bind, J1. destruct e; [|reflexivity]. destruct has; reflexivity.
    + unfold expected. rewrite I7. cbn [map]. rewrite J2. unfold shown at 1. cbn [de_path de_data cd_type iter_data fst snd]. rewrite I3. reflexivity.
  - destruct Ha as [Ha Hf]. rewrite Ha. cbn iota. exists []. split; [|unfold expected; rewrite Hf; reflexivity].
    destruct k as [|k]; [lia|]. destruct e as [x|]; cbn [failed report].
    + destruct has; reflexivity.
    + reflexivity.
Qed.

(** Iterating visits exactly the entries that are not . or .., in the order delivered, with the path dir/name and the type
    the entry tells. The loop ends at the end of the directory, or at an error, which it reports; the stream is closed.  A directory that
    cannot be opened gives the error (see C50 for skip_permission_denied). *)
Theorem C47_iterates : forall S (h : kernel S) cf n (has : bool) p opts s d s1 l e s2, canon p ->
  h (c_opendir (native p)) s = (Val d, s1) -> delivers h d s1 l e s2 -> Forall possible l -> length l < n ->
  exists es, map shown es = expected (native p) l /\
    match e with
    | None => run h (visit_directory cf n has p opts) s = Done (es, None) (snd (h (c_closedir d) s2))
    | Some _ =>
        if has then run h (visit_directory cf n has p opts) s = Done (es, e) (snd (h (c_closedir d) s2))
        else exists ps, run h (visit_directory cf n has p opts) s = Failed (FThrow e ps) (snd (h (c_closedir d) s2))
    end.
Proof.
  intros S h cf n has p opts s d s1 l e s2 Hp Ho Hd HF Hn.
  pose proof (run_advance S h cf d s1 l e s2 Hd HF n p entry_default Hp Hn) as Ha.
  assert (Hr : forall X, run h (visit_directory cf n has p opts) s = X <->
    match run h (dir_iter_ctor cf n has p opts) s with
    | Done i s3 => run h (visit_all cf n has n (fst i) (snd i)) s3
    | Failed f s3 => Failed f s3
    end = X) by (intros; unfold visit_directory; rewrite run_bind; reflexivity).
  assert (Hc : run h (dir_iter_ctor cf n has p opts) s =
    match run h (advance cf n (Stream (Some d) p entry_default)) s1 with
    | Done (_, ec, st) s3 =>
        run h (if good st then Ret (Some st, if has then ec else None) else if failed ec then report has [p] None ec else Ret (None : dir_iter, None)) s3
    | Failed f s3 => Failed f s3
    end).
  { unfold dir_iter_ctor, stream_ctor. rewrite run_bind, run_sys, Ho. cbn [fst snd]. rewrite run_bind.
    destruct (run h (advance cf n (Stream (Some d) p entry_default)) s1) as [[[b ec] st] s3|]; reflexivity. }
  destruct (next_of l) as [[[name t] r]|].
  - destruct Ha as (s3 & q & I1 & I2 & I3 & I4 & I5 & I6 & I7). rewrite I1 in Hc. cbn iota in Hc. cbn [good ds_handle run] in Hc.
    destruct n as [|n]; [lia|].
    destruct (run_visit_all S h cf d (Datatypes.S n) has p (Datatypes.S (length r)) r ltac:(lia) s3 e s2 I4 I6 Hp ltac:(lia)
      (Entry q (iter_data (de_data entry_default) (told t))) n ltac:(lia)) as (es & J1 & J2).
    exists (Entry q (iter_data (de_data entry_default) (told t)) :: es). split.
    + unfold expected. rewrite I7. cbn [map]. fold (expected (native p) r). rewrite J2. unfold shown at 1. cbn [de_path de_data cd_type iter_data fst snd]. rewrite I3. reflexivity.
    + assert (Hend : run h (visit_directory cf (Datatypes.S n) has p opts) s =
        run h (visit_all cf (Datatypes.S n) has (Datatypes.S n) (Some (Stream (Some d) p (Entry q (iter_data (de_data entry_default) (told t))))) None) s3).
      { apply Hr. rewrite Hc. cbn [fst snd]. destruct has; reflexivity. }
      rewrite Hend, J1. destruct e; [|reflexivity]. destruct has; [reflexivity|eexists; reflexivity].
  - destruct Ha as [Ha Hf]. rewrite Ha in Hc. cbn iota in Hc. cbn [good ds_handle] in Hc.
    exists []. split; [unfold expected; rewrite Hf; reflexivity|]. destruct n as [|n]; [lia|].
    destruct e as [x|]; cbn [failed report] in Hc.
    + destruct has; [|exists [p]]; apply Hr; rewrite Hc; reflexivity.
    + apply Hr. rewrite Hc. reflexivity.
Qed.
