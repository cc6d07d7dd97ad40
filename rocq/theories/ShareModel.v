(** Copies, moves and assignments of directory_iterator and recursive_directory_iterator. In [DirModel.v] an iterator owns its
    streams; here the std::shared_ptr is modelled, so that several iterators can refer to one object. The memory holds the
    shared objects and the iterators of a program; an iterator is a pointer (none for the end iterator) and
    recursion_. *)
From Coq Require Import Ascii String Bool Arith NArith ZArith List.
From Verif Require Import Str PathModel FlagsModel TimeModel Prog DirModel.
Import ListNotations.

(** * Shared objects *)

(** The member impl_ and recursion_ (fs_dir.h:471, 606-610). directory_iterator has no recursion_. *)
Definition var : Type := (option nat * bool)%type.

(** The objects std::make_shared made (src/fs_dir_iterator.cpp:840, 896), by address, [None] once destroyed, and the iterators
    (fs_dir.h:471, 606-610) a program has. *)
Record memory (X : Type) := Mem { m_objs : list (option X); m_vars : list var }.
Arguments Mem {X}. Arguments m_objs {X}. Arguments m_vars {X}.

(** Replacing one element; not in the repository (assignment to a member, e.g. src/fs_dir_iterator.cpp:840). *)
Fixpoint upd {A} (l : list A) (i : nat) (x : A) : list A :=
  match l, i with
  | [], _ => []
  | _ :: r, O => x :: r
  | y :: r, S i' => y :: upd r i' x
  end.

(** fs_dir.h:471, 606-610: the iterator number [i]. *)
Definition var_at {X} (m : memory X) (i : nat) : var := nth i (m_vars m) (None, false).
(** The object a pointer refers to (impl_->, src/fs_dir_iterator.cpp:841, 857). *)
Definition obj_at {X} (m : memory X) (a : nat) : option X :=
  match nth_error (m_objs m) a with Some o => o | None => None end.
(** Writing to the object, e.g. src/fs_dir_iterator.cpp:857, 897. *)
Definition put_obj {X} (m : memory X) (a : nat) (x : X) : memory X := Mem (upd (m_objs m) a (Some x)) (m_vars m).

(** Is the use count of the std::shared_ptr positive? (fs_dir.h:471, 606) *)
Definition refers (a : nat) (vs : list var) : bool :=
  existsb (fun v : var => match fst v with Some b => Nat.eqb a b | None => false end) vs.

(** What std::shared_ptr does to the object it lets go: if nobody refers to it, it is destroyed with [fin] (fs_dir.h:471, 606). *)
Definition release {X} (fin : X -> prog unit) (old : option nat) (m : memory X) : prog (memory X) :=
  match old with
  | None => Ret m
  | Some a =>
      if refers a (m_vars m) then Ret m
      else match obj_at m a with
           | Some x => let! _ := fin x in Ret (Mem (upd (m_objs m) a None) (m_vars m))
           | None => Stop FUB
           end
  end.

(** Assigning to an iterator (fs_dir.h:427, 546) or resetting impl_ (src/fs_dir_iterator.cpp:845, 859, 906, 971, 974, 1025). *)
Definition set_var {X} (fin : X -> prog unit) (i : nat) (v : var) (m : memory X) : prog (memory X) :=
  release fin (fst (var_at m i)) (Mem (m_objs m) (upd (m_vars m) i v)).

(** The iterator [i] becomes the only one referring to a new object (src/fs_dir_iterator.cpp:840, 896). *)
Definition set_new {X} (fin : X -> prog unit) (i : nat) (x : X) (flag : bool) (m : memory X) : prog (memory X) :=
  set_var fin i (Some (length (m_objs m)), flag) (Mem (m_objs m ++ [Some x]) (m_vars m)).

(** Copy assignment, fs_dir.h:427 and 546 (= default): impl_ and recursion_ are copied. *)
Definition share_copy {X} (fin : X -> prog unit) (i j : nat) (m : memory X) : prog (memory X) := set_var fin i (var_at m j) m.

(** Move assignment, fs_dir.h:429-435 and 548-555: nothing for the same object; the source is left at the end, with
    its recursion_. *)
Definition share_move {X} (fin : X -> prog unit) (i j : nat) (m : memory X) : prog (memory X) :=
  if Nat.eqb i j then Ret m
  else set_var fin i (var_at m j) (Mem (m_objs m) (upd (m_vars m) j (None, snd (var_at m j)))).

(** The destructors, fs_dir.h:437 and 557, or assignment of a default constructed iterator. *)
Definition share_drop {X} (fin : X -> prog unit) (i : nat) (m : memory X) : prog (memory X) := set_var fin i (None, false) m.

(** What a client sees of one operation: it completed with an error_code (none for the overloads without one), it threw
    filesystem_error with a code (src/fs_error.h:103-147), it gave an entry, a truth value or a number. *)
Inductive obs :=
| Completed (e : ecode) | Thrown (e : ecode) | Shown (e : dir_entry) | Answer (b : bool) | Count (z : Z).

(** src/fs_error.h:103-147 report: the code is set or thrown; the client goes on in both cases. *)
Definition tell (has : bool) (e : ecode) : obs := if has then Completed e else Thrown e.

(** operator== of fs_dir.h:477-480 and 613-616: the pointers are compared. *)
Definition share_equal {X} (m : memory X) (i j : nat) : bool :=
  match fst (var_at m i), fst (var_at m j) with
  | None, None => true
  | Some a, Some b => Nat.eqb a b
  | _, _ => false
  end.

Section Share.
Variable cf : config.

(** * directory_iterator *)

(** src/fs_dir_iterator.cpp:835-850, with the assignment of the temporary to the iterator [i]. When the constructor throws, [i]
    keeps its value. *)
Definition share_new (n : nat) (has : bool) (i : nat) (p : path) (opts : N) (m : memory dstream) : prog (memory dstream * obs) :=
  let! r := stream_ctor cf n p opts in
  let '(m_ec, s) := r in
  if good s then let! m1 := set_new stream_destroy i s false m in Ret (m1, Completed (if has then m_ec else None))
  else if failed m_ec && negb has then Ret (m, Thrown m_ec)
  else let! m1 := share_drop stream_destroy i m in Ret (m1, Completed m_ec).

(** src/fs_dir_iterator.cpp:852-868 do_increment; the root is moved out of the shared stream before impl_ is reset. *)
Definition share_increment (n : nat) (has : bool) (i : nat) (m : memory dstream) : prog (memory dstream * obs) :=
  match fst (var_at m i) with
  | None => Ret (m, tell has (Some EINVAL))
  | Some a =>
      match obj_at m a with
      | None => Stop FUB
      | Some s =>
          let! r := advance cf n s in
          let '(ok, m_ec, s1) := r in
          if ok then Ret (put_obj m a s1, Completed None)
          else
            let! m1 := set_var stream_destroy i (None, false)
                         (put_obj m a (Stream (ds_handle s1) (snd (move_ctor Posix (ds_root s1))) (ds_entry s1))) in
            Ret (m1, if failed m_ec then tell has m_ec else Completed None)
      end
  end.

(** src/fs_dir_iterator.cpp:870-873 dereference *)
Definition share_deref (i : nat) (m : memory dstream) : prog dir_entry :=
  match fst (var_at m i) with
  | None => let! _ := asap_assert (cf_dbg cf) false in Stop FUB
  | Some a => match obj_at m a with Some s => Ret (ds_entry s) | None => Stop FUB end
  end.

(** What a client can do with its directory_iterators (fs_dir.h:413-488); the iterators are numbered. *)
Inductive dcmd :=
| DNew (has : bool) (i : nat) (p : path) (opts : N)
| DCopy (i j : nat) | DMove (i j : nat) | DDrop (i : nat)
| DInc (has : bool) (i : nat) | DDeref (i : nat) | DEqual (i j : nat).

(** One operation (fs_dir.h:413-488). There is no iterator beyond the declared ones: such a number does nothing. *)
Definition dexec (n : nat) (c : dcmd) (m : memory dstream) : prog (memory dstream * obs) :=
  let k := length (m_vars m) in
  let nothing := Ret (m, Completed None) in
  match c with
  | DNew has i p opts => if i <? k then share_new n has i p opts m else nothing
  | DCopy i j => if (i <? k) && (j <? k) then let! m1 := share_copy stream_destroy i j m in Ret (m1, Completed None) else nothing
  | DMove i j => if (i <? k) && (j <? k) then let! m1 := share_move stream_destroy i j m in Ret (m1, Completed None) else nothing
  | DDrop i => if i <? k then let! m1 := share_drop stream_destroy i m in Ret (m1, Completed None) else nothing
  | DInc has i => if i <? k then share_increment n has i m else nothing
  | DDeref i => if i <? k then let! e := share_deref i m in Ret (m, Shown e) else nothing
  | DEqual i j => if (i <? k) && (j <? k) then Ret (m, Answer (share_equal m i j)) else nothing
  end.

(** A program of a client (fs_dir.h:413-488): what it sees, in order. *)
Fixpoint dexec_all (n : nat) (cs : list dcmd) (m : memory dstream) : prog (memory dstream * list obs) :=
  match cs with
  | [] => Ret (m, [])
  | c :: r =>
      let! x := dexec n c m in
      let! y := dexec_all n r (fst x) in
      Ret (fst y, snd x :: snd y)
  end.

(** * recursive_directory_iterator *)

(** src/fs_dir_iterator.cpp:877-880 SharedImpl: the stack, top first, and the options. *)
Definition shared_impl : Type := (list dstream * N)%type.

(** The destructor of SharedImpl (src/fs_dir_iterator.cpp:877-880). *)
Definition impl_destroy (x : shared_impl) : prog unit := impl_reset (fst x).

(** src/fs_dir_iterator.cpp:882-899, with the assignment to the iterator [i]. *)
Definition rshare_new (n : nat) (has : bool) (i : nat) (p : path) (opts : N) (m : memory shared_impl) : prog (memory shared_impl * obs) :=
  let! r := stream_ctor cf n p opts in
  let '(m_ec, s) := r in
  if failed m_ec then
    let! _ := stream_destroy s in
    if has then let! m1 := set_var impl_destroy i (None, true) m in Ret (m1, Completed m_ec)
    else Ret (m, Thrown m_ec)
  else if negb (good s) then let! m1 := set_var impl_destroy i (None, true) m in Ret (m1, Completed None)
  else let! m1 := set_new impl_destroy i ([s], opts) true m in Ret (m1, Completed None).

(** src/fs_dir_iterator.cpp:950-976 Advance; after an error the root is moved out of the top stream (970). *)
Definition rshare_advance (n : nat) (has : bool) (i : nat) (m : memory shared_impl) : prog (memory shared_impl * obs) :=
  match fst (var_at m i) with
  | None => Ret (m, tell has (Some EINVAL))
  | Some a =>
      match obj_at m a with
      | None => Stop FUB
      | Some (st, opts) =>
          let! r := advance_stack cf n st in
          let '(found, m_ec, remaining) := r in
          match found with
          | Some st1 => Ret (put_obj m a (st1, opts), Completed None)
          | None =>
              let left :=
                match remaining with
                | s :: r => Stream (ds_handle s) (snd (move_ctor Posix (ds_root s))) (ds_entry s) :: r
                | [] => []
                end in
              let! m1 := set_var impl_destroy i (None, snd (var_at m i)) (put_obj m a (left, opts)) in
              Ret (m1, if failed m_ec then tell has m_ec else Completed None)
          end
      end
  end.

(** src/fs_dir_iterator.cpp:901-913 pop_impl *)
Definition rshare_pop (n : nat) (has : bool) (i : nat) (m : memory shared_impl) : prog (memory shared_impl * obs) :=
  match fst (var_at m i) with
  | None => Ret (m, tell has (Some EINVAL))
  | Some a =>
      match obj_at m a with
      | None | Some ([], _) => Stop FUB
      | Some (s :: rest, opts) =>
          let! _ := stream_destroy s in
          let m1 := put_obj m a (rest, opts) in
          if is_nil rest then let! m2 := set_var impl_destroy i (None, snd (var_at m i)) m1 in Ret (m2, Completed None)
          else rshare_advance n has i m1
      end
  end.

(** src/fs_dir_iterator.cpp:929-933 dereference *)
Definition rshare_deref (i : nat) (m : memory shared_impl) : prog dir_entry :=
  match fst (var_at m i) with
  | None => let! _ := asap_assert (cf_dbg cf) false in Stop FUB
  | Some a => match obj_at m a with Some (s :: _, _) => Ret (ds_entry s) | _ => Stop FUB end
  end.

(** src/fs_dir_iterator.cpp:920-927 depth *)
Definition rshare_depth (i : nat) (m : memory shared_impl) : prog obs :=
  match fst (var_at m i) with
  | None => Ret (Thrown (Some EINVAL))
  | Some a => match obj_at m a with Some (st, _) => Ret (Count (Z.of_nat (length st) - 1)) | None => Stop FUB end
  end.

(** fs_dir.h:584 disable_recursion_pending: the member of this iterator only. *)
Definition rshare_disable (i : nat) (m : memory shared_impl) : memory shared_impl :=
  Mem (m_objs m) (upd (m_vars m) i (fst (var_at m i), false)).

(** src/fs_dir_iterator.cpp:978-1031 TryRecursion: the memory, whether a directory was entered, and the error reported, if any.
    Before an error is reported the path is moved out of the entry (1024). *)
Definition rshare_try (n : nat) (i : nat) (m : memory shared_impl) : prog (memory shared_impl * bool * ecode) :=
  match fst (var_at m i) with
  | None => Ret (m, false, Some EINVAL)
  | Some a =>
      match obj_at m a with
      | None | Some ([], _) => Stop FUB
      | Some (s :: rest, opts) =>
          let rec_sym := has_dopt do_follow_directory_symlink opts in
          let! r := (if rec_sym then GetFileType cf true (ds_entry s) else GetSymLinkFileType cf true (ds_entry s)) in
          let '(t, ec0, e1) := r in
          let s1 := Stream (ds_handle s) (ds_root s) e1 in
          let st := status_of_type t in
          let m_ec := if failed ec0 && status_known st then None else ec0 in
          let skip_rec :=
            if rec_sym then failed m_ec || negb (st_is_directory st)
            else failed m_ec || st_is_symlink st || negb (st_is_directory st) in
          let! o :=
            (if skip_rec then Ret (m_ec, None)
             else
               let! c := stream_ctor cf n (de_path e1) opts in
               Ret (fst c, if good (snd c) then Some (snd c) else None)) in
          match o with
          | (_, Some new_it) => Ret (put_obj m a (new_it :: s1 :: rest, opts), true, None)
          | (Some x, None) =>
              if errno_eqb x EACCES && has_dopt do_skip_permission_denied opts
              then Ret (put_obj m a (s1 :: rest, opts), false, None)
              else
                let s2 := Stream (ds_handle s) (ds_root s) (Entry (snd (move_ctor Posix (de_path e1))) (de_data e1)) in
                let! m1 := set_var impl_destroy i (None, snd (var_at m i)) (put_obj m a (s2 :: rest, opts)) in
                Ret (m1, false, Some x)
          | (None, None) => Ret (put_obj m a (s1 :: rest, opts), false, None)
          end
      end
  end.

(** src/fs_dir_iterator.cpp:935-948 do_increment *)
Definition rshare_increment (n : nat) (has : bool) (i : nat) (m : memory shared_impl) : prog (memory shared_impl * obs) :=
  let! r := (if snd (var_at m i) then rshare_try n i m else Ret (m, false, None)) in
  let '(m1, entered, ec) := r in
  if entered then Ret (m1, Completed None)
  else if failed ec then Ret (m1, tell has ec)
  else rshare_advance n has i (Mem (m_objs m1) (upd (m_vars m1) i (fst (var_at m1 i), true))).

(** What a client can do with its recursive_directory_iterators (fs_dir.h:531-633). *)
Inductive rcmd :=
| RNew (has : bool) (i : nat) (p : path) (opts : N)
| RCopy (i j : nat) | RMove (i j : nat) | RDrop (i : nat)
| RInc (has : bool) (i : nat) | RPop (has : bool) (i : nat) | RDisable (i : nat)
| RDeref (i : nat) | RDepth (i : nat) | RPending (i : nat) | REqual (i j : nat).

(** One operation (fs_dir.h:531-633). *)
Definition rexec (n : nat) (c : rcmd) (m : memory shared_impl) : prog (memory shared_impl * obs) :=
  let k := length (m_vars m) in
  let nothing := Ret (m, Completed None) in
  match c with
  | RNew has i p opts => if i <? k then rshare_new n has i p opts m else nothing
  | RCopy i j => if (i <? k) && (j <? k) then let! m1 := share_copy impl_destroy i j m in Ret (m1, Completed None) else nothing
  | RMove i j => if (i <? k) && (j <? k) then let! m1 := share_move impl_destroy i j m in Ret (m1, Completed None) else nothing
  | RDrop i => if i <? k then let! m1 := share_drop impl_destroy i m in Ret (m1, Completed None) else nothing
  | RInc has i => if i <? k then rshare_increment n has i m else nothing
  | RPop has i => if i <? k then rshare_pop n has i m else nothing
  | RDisable i => if i <? k then Ret (rshare_disable i m, Completed None) else nothing
  | RDeref i => if i <? k then let! e := rshare_deref i m in Ret (m, Shown e) else nothing
  | RDepth i => if i <? k then let! o := rshare_depth i m in Ret (m, o) else nothing
  | RPending i => if i <? k then Ret (m, Answer (snd (var_at m i))) else nothing
  | REqual i j => if (i <? k) && (j <? k) then Ret (m, Answer (share_equal m i j)) else nothing
  end.

(** A program of a client (fs_dir.h:531-633). *)
Fixpoint rexec_all (n : nat) (cs : list rcmd) (m : memory shared_impl) : prog (memory shared_impl * list obs) :=
  match cs with
  | [] => Ret (m, [])
  | c :: r =>
      let! x := rexec n c m in
      let! y := rexec_all n r (fst x) in
      Ret (fst y, snd x :: snd y)
  end.

End Share.

(** [k] default constructed iterators (fs_dir.h:413, 531): no object, recursion_ false (fs_dir.h:610). *)
Definition fresh {X} (k : nat) : memory X := Mem [] (repeat (None, false) k).
