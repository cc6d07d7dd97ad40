(** Modifying a path with an argument that is the path itself or one of its own elements, as operator* of path::iterator returns a
    reference to it. In [PathModel.v] the argument is another object. *)
From Coq Require Import Ascii String Bool Arith NArith ZArith List.
From Verif Require Import Str PathModel.
Import ListNotations.

(** The const path & argument: another object, the object modified, or a component of it (fs_path.cpp:431-441 returns a reference to the
    component; to the path itself when there are no components). *)
Inductive arg := Other (q : path) | Self | Elem (k : nat).

Section Alias.
Variable w : platform.
Variable E : elision.

(** What the reference shows while the object modified is [p]. Reading a component that no longer exists is undefined
    (fs_path.h:382, components_). *)
Definition shows (p : path) (a : arg) : out path :=
  match a with
  | Other q => Ok q
  | Self => Ok p
  | Elem k => match nth_error (comps p) k with Some c => Ok (comp_path c) | None => UB end
  end.

(** fs_path.h:103 operator= (default): pathname_, components_ and type_ (fs_path.h:381-386) in that order; components_ takes the components of the
    argument, and its own elements are destroyed. *)
Definition assign_at (p : path) (a : arg) : out path :=
  do q0 <- shows p a ;;
  let p1 := Path (pathname q0) (comps p) (ptyp p) in
  do q1 <- shows p1 a ;;
  let p2 := Path (pathname p1) (comps q1) (ptyp p1) in
  do q2 <- shows p2 a ;;
  Ok (Path (pathname p2) (comps p2) (ptyp q2)).

(** fs_path.cpp:121-127 operator=(path &&) of an object to itself. What the moves of lines 122 and 123 leave is not used: line 125 clears the object. *)
Definition move_assign_self (p : path) : path := clear w p.

(** fs_path.h:187-191 of an object with itself: std::string, std::vector and std::swap do nothing. *)
Definition swap_self (p : path) : path := p.

(** fs_path.cpp:544-545, the condition of the assignment. *)
Definition by_assignment (this p : path) : bool :=
  (is_absolute w E p && negb (has_root_name this)) || (has_root_name p && path_ne (root_name w E p) (root_name w E this)).

(** fs_path.cpp:522-597 operator/=: after the assignment of line 546 nothing else is done; on the other branches the argument is read (548-573) before
    the object is changed (579-594), where it is not read. *)
Definition append_at (grow : bool) (p : path) (a : arg) : out path :=
  do q <- shows p a ;;
  if by_assignment p q then assign_at p a else path_append w E grow p q.

(** fs_path.h:482-490 operator+=: std::string appends a string to itself correctly. *)
Definition concat_at (p : path) (a : arg) : out path :=
  do q <- shows p a ;; Ok (path_concat w p (native q)).

(** fs_path.cpp:659-663 *)
Definition replace_filename_at (p : path) (a : arg) : out path :=
  do q <- remove_filename w p ;; append_at true q a.

(** fs_path.cpp:665-686. The text of the object is changed at lines 670, 676 and 682; its components only at line 684. *)
Definition replace_extension_at (p : path) (a : arg) : out path :=
  do t <- match find_extension p with
          | Some (ExtSelf _, Some n) => str_erase (pathname p) n
          | Some (ExtBack c, Some n) => str_erase (pathname p) (c_pos c + n)
          | _ => Ok (pathname p)
          end ;;
  let p1 := Path t (comps p) (ptyp p) in
  do q1 <- shows p1 a ;;
  let p2 :=
    match native q1 with
    | c :: _ => if Ascii.eqb c dot then p1 else Path (t ++ [dot]) (comps p) (ptyp p)
    | [] => p1
    end in
  concat_at p2 a.

End Alias.
