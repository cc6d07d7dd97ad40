(** Byte strings as used by the model: [std::string] is a list of [ascii]
    (the library fixes [value_type = char], include/filesystem/fs_path.h:39-40).
    The functions here model the std::string members the library calls; they
    are shared by the model and the specifications. *)
From Coq Require Import Ascii String Bool Arith NArith ZArith Lia List.
Import ListNotations.

(** std::string, fs_path.h:39-40. *)
Definition str := list ascii.

(** Literals: [lit "abc"]. *)
(** String literals of the source files, e.g. src/fs_ops.cpp:1573. *)
Definition lit (s : string) : str := list_ascii_of_string s.

(** fs_path.h:41-45, 348-354; src/fs_ops.cpp:69 *)
Definition slash : ascii := "/"%char.
(** fs_path.h:41-45, 348-354; src/fs_ops.cpp:69 *)
Definition backslash : ascii := "\"%char.
(** fs_path.h:41-45, 348-354; src/fs_ops.cpp:69 *)
Definition dot : ascii := "."%char.
(** fs_path.h:41-45, 348-354; src/fs_ops.cpp:69 *)
Definition colon : ascii := ":"%char.

(** Not in the repository: std::string, used throughout src/fs_path.cpp:25-832. *)
Definition str_eq_dec : forall a b : str, {a = b} + {a <> b} := list_eq_dec ascii_dec.

(** Not in the repository: std::string, used throughout src/fs_path.cpp:25-832. *)
Definition str_eqb (a b : str) : bool := if str_eq_dec a b then true else false.

(** [std::string::empty] *)
(** Not in the repository: std::string, used throughout src/fs_path.cpp:25-832. *)
Definition is_nil {A} (l : list A) : bool := match l with [] => true | _ => false end.

(** [std::string::substr(pos, n)] for [pos <= size()]; the caller checks [pos]. *)
(** Not in the repository: std::string, used throughout src/fs_path.cpp:25-832. *)
Definition substr (s : str) (pos n : nat) : str := firstn n (skipn pos s).

(** [char_traits<char>::lt] compares as [unsigned char]. *)
(** Not in the repository: std::string, used at src/fs_path.cpp:458-507. *)
Definition char_compare (a b : ascii) : comparison := N.compare (N_of_ascii a) (N_of_ascii b).

(** [std::string::compare]: lexicographic, a proper prefix is smaller. *)
(** Not in the repository: std::string, used at src/fs_path.cpp:458-507. *)
Fixpoint str_compare (a b : str) : comparison :=
  match a, b with
  | [], [] => Eq
  | [], _ :: _ => Lt
  | _ :: _, [] => Gt
  | x :: a', y :: b' =>
      match char_compare x y with
      | Eq => str_compare a' b'
      | c => c
      end
  end.

(** [std::string::rfind(c)]: position of the last occurrence. *)
(** Not in the repository: std::string, used at src/fs_path.cpp:338-361. *)
Fixpoint rfind (c : ascii) (s : str) : option nat :=
  match s with
  | [] => None
  | x :: r =>
      match rfind c r with
      | Some n => Some (S n)
      | None => if Ascii.eqb x c then Some 0 else None
      end
  end.
