(** Model of class filesystem_error (include/filesystem/filesystem_error.h,
    src/filesystem_error.cpp). *)
From Coq Require Import Ascii String Bool List.
From Verif Require Import Str PathModel.
Import ListNotations.

(** The characters printed for a [const char *]: up to the first NUL. *)
(** filesystem_error.cpp:16-24 *)
Fixpoint c_string (s : str) : str :=
  match s with
  | [] => []
  | c :: r => if Ascii.eqb c zero then [] else c :: c_string r
  end.

(** filesystem_error.h:43-83: the std::system_error base (its code and its what() text) and the
    three members of Data. *)
Record fs_error (code : Type) := FsErr {
  fe_code : code;
  fe_base_what : str;
  fe_path1 : path;
  fe_path2 : path;
  fe_what : str
}.
Arguments FsErr {code}.
Arguments fe_code {code}.
Arguments fe_base_what {code}.
Arguments fe_path1 {code}.
Arguments fe_path2 {code}.
Arguments fe_what {code}.

Section Error.
Variable w : platform.
Variable code : Type.
(** std::system_error(ec, what_arg).what(): left to the standard library, a function of both. *)
Variable system_what : code -> str -> str.

(** src/filesystem_error.cpp:18-24: [x] or two double quotes when empty. *)
Definition quoted_or_empty (p : path) : str :=
  if is_nil (native p) then lit """""" else c_string (native p).

(** src/filesystem_error.cpp:14-27 create_what *)
Definition create_what (base : str) (p1 p2 : path) (num_paths : nat) : str :=
  let s0 := lit "filesystem error: " ++ c_string base in
  let s1 := if Nat.eqb num_paths 1 then s0 ++ lit " [" ++ quoted_or_empty p1 ++ lit "]" else s0 in
  if Nat.eqb num_paths 2 then s1 ++ lit " [" ++ quoted_or_empty p2 ++ lit "]" else s1.

(** filesystem_error.h:75-81 Data(p1, p2): the by-value parameters are moved into the
    members, and the move constructor of path re-splits the text. *)
Definition data_path (p : path) : path := fst (move_ctor w p).

(** Common part of the three constructors, filesystem_error.h:49-64. *)
Definition make_error (num : nat) (what : str) (p1 p2 : path) (c : code) : fs_error code :=
  let base := system_what c what in
  let q1 := data_path p1 in
  let q2 := data_path p2 in
  FsErr c base q1 q2 (create_what base q1 q2 num).

(** filesystem_error.h:49-53 *)
Definition filesystem_error0 (what : str) (c : code) := make_error 0 what path_default path_default c.
(** filesystem_error.h:55-58 *)
Definition filesystem_error1 (what : str) (p1 : path) (c : code) := make_error 1 what p1 path_default c.
(** filesystem_error.h:60-64 *)
Definition filesystem_error2 (what : str) (p1 p2 : path) (c : code) := make_error 2 what p1 p2 c.

End Error.
