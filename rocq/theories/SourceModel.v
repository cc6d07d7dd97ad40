(** The forms in which the characters of a path can be given, and taken out again
    (include/filesystem/fs_path.h, include/filesystem/fs_path_traits.h).
    nowide, which converts between wide strings and UTF-8, is not in the repository: its two functions are variables. *)
From Coq Require Import Ascii String Bool Arith NArith List.
From Verif Require Import Str PathModel.
Import ListNotations.

(** fs_path_traits.h:19-23 IsEncodedChar: the character types other than char. *)
Inductive wide := WChar | Char16 | Char32.

(** What fs_path_traits.h:25-57 (IsPathable) lets a caller pass as one argument. Pointers and iterators are given by the
    characters that can be read from there on; the reader has to find a NUL among them. An array of characters is a pointer. *)
Inductive source :=
| SrcString (s : str)                       (* std::string *)
| SrcWideString (k : wide) (w : list N)     (* std::wstring, std::u16string, std::u32string *)
| SrcPointer (mem : str)                    (* char *, const char *, char[N] *)
| SrcWidePointer (k : wide) (mem : list N)
| SrcIterator (l : str)                     (* an input iterator that is not a pointer *)
| SrcWideIterator (k : wide) (l : list N).

(** A range [first, last) of characters: fs_path.h:90-95, 119-122, 140-143, 169-172. *)
Inductive range :=
| Range (s : str)
| WideRange (k : wide) (w : list N).

(** fs_path.h:299-309 string_from_iter, and the length of a C string (std::string(const char * ), fs_path.h:315-325): the characters
    up to the first NUL; reading past the end is undefined. *)
Fixpoint until_nul {A} (is_nul : A -> bool) (l : list A) : out (list A) :=
  match l with
  | [] => UB
  | c :: r => if is_nul c then Ok [] else do t <- until_nul is_nul r ;; Ok (c :: t)
  end.

(** fs_path.h:305: ch != CharT() *)
Definition nul_char (c : ascii) : bool := Ascii.eqb c "000"%char.
(** fs_path.h:305: ch != CharT() *)
Definition nul_wide (c : N) : bool := N.eqb c 0.

Section Nowide.
(** nowide::narrow(first, last), called at fs_path.h:554. *)
Variable narrow : wide -> list N -> str.
(** nowide::widen, called at fs_path.h:576 and 624. *)
Variable widen : str -> list N.

(** fs_path.h:327-332 with the Converters at 543-566. A range of wide iterators is first copied into a string (563-565). *)
Definition convert_range (r : range) : str :=
  match r with Range s => s | WideRange k w => narrow k w end.

(** fs_path.h:267-295 range_begin and range_end, 315-339 convert. *)
Definition convert (src : source) : out str :=
  match src with
  | SrcString s => Ok (convert_range (Range s))
  | SrcWideString k w => Ok (convert_range (WideRange k w))
  | SrcPointer mem => until_nul nul_char mem
  | SrcWidePointer k mem => do w <- until_nul nul_wide mem ;; Ok (convert_range (WideRange k w))
  | SrcIterator l => do s <- until_nul nul_char l ;; Ok (convert_range (Range s))
  | SrcWideIterator k l => do w <- until_nul nul_wide l ;; Ok (convert_range (WideRange k w))
  end.

Section Platform.
Variable pl : platform.
Variable E : elision.

(** fs_path.h:84-88; also 61-65 path(string_type &&). *)
Definition path_of (src : source) : out path := do s <- convert src ;; Ok (split_components pl s).

(** fs_path.h:90-95 *)
Definition path_of_range (r : range) : path := split_components pl (convert_range r).

(** fs_path.h:108-117 operator= and assign. *)
Definition assign_source (p : path) (src : source) : out path :=
  do q <- path_of src ;; Ok (fst (move_assign pl p q)).

(** fs_path.h:119-122 *)
Definition assign_range (p : path) (r : range) : path := fst (move_assign pl p (path_of_range r)).

(** fs_path.h:130-138 operator/= and append. *)
Definition append_source (p : path) (src : source) : out path :=
  do q <- path_of src ;; path_append pl E true p q.

(** fs_path.h:140-143 *)
Definition append_range (p : path) (r : range) : out path := path_append pl E true p (path_of_range r).

(** fs_path.h:152-155 operator+= and 163-166 concat. *)
Definition concat_source (p : path) (src : source) : out path :=
  do s <- convert src ;; Ok (path_concat pl p s).

(** fs_path.h:168-172 *)
Definition concat_range (p : path) (r : range) : path := path_concat pl p (convert_range r).

(** fs_path.h:157-161 operator+= of one character: concat of the range made of it alone. *)
Definition concat_char (p : path) (k : wide) (c : N) : path := concat_range p (WideRange k [c]).
End Platform.

(** fs_path.h:569-577 str_convert, 579-586 string<CharT>, 590 wstring. *)
Definition wstring (p : path) : list N :=
  match pathname p with [] => [] | _ => widen (pathname p) end.

(** fs_path.h:620-625 generic_string<CharT>, 631-633 generic_wstring. *)
Definition generic_wstring (p : path) : list N := widen (generic_string p).
End Nowide.
