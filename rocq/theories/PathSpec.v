(** Specification vocabulary for POSIX path texts. Nothing here refers to
    the model of class [path]; these are plain functions on strings and lists, from
    the path grammar of C++17 [fs.path.generic] and [fs.path.itr]. *)
From Coq Require Import Ascii String Bool Arith NArith ZArith Lia List.
From Verif Require Import Str.
Import ListNotations.

Definition is_slash (c : ascii) : bool := Ascii.eqb c slash.

(** The pieces of a text between slashes (always at least one piece, possibly empty). *)
Fixpoint pieces (s : str) : list str :=
  match s with
  | [] => [[]]
  | c :: r =>
      if is_slash c then [] :: pieces r
      else match pieces r with
           | h :: t => (c :: h) :: t
           | [] => [[c]]
           end
  end.

(** The file names in a text: its non-empty pieces, in order. *)
Definition names (s : str) : list str := filter (fun t => negb (is_nil t)) (pieces s).

Definition starts_slash (s : str) : bool :=
  match s with c :: _ => is_slash c | [] => false end.
Definition ends_slash (s : str) : bool := starts_slash (rev s).

(** The elements of a path: root directory, file names, and an empty element for a
    trailing separator that is not the root directory ([fs.path.itr]/4). *)
Definition elements (s : str) : list str :=
  (if starts_slash s then [[slash]] else []) ++ names s ++
  (if ends_slash s && negb (is_nil (names s)) then [[]] else []).

(** Texts made of slashes only. *)
Definition only_slashes (s : str) : bool := forallb is_slash s.

(** The text a path built from [s] reports: [s], except that a run of slashes becomes one. *)
Definition reported_text (s : str) : str :=
  if negb (is_nil s) && only_slashes s then [slash] else s.

(** The text without its leading slashes. *)
Fixpoint drop_slashes (s : str) : str :=
  match s with c :: r => if is_slash c then drop_slashes r else s | [] => [] end.

(** What follows the last slash, and what precedes it (slash included). *)
Definition after_last_slash (s : str) : str := last (pieces s) [].
Definition upto_last_slash (s : str) : str := firstn (length s - length (after_last_slash s)) s.

(** Elements of the parent: without the last element; a trailing empty element does not count. *)
Definition parent_elements (e : list str) : list str :=
  match rev e with
  | [] => []
  | x :: r => if is_nil x then rev (tl r) else rev r
  end.

(** Lexicographic order on sequences of strings, given by the order on strings. *)
Fixpoint lex_compare (a b : list str) : comparison :=
  match a, b with
  | [], [] => Eq
  | [], _ :: _ => Lt
  | _ :: _, [] => Gt
  | x :: a', y :: b' =>
      match str_compare x y with Eq => lex_compare a' b' | c => c end
  end.

(** Names joined by single slashes. *)
Fixpoint join (l : list str) : str :=
  match l with
  | [] => []
  | [x] => x
  | x :: r => x ++ slash :: join r
  end.

(** How a file name splits into stem and extension ([fs.path.decompose]): the extension
    starts at the last dot, unless that dot is the first character or the name
    is "." or "..". *)
Definition is_stem_ext (f st ex : str) : Prop :=
  f = st ++ ex /\
  ((ex = [] /\ (f = lit "." \/ f = lit ".." \/ ~ In dot (tl f))) \/
   (exists x, ex = dot :: x /\ ~ In dot x /\ st <> [] /\ f <> lit "..")).

(** Lexical normalisation of a list of names; the stack is kept in reverse. *)
Definition reduce1 (abs : bool) (stk : list str) (n : str) : list str :=
  if str_eqb n (lit ".") then stk
  else if str_eqb n (lit "..") then
    match stk with
    | [] => if abs then [] else [n]
    | x :: r => if str_eqb x (lit "..") then n :: stk else r
    end
  else n :: stk.
Definition reduced (abs : bool) (ns : list str) : list str := rev (fold_left (reduce1 abs) ns []).

(** An ordinary name: not empty, "." or "..". *)
Definition plain (n : str) : bool :=
  negb (is_nil n) && negb (str_eqb n (lit ".")) && negb (str_eqb n (lit "..")).

(** Lexical meaning: where a walk along the names ends, starting at a place given by the
    names from the root; "." stays, ".." goes up (and stays at the root). *)
Definition walk1 (place : list str) (n : str) : list str :=
  if str_eqb n (lit ".") then place
  else if str_eqb n (lit "..") then removelast place
  else place ++ [n].
Definition walk (place : list str) (ns : list str) : list str := fold_left walk1 ns place.

(** The normal form described in [fs.path.generic]/6. *)
Definition is_normal_names (abs : bool) (ns : list str) : Prop :=
  exists k ms, ns = repeat (lit "..") k ++ ms /\ forallb plain ms = true /\ (abs = true -> k = 0).

(** The place a text leads to from [place] (given by the names from the root). *)
Definition resolve (place : list str) (t : str) : list str :=
  walk (if starts_slash t then [] else place) (names t).

(** Texts in normal form ([fs.path.generic]/6): ".", or an optional root directory, then
    ".." names (only without root directory), then ordinary names, separated by single
    slashes, with a trailing slash only after an ordinary name. *)
Definition is_normal_text (t : str) : Prop :=
  t = lit "." \/
  exists (abs : bool) (ns : list str) (tr : bool),
    t = (if abs then [slash] else []) ++ join ns ++ (if tr then [slash] else []) /\
    Forall (fun n => ~ In slash n /\ n <> []) ns /\
    is_normal_names abs ns /\
    (ns = [] -> abs = true /\ tr = false) /\
    (tr = true -> plain (last ns []) = true).

(** Two slashes in a row. *)
Definition has_double_slash (s : str) : Prop := exists a b, s = a ++ slash :: slash :: b.

(** What is left of two lists after their longest common prefix. *)
Fixpoint strip_common (a b : list str) : list str * list str :=
  match a, b with
  | x :: a', y :: b' => if str_eqb x y then strip_common a' b' else (a, b)
  | _, _ => (a, b)
  end.

(** The single-slash text of a list of elements as produced by [elements]. *)
Definition squeezed (s : str) : str :=
  (if starts_slash s then [slash] else []) ++ join (names s) ++
  (if ends_slash s && negb (is_nil (names s)) then [slash] else []).

(** Names in [b] to climb over: each element other than "." and ".." counts one up, each ".."
    one down ([fs.path.gen]; an empty last element, from a trailing slash, counts too). *)
Definition upcount (b : list str) : Z :=
  fold_left (fun n x => if str_eqb x (lit "..") then (n - 1)%Z
                        else if str_eqb x (lit ".") then n else (n + 1)%Z) b 0%Z.

(** The text of [path(s).lexically_relative(path(t))] ([fs.path.gen]/4). *)
Definition relative_text (s t : str) : str :=
  let a := fst (strip_common (elements s) (elements t)) in
  let b := snd (strip_common (elements s) (elements t)) in
  if negb (Bool.eqb (starts_slash s) (starts_slash t)) then []
  else if is_nil a && is_nil b then lit "."
  else if (upcount b <? 0)%Z then []
  else
    let l := repeat (lit "..") (Z.to_nat (upcount b)) ++ filter (fun x => negb (is_nil x)) a in
    join l ++ (if existsb is_nil a && negb (is_nil l) then [slash] else []).
