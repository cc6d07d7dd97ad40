(** Model of class [path] (include/filesystem/fs_path.h, src/fs_path.cpp).

    A value of the class is its three data members. Results that are not
    values are explicit: a C++ exception, a failed ASAP_ASSERT and undefined
    behaviour are separate constructors of [out].

    Parameters of the model:
    - [w]: the platform ([ASAP_WINDOWS] defined or not).
    - [E]: for the [return ret;] statements, whether the compiler elides the
      copy. Without elision the returned object is made by the move constructor,
      which re-splits the text (fs_path.h:72-75); with elision (allowed, not required in
      C++14) the object is the local variable itself.

    Simplifications common to all definitions: [size_t] offsets are [nat]
    (strings are far shorter than 2^64); memory exhaustion ([std::bad_alloc]) is not
    modelled; elements are stored without their own (always empty on POSIX)
    element lists. *)
From Coq Require Import Ascii String Bool Arith NArith ZArith Lia List.
From Verif Require Import Str.
Import ListNotations.

(** Platform switch: #ifdef ASAP_WINDOWS throughout fs_path.cpp. *)
(** Used at fs_path.cpp:25-106, 152-226, 365-383, 444, 522-636, 727; fs_path.h:41-45. *)
Inductive platform := Posix | Windows.

(** fs_path.h:356 *)
Inductive ptype := MULTI | ROOT_NAME | ROOT_DIR | FILENAME.

(** fs_path.h:535-540, struct path::Component: a path (text and type; its own
    element list is always empty) with its byte offset. *)
Record comp := Comp { c_str : str; c_type : ptype; c_pos : nat }.

(** fs_path.h:381-386, data members of path. *)
Record path := Path { pathname : str; comps : list comp; ptyp : ptype }.

(** Exceptions thrown by the standard library calls and by fs_path.cpp:674. *)
Inductive exn := out_of_range | logic_error.

(** Outcome of a call. Not in the repository: the C++ ways of not returning. *)
(** fs_path.cpp:674 and the assertions, standard library exceptions and undefined behaviours named with each use below. *)
Inductive out (A : Type) : Type :=
| Ok (a : A)
| Throw (e : exn)
| AssertFail          (* ASAP_ASSERT *)
| UB.                 (* undefined behaviour *)
Arguments Ok {A} _.
Arguments Throw {A} _.
Arguments AssertFail {A}.
Arguments UB {A}.

(** Sequencing of calls (C++ statement order). *)
(** Not in the repository; statement order of fs_path.cpp:1-832. *)
Definition bind {A B} (x : out A) (f : A -> out B) : out B :=
  match x with
  | Ok a => f a
  | Throw e => Throw e
  | AssertFail => AssertFail
  | UB => UB
  end.
Notation "'do' x <- e1 ;; e2" := (bind e1 (fun x => e2))
  (at level 60, x pattern, e1 at next level, e2 at level 60, right associativity).

(** Copy elision choices for [return ret;]: fs_path.cpp:294 (parent_path),
    720 and 789 (lexically_normal), and the others (204, 225, 244, 263, 828; fs_path.h:508). *)
Record elision := Elision { el_parent : bool; el_normal : bool; el_other : bool }.

(** Comparison of path::Type, fs_path.h:356. *)
Definition ptype_eqb (a b : ptype) : bool :=
  match a, b with
  | MULTI, MULTI | ROOT_NAME, ROOT_NAME | ROOT_DIR, ROOT_DIR | FILENAME, FILENAME => true
  | _, _ => false
  end.

(** [std::string::erase(pos)]: throws when [pos > size()]. Used at fs_path.cpp:643, 670, 676, 756. *)
Definition str_erase (s : str) (pos : nat) : out str :=
  if pos <=? length s then Ok (firstn pos s) else Throw out_of_range.

(** [std::string::substr(pos)]: throws when [pos > size()]. Used at fs_path.cpp:260. *)
Definition str_substr_from (s : str) (pos : nat) : out str :=
  if pos <=? length s then Ok (skipn pos s) else Throw out_of_range.

(** fs_path.h:53, [path()]: no text, no elements, type MULTI (fs_path.h:386). *)
Definition path_default : path := Path [] [] MULTI.

(** A component seen as a path (slicing copy, e.g. fs_path.cpp:202, 222, 312, 435). *)
Definition comp_path (c : comp) : path := Path (c_str c) [] (c_type c).

(** fs_path.h:254 *)
Definition empty (p : path) : bool := is_nil (pathname p).

(** fs_path.h:197 *)
Definition native (p : path) : str := pathname p.

Section Model.
Variable w : platform.
Variable E : elision.

(** fs_path.h:41-45 *)
Definition preferred_separator : ascii :=
  match w with Posix => slash | Windows => backslash end.

(** fs_path.h:348-354 *)
Definition is_sep (c : ascii) : bool :=
  match w with
  | Posix => Ascii.eqb c slash
  | Windows => Ascii.eqb c slash || Ascii.eqb c backslash
  end.

(** std::replace(slash, preferred_separator), fs_path.cpp:369, 378-380, 633, 727 (Windows only). *)
Definition to_preferred (s : str) : str :=
  match w with
  | Posix => s
  | Windows => map (fun c => if Ascii.eqb c slash then backslash else c) s
  end.

(** fs_path.cpp:365-372 AddRootName: the component added. *)
Definition root_name_comp (s : str) (len : nat) : comp :=
  Comp (to_preferred (substr s 0 len)) ROOT_NAME 0.

(** fs_path.cpp:374-383 AddRootDir: the component added. *)
Definition root_dir_comp (s : str) (pos : nat) : comp :=
  Comp (to_preferred (substr s pos 1)) ROOT_DIR pos.

(** fs_path.cpp:385-387 AddFilename: the component added. *)
Definition filename_comp (s : str) (pos len : nat) : comp :=
  Comp (substr s pos len) FILENAME pos.

(** fs_path.cpp:108-115 Trim *)
Definition trim (p : path) : path :=
  match comps p with
  | [c] => Path (c_str c) [] (c_type c)
  | _ => p
  end.

(** fs_path.cpp:83-92, the scanning loop: [rest] is the text from [pos] on, so
    [pathname_[pos]] is its head and [pos < len] is [rest <> []]. Returns the
    components, [back] and [pos] at loop exit. *)
Fixpoint scan (s rest : str) (pos back : nat) (acc : list comp) : list comp * nat * nat :=
  match rest with
  | [] => (acc, back, pos)
  | c :: r =>
      if is_sep c then
        let acc' := if back =? pos then acc
                    else acc ++ [filename_comp s back (pos - back)] in
        scan s r (S pos) (S pos) acc'
      else scan s r (S pos) back acc
  end.

(** fs_path.cpp:82-105, scanning, the trailing element, Trim. [cs] are the root
    components found so far. [components_.back()] at line 99 needs a non-empty
    list: [split_tail_back_ok] (PathProofs.v) shows it never is empty; the model's
    [None] branch adds nothing. *)
Definition split_tail (s : str) (pos : nat) (cs : list comp) : path :=
  let '(acc, back, pos') := scan s (skipn pos s) pos pos cs in
  let final :=
    if negb (back =? pos') then acc ++ [filename_comp s back (pos' - back)]
    else if match last (map Some s) None with Some c => is_sep c | None => false end then
      match last (map Some acc) None with
      | Some c => if ptype_eqb (c_type c) FILENAME
                  then acc ++ [Comp [] FILENAME (length s)] else acc
      | None => acc
      end
    else acc in
  trim (Path s final MULTI).

(** fs_path.cpp:43-46, [while (pos < len && !IsDirSeparator(pathname_[pos])) ++pos]. *)
Fixpoint find_sep (rest : str) (pos : nat) : nat :=
  match rest with
  | [] => pos
  | c :: r => if is_sep c then pos else find_sep r (S pos)
  end.

(** fs_path.cpp:25-106 SplitComponents, as a function of the text. The fallback of lines 58-69 is
    [split_rooted]. *)
Definition split_rooted (s : str) : path :=
  if forallb (fun c => Ascii.eqb c slash) s then
    (* lines 60-66; Trim replaces the text by the single component *)
    trim (Path s [root_dir_comp s 0] ROOT_DIR)
  else split_tail s 1 [root_dir_comp s 0].

(** fs_path.cpp:25-106 SplitComponents on the object: text kept or replaced, elements, type. *)
Definition split_components (s : str) : path :=
  match s with
  | [] => Path [] [] FILENAME
  | c0 :: _ =>
      if is_sep c0 then
        match w, s with
        | Windows, _ :: c1 :: c2 :: _ =>
            if Ascii.eqb c1 c0 then
              if negb (is_sep c2) then
                let pos := find_sep (skipn 3 s) 3 in
                split_tail s pos
                  (root_name_comp s pos ::
                   (if pos <? length s then [root_dir_comp s pos] else []))
              else split_tail s 0 [root_dir_comp s 0]
            else split_rooted s
        | _, _ => split_rooted s
        end
      else
        match w, s with
        | Windows, _ :: c1 :: r =>
            if Ascii.eqb c1 colon then
              split_tail s 2
                (root_name_comp s 2 ::
                 match r with
                 | c2 :: _ => if is_sep c2 then [root_dir_comp s 2] else []
                 | [] => []
                 end)
            else split_tail s 0 []
        | _, _ => split_tail s 0 []
        end
  end.

(** Result of [return ret;]: the local object when elided, else move-constructed
    from it (fs_path.h:72-75, which re-splits). *)
Definition fin (elided : bool) (p : path) : path :=
  if elided then p else split_components (pathname p).

(** fs_path.h:177-180 *)
Definition clear (p : path) : path := split_components [].

(** fs_path.h:72-75 move constructor: (new object, source afterwards). *)
Definition move_ctor (p : path) : path * path := (split_components (pathname p), clear p).

(** fs_path.cpp:121-127 move assignment: (target, source afterwards), distinct objects (see AliasModel.v). *)
Definition move_assign (dst src : path) : path * path :=
  (Path (pathname src) (comps src) (ptyp src), clear src).

(** fs_path.cpp:129-135 assign from a string: move-assign from a temporary. *)
Definition assign_str (dst : path) (s : str) : path := fst (move_assign dst (split_components s)).

(** fs_path.h:187-191 *)
Definition swap (a b : path) : path * path :=
  (Path (pathname b) (comps b) (ptyp b), Path (pathname a) (comps a) (ptyp a)).

(** * Iteration *)

(** fs_path.h:394-452 path::iterator; [path_] is passed separately. *)
Inductive iter := ItMulti (i : nat) | ItSingle (at_end : bool).

(** fs_path.cpp:393-398 *)
Definition it_begin (p : path) : iter :=
  match ptyp p with MULTI => ItMulti 0 | _ => ItSingle (empty p) end.

(** fs_path.cpp:400-405 *)
Definition it_end (p : path) : iter :=
  match ptyp p with MULTI => ItMulti (length (comps p)) | _ => ItSingle true end.

(** fs_path.cpp:407-417 *)
Definition it_inc (p : path) (i : iter) : out iter :=
  match ptyp p, i with
  | MULTI, ItMulti n => if n =? length (comps p) then AssertFail else Ok (ItMulti (S n))
  | MULTI, ItSingle _ => UB   (* unset cur_ *)
  | _, ItSingle true => AssertFail
  | _, ItSingle false => Ok (ItSingle true)
  | _, ItMulti _ => UB        (* path changed under the iterator; not produced by begin/end *)
  end.

(** fs_path.cpp:419-429 *)
Definition it_dec (p : path) (i : iter) : out iter :=
  match ptyp p, i with
  | MULTI, ItMulti n => match n with 0 => AssertFail | S m => Ok (ItMulti m) end
  | MULTI, ItSingle _ => UB
  | _, ItSingle true => Ok (ItSingle false)
  | _, ItSingle false => AssertFail
  | _, ItMulti _ => UB
  end.

(** fs_path.cpp:431-438 *)
Definition it_deref (p : path) (i : iter) : out path :=
  match ptyp p, i with
  | MULTI, ItMulti n =>
      match nth_error (comps p) n with
      | Some c => Ok (comp_path c)
      | None => AssertFail
      end
  | MULTI, ItSingle _ => UB
  | _, _ => Ok p
  end.

(** fs_path.cpp:440-451, for two iterators into the same path. *)
Definition it_equals (p : path) (a b : iter) : bool :=
  match a, b with
  | ItMulti m, ItMulti n => m =? n
  | ItSingle x, ItSingle y => Bool.eqb x y
  | _, _ => false
  end.

(** The elements visited by a range-based for loop over the path (fs_path.cpp:620, 722;
    fs_path.h:601). [forward_elems] (PathMisc.v) shows it is what
    begin/++/*/end produce. *)
Definition elems (p : path) : list path :=
  match ptyp p with
  | MULTI => map comp_path (comps p)
  | _ => if empty p then [] else [p]
  end.

(** * Comparison *)

(** The sign of std::string::compare as used at fs_path.cpp:458-507. *)
Definition cmp_sign (c : comparison) : Z := match c with Lt => -1 | Eq => 0 | Gt => 1 end.

(** fs_path.cpp:458-479; [int cmpt] is a [Z] (no overflow modelled). *)
Fixpoint do_compare (a b : list str) (cmpt : Z) : Z :=
  match a, b with
  | x :: a', y :: b' =>
      match str_compare x y with
      | Lt => (- cmpt)%Z
      | Gt => cmpt
      | Eq => do_compare a' b' (cmpt + 1)%Z
      end
  | [], [] => 0%Z
  | [], _ :: _ => (- cmpt)%Z
  | _ :: _, [] => cmpt
  end.

(** fs_path.cpp:482-507; std::string::compare's result is taken as -1/0/1 (only its sign is specified). *)
Definition compare (p q : path) : Z :=
  if empty p && empty q then 0%Z
  else match ptyp p, ptyp q with
  | MULTI, MULTI => do_compare (map c_str (comps p)) (map c_str (comps q)) 1
  | MULTI, _ => do_compare (map c_str (comps p)) [pathname q] 1
  | _, MULTI => do_compare [pathname p] (map c_str (comps q)) 1
  | _, _ => cmp_sign (str_compare (pathname p) (pathname q))
  end.

(** fs_path.h:454-476 *)
Definition path_lt (p q : path) : bool := (compare p q <? 0)%Z.
(** fs_path.h:458-460 *)
Definition path_le (p q : path) : bool := negb (path_lt q p).
(** fs_path.h:462-464 *)
Definition path_gt (p q : path) : bool := path_lt q p.
(** fs_path.h:466-468 *)
Definition path_ge (p q : path) : bool := negb (path_lt p q).
(** fs_path.h:470-472 *)
Definition path_eq (p q : path) : bool := (compare p q =? 0)%Z.
(** fs_path.h:474-476 *)
Definition path_ne (p q : path) : bool := negb (path_eq p q).

(** fs_path.cpp:612-625; [h] stands for std::hash<std::string>; 64-bit size_t arithmetic. *)
Definition hash_step (h : str -> N) (seed : N) (x : path) : N :=
  (N.lxor seed
    ((h (native x) + 0x9e3779b9 + N.shiftl seed 6 mod 2^64 + N.shiftr seed 2) mod 2^64))%N.
(** fs_path.cpp:612-625, the loop over the elements. *)
Definition hash_value (h : str -> N) (p : path) : N :=
  fold_left (hash_step h) (elems p) 0%N.

(** * Decomposition and queries *)

(** fs_path.cpp:152-156 *)
Definition has_root_name (p : path) : bool :=
  ptype_eqb (ptyp p) ROOT_NAME ||
  match comps p with c :: _ => ptype_eqb (c_type c) ROOT_NAME | [] => false end.

(** fs_path.cpp:196-205 *)
Definition root_name (p : path) : path :=
  fin (el_other E)
    (if ptype_eqb (ptyp p) ROOT_NAME then p
     else match comps p with
          | c :: _ => if ptype_eqb (c_type c) ROOT_NAME then comp_path c else path_default
          | [] => path_default
          end).

(** components after an optional leading ROOT_NAME: fs_path.cpp:217-220, 252-255. *)
Definition skip_root_name (l : list comp) : list comp :=
  match l with
  | c :: r => if ptype_eqb (c_type c) ROOT_NAME then r else l
  | [] => []
  end.

(** fs_path.cpp:207-226; [pathname_[1]] of a one-character ROOT_NAME text is the terminating NUL. *)
Definition root_directory (p : path) : path :=
  fin (el_other E)
    (match ptyp p with
     | ROOT_DIR => p
     | ROOT_NAME =>
         match pathname p with
         | _ :: c1 :: _ => if Ascii.eqb c1 colon then split_components [] else path_default
         | _ => path_default
         end
     | _ =>
         match skip_root_name (comps p) with
         | c :: _ => if ptype_eqb (c_type c) ROOT_DIR then comp_path c else path_default
         | [] => path_default
         end
     end).

(** fs_path.cpp:158-160 *)
Definition has_root_directory (p : path) : bool := negb (empty (root_directory p)).

(** fs_path.cpp:228-245 *)
Definition root_path (p : path) : path :=
  fin (el_other E)
    (match ptyp p with
     | ROOT_NAME | ROOT_DIR => p
     | _ =>
         match comps p with
         | c :: r =>
             match c_type c with
             | ROOT_NAME =>
                 match r with
                 | d :: _ => if ptype_eqb (c_type d) ROOT_DIR
                             then split_components (c_str c ++ [preferred_separator])
                             else comp_path c
                 | [] => comp_path c
                 end
             | ROOT_DIR => comp_path c
             | _ => path_default
             end
         | [] => path_default
         end
     end).

(** fs_path.cpp:162 *)
Definition has_root_path (p : path) : bool := negb (empty (root_path p)).

(** fs_path.cpp:172-188 *)
Definition is_absolute (p : path) : bool :=
  match w with
  | Windows =>
      (has_root_name p &&
       match pathname (root_name p) with
       | c0 :: c1 :: _ => is_sep c0 && is_sep c1
       | _ => false
       end) || has_root_directory p
  | Posix => has_root_directory p || has_root_name p
  end.

(** fs_path.h:264 *)
Definition is_relative (p : path) : bool := negb (is_absolute p).

(** fs_path.cpp:256-258 *)
Definition skip_root_dir (l : list comp) : list comp :=
  match l with
  | c :: r => if ptype_eqb (c_type c) ROOT_DIR then r else l
  | [] => []
  end.

(** fs_path.cpp:247-264; throws if the recorded offset is beyond the text. *)
Definition relative_path (p : path) : out path :=
  match ptyp p with
  | FILENAME => Ok (fin (el_other E) p)
  | _ =>
      match skip_root_dir (skip_root_name (comps p)) with
      | c :: _ =>
          do t <- str_substr_from (pathname p) (c_pos c) ;;
          Ok (fin (el_other E) (split_components t))
      | [] => Ok (fin (el_other E) path_default)
      end
  end.

(** fs_path.cpp:164-166 *)
Definition has_relative_path (p : path) : out bool :=
  do r <- relative_path p ;; Ok (negb (empty r)).

(** fs_path.cpp:599-610, the separator appended to the text (position result unused). *)
Definition append_sep_if_needed (t : str) : str :=
  match last (map Some t) None with
  | Some c =>
      if (match w with Windows => Ascii.eqb c colon | Posix => false end) || is_sep c
      then t else t ++ [preferred_separator]
  | None => t
  end.

(** fs_path.cpp:284-293, rebuilding the text from the components. *)
Fixpoint rebuild (l : list comp) (acc : str) : str :=
  match l with
  | [] => acc
  | [c] => acc ++ c_str c
  | c :: r => rebuild r (append_sep_if_needed (acc ++ c_str c))
  end.

(** fs_path.cpp:279-283: drop the last component, and the one before when the last is empty;
    [std::prev] of the first element is undefined behaviour. *)
Definition drop_end (l : list comp) : out (list comp) :=
  match rev l with
  | [] => AssertFail                                  (* line 272 *)
  | c :: r => if is_nil (c_str c) then
                match r with
                | [] => UB
                | _ :: r' => Ok (rev r')
                end
              else Ok (rev r)
  end.

(** fs_path.cpp:266-297 *)
Definition parent_path (p : path) : out path :=
  do hr <- has_relative_path p ;;
  if negb hr then Ok p
  else match ptyp p with
  | MULTI =>
      do l <- drop_end (comps p) ;;
      Ok (fin (el_parent E) (Path (rebuild l []) l MULTI))
  | _ => Ok path_default
  end.

(** fs_path.cpp:168 *)
Definition has_parent_path (p : path) : out bool :=
  do r <- parent_path p ;; Ok (negb (empty r)).

(** fs_path.cpp:299-316; [*--end()] asserts when there are no components. *)
Definition filename (p : path) : out path :=
  if empty p then Ok path_default
  else match ptyp p with
  | FILENAME => Ok p
  | MULTI =>
      if match last (map Some (pathname p)) None with
         | Some c => Ascii.eqb c preferred_separator | None => false end
      then Ok path_default
      else match last (map Some (comps p)) None with
           | Some c => if ptype_eqb (c_type c) FILENAME then Ok (comp_path c) else Ok path_default
           | None => AssertFail
           end
  | _ => Ok path_default
  end.

(** fs_path.cpp:170 *)
Definition has_filename (p : path) : out bool :=
  do r <- filename p ;; Ok (negb (empty r)).

(** fs_path.cpp:338-361. The returned pointer designates the path's own text
    or the last component's text; [inl]/[inr] say which. The second component is
    the position, [None] being npos. *)
Inductive ext_src := ExtSelf (s : str) | ExtBack (c : comp).
(** fs_path.cpp:338-361, the text the returned pointer designates. *)
Definition ext_str (x : ext_src) : str := match x with ExtSelf s => s | ExtBack c => c_str c end.

(** fs_path.cpp:338-361 FindExtension *)
Definition find_extension (p : path) : option (ext_src * option nat) :=
  let src :=
    match ptyp p with
    | FILENAME => Some (ExtSelf (pathname p))
    | MULTI =>
        match last (map Some (comps p)) None with
        | Some c => if ptype_eqb (c_type c) FILENAME then Some (ExtBack c) else None
        | None => None
        end
    | _ => None
    end in
  match src with
  | None => None
  | Some x =>
      match ext_str x with
      | [] => None
      | c0 :: _ =>
          if (length (ext_str x) <=? 2) && Ascii.eqb c0 dot then Some (x, None)
          else match rfind dot (ext_str x) with
               | Some 0 => Some (x, None)
               | o => Some (x, o)
               end
      end
  end.

(** fs_path.cpp:318-327 *)
Definition stem (p : path) : path :=
  match find_extension p with
  | Some (x, None) | Some (x, Some 0) => split_components (ext_str x)
  | Some (x, Some n) => split_components (substr (ext_str x) 0 n)
  | None => path_default
  end.

(** fs_path.cpp:329-336 *)
Definition extension (p : path) : path :=
  match find_extension p with
  | Some (x, Some (S n)) => split_components (skipn (S n) (ext_str x))
  | _ => path_default
  end.

(** fs_path.cpp:141-144 *)
Definition has_stem (p : path) : bool :=
  match find_extension p with Some _ => true | None => false end.

(** fs_path.cpp:146-150 *)
Definition has_extension (p : path) : bool :=
  match find_extension p with Some (_, Some (S _)) => true | _ => false end.

(** * Append and concatenation *)

(** fs_path.cpp:522-597. [grow] is the condition of line 577, which depends on
    allocated capacities. Both branches are modelled; PathProofs.v shows
    they agree. *)
Definition path_append (grow : bool) (this p : path) : out path :=
  if (is_absolute p && negb (has_root_name this)) ||
     (has_root_name p && path_ne (root_name p) (root_name this))
  then Ok p
  else
    do add_sep <-
      (if has_root_directory p then Ok false
       else do hf <- has_filename this ;;
            Ok (hf || (negb (has_root_directory this) && is_absolute this))) ;;
    let lhs :=
      if has_root_directory p then
        if negb (ptype_eqb (ptyp this) ROOT_NAME) then
          match comps this with
          | c :: _ => if ptype_eqb (c_type c) ROOT_NAME then c_str c else []
          | [] => []
          end
        else pathname this
      else pathname this in
    let rhs :=
      if ptype_eqb (ptyp p) ROOT_NAME then []
      else match comps p with
           | c :: _ => if ptype_eqb (c_type c) ROOT_NAME
                       then skipn (length (c_str c)) (pathname p) else pathname p
           | [] => pathname p
           end in
    if grow then
      (* lines 579-587: new path from the text, then swap *)
      let tmp := (lhs ++ (if add_sep then [preferred_separator] else [])) ++ rhs in
      let newp := split_components tmp in
      Ok (fst (swap this newp))
    else
      (* lines 589-594: in place *)
      let t1 := lhs in
      let t2 := if add_sep then t1 ++ [preferred_separator] else t1 in
      let t3 := t2 ++ rhs in
      Ok (split_components t3).

(** fs_path.h:505-509 operator/ *)
Definition path_div (a b : path) : out path :=
  do r <- path_append true a b ;; Ok (fin (el_other E) r).

(** fs_path.h:482-502 operator+= (all overloads append characters and re-split). *)
Definition path_concat (p : path) (s : str) : path := split_components (pathname p ++ s).

(** * Modifiers *)

(** fs_path.cpp:631-636 *)
Definition make_preferred (p : path) : path := Path (to_preferred (pathname p)) (comps p) (ptyp p).

(** fs_path.cpp:638-657; [std::prev(cmpt)] at line 644 is undefined behaviour
    when the component is the first one. *)
Definition remove_filename (p : path) : out path :=
  match ptyp p with
  | MULTI =>
      match rev (comps p) with
      | [] => Ok p
      | c :: r =>
          if ptype_eqb (c_type c) FILENAME && negb (is_nil (c_str c)) then
            do t <- str_erase (pathname p) (c_pos c) ;;
            match r with
            | [] => UB
            | prev :: _ =>
                if ptype_eqb (c_type prev) ROOT_DIR || ptype_eqb (c_type prev) ROOT_NAME
                then Ok (trim (Path t (rev r) MULTI))
                else Ok (Path t (rev r ++ [Comp [] FILENAME (c_pos c)]) MULTI)
            end
          else Ok p
      end
  | FILENAME => Ok (clear p)
  | _ => Ok p
  end.

(** fs_path.cpp:659-663 *)
Definition replace_filename (p r : path) : out path :=
  do q <- remove_filename p ;; path_append true q r.

(** fs_path.cpp:665-686, for a replacement that is a different object (see AliasModel.v). The
    logic_error of line 674 needs a pointer mismatch that [find_extension] never produces. *)
Definition replace_extension (p r : path) : out path :=
  do t <- match find_extension p with
          | Some (ExtSelf _, Some n) => str_erase (pathname p) n
          | Some (ExtBack c, Some n) => str_erase (pathname p) (c_pos c + n)
          | _ => Ok (pathname p)
          end ;;
  let t' := match pathname r with
            | c :: _ => if Ascii.eqb c dot then t else t ++ [dot]
            | [] => t
            end in
  Ok (split_components (t' ++ pathname r)).

(** * Generation *)

(** fs_path.cpp:691-699 *)
Definition is_dot (p : path) : bool :=
  match native p with [c] => Ascii.eqb c dot | _ => false end.
(** fs_path.cpp:696-699; the same function again at src/fs_ops.cpp:78-81. *)
Definition is_dotdot (p : path) : bool :=
  match native p with [c; d] => Ascii.eqb c dot && Ascii.eqb d dot | _ => false end.

(** The index of an iterator into a MULTI path ([elem.cur_]); other iterators have no [cur_]. *)
(** fs_path.h:394-452, member cur_. *)
Definition it_cur (i : iter) : out nat :=
  match i with ItMulti n => Ok n | ItSingle _ => UB end.

(** fs_path.cpp:746-766, the branch with a trailing separator. *)
Definition normal_trailing (ret p : path) : out path :=
  do e1 <- it_dec ret (it_end ret) ;;
  do elem <- it_dec ret e1 ;;                         (* std::prev(ret.end(), 2) *)
  do ep <- it_deref ret elem ;;
  do hf <- has_filename ep ;;
  if hf && negb (is_dotdot ep) then
    if it_equals ret elem (it_begin ret) then Ok (clear ret)
    else
      do i <- it_cur elem ;;
      match nth_error (comps ret) i with
      | None => UB
      | Some c =>
          do t <- str_erase (pathname ret) (c_pos c) ;;
          do prev <- it_dec ret elem ;;
          do j <- it_cur prev ;;
          match nth_error (comps ret) j with
          | None => UB
          | Some d =>
              if ptype_eqb (c_type d) FILENAME
              then Ok (Path t (firstn i (comps ret) ++ skipn (S i) (comps ret)) (ptyp ret))
              else Ok (Path t (firstn i (comps ret)) (ptyp ret))
          end
      end
  else path_append true ret p.

(** fs_path.cpp:722-773, one iteration of the loop. *)
Definition normal_step (ret p : path) : out path :=
  if match w with
     | Windows => ptype_eqb (ptyp p) ROOT_NAME || ptype_eqb (ptyp p) ROOT_DIR
     | Posix => false end
  then path_append true ret (split_components (to_preferred (native p)))      (* lines 723-731 *)
  else if is_dotdot p then
    do hf <- has_filename ret ;;
    if hf then
      do f <- filename ret ;;
      if negb (is_dotdot f) then remove_filename ret else path_append true ret p
    else
      do hr <- has_relative_path ret ;;
      if negb hr then
        if negb (has_root_directory ret) then path_append true ret p else Ok ret
      else normal_trailing ret p
  else if is_dot p then path_append true ret path_default
  else path_append true ret p.

(** fs_path.cpp:722, the loop. *)
Fixpoint normal_loop (l : list path) (ret : path) : out path :=
  match l with
  | [] => Ok ret
  | p :: r => do ret' <- normal_step ret p ;; normal_loop r ret'
  end.

(** fs_path.cpp:775-787 *)
Definition normal_finish (ret : path) : out path :=
  match rev (comps ret) with
  | b :: pv :: r =>
      if is_nil (c_str b) && is_dotdot (comp_path pv) then
        match rev (pathname ret) with
        | [] => UB
        | _ :: t => Ok (Path (rev t) (rev (pv :: r)) (ptyp ret))
        end
      else Ok ret
  | _ => if empty ret then Ok (split_components [dot]) else Ok ret
  end.

(** fs_path.cpp:702-790 *)
Definition lexically_normal (p : path) : out path :=
  if empty p then Ok (fin (el_normal E) path_default)
  else do r <- normal_loop (elems p) path_default ;;
       do r' <- normal_finish r ;;
       Ok (fin (el_normal E) r').

(** std::mismatch (fs_path.cpp:803): the two remaining ranges. *)
Fixpoint mismatch (a b : list path) : list path * list path :=
  match a, b with
  | x :: a', y :: b' => if path_eq x y then mismatch a' b' else (a, b)
  | _, _ => (a, b)
  end.

(** fs_path.cpp:809-817; [int n] as [Z]. *)
Definition count_updots (b : list path) : Z :=
  fold_left (fun n bp => if is_dotdot bp then (n - 1)%Z
                         else if negb (is_dot bp) then (n + 1)%Z else n) b 0%Z.

(** fs_path.cpp:820-822 *)
Fixpoint append_dotdots (n : nat) (ret : path) : out path :=
  match n with
  | 0 => Ok ret
  | S m => do r <- path_append true ret (split_components [dot; dot]) ;; append_dotdots m r
  end.

(** fs_path.cpp:823-825 *)
Fixpoint append_all (l : list path) (ret : path) : out path :=
  match l with
  | [] => Ok ret
  | a :: l' => do r <- path_append true ret a ;; append_all l' r
  end.

(** fs_path.cpp:792-829 *)
Definition lexically_relative (p base : path) : out path :=
  let f := fin (el_other E) in
  if path_ne (root_name p) (root_name base) then Ok (f path_default)
  else if negb (Bool.eqb (is_absolute p) (is_absolute base)) then Ok (f path_default)
  else if negb (has_root_directory p) && has_root_directory base then Ok (f path_default)
  else
    let '(a, b) := mismatch (elems p) (elems base) in
    match a, b with
    | [], [] => Ok (f (split_components [dot]))
    | _, _ =>
        let n := count_updots b in
        if (0 <=? n)%Z then
          do r <- append_dotdots (Z.to_nat n) path_default ;;
          do r' <- append_all a r ;;
          Ok (f r')
        else Ok (f path_default)
    end.

(** fs_path.h:233-239; both return paths copy or move a path. *)
Definition lexically_proximate (p base : path) : out path :=
  do r <- lexically_relative p base ;;
  if is_nil (native r) then Ok p else Ok (fin (el_other E) r).

(** fs_path.h:594-618 make_generic / generic_string *)
Fixpoint generic_loop (l : list path) (s : str) (add_slash : bool) : str :=
  match l with
  | [] => s
  | e :: r =>
      match ptyp e with
      | ROOT_NAME =>
          generic_loop r
            (s ++ map (fun c => if Ascii.eqb c backslash then slash else c) (pathname e)) add_slash
      | ROOT_DIR => generic_loop r (s ++ [slash]) add_slash
      | t =>
          generic_loop r ((if add_slash then s ++ [slash] else s) ++ pathname e)
            (ptype_eqb t FILENAME)
      end
  end.
(** fs_path.h:594-625 generic_string *)
Definition generic_string (p : path) : str := generic_loop (elems p) [] false.

End Model.

(** * Stream operators (fs_path.h:512-533) with std::quoted *)

Definition quote : ascii := """"%char.

(** std::quoted output: delimiter, each delimiter or escape preceded by the escape, delimiter. *)
(** Not in the repository: the standard library, called at fs_path.h:513 and 520. *)
Fixpoint quoted_body (s : str) : str :=
  match s with
  | [] => []
  | c :: r => if Ascii.eqb c quote || Ascii.eqb c backslash
              then backslash :: c :: quoted_body r else c :: quoted_body r
  end.

(** fs_path.h:512-515: the characters written for a path. *)
Definition stream_out (p : path) : str := quote :: quoted_body (pathname p) ++ [quote].

(** std::isspace in the "C" locale, used by formatted extraction. *)
(** Not in the repository: the standard library, called at fs_path.h:529. *)
Definition is_space (c : ascii) : bool :=
  match N_of_ascii c with 9%N | 10%N | 11%N | 12%N | 13%N | 32%N => true | _ => false end.
(** Not in the repository: the standard library, called at fs_path.h:529. *)
Fixpoint skip_ws (s : str) : str :=
  match s with c :: r => if is_space c then skip_ws r else s | [] => [] end.

(** std::quoted input after the opening delimiter: (text, rest, terminated). *)
(** Not in the repository: the standard library, called at fs_path.h:529. *)
Fixpoint unquote (s acc : str) : str * str * bool :=
  match s with
  | [] => (acc, [], false)
  | c :: r =>
      if Ascii.eqb c backslash then
        match r with
        | [] => (acc, [], false)
        | d :: r' => unquote r' (acc ++ [d])
        end
      else if Ascii.eqb c quote then (acc, r, true)
      else unquote r (acc ++ [c])
  end.

(** Extraction of an unquoted word (operator>> on std::string). *)
(** Not in the repository: the standard library, called at fs_path.h:529. *)
Fixpoint take_word (s acc : str) : str * str :=
  match s with
  | c :: r => if is_space c then (acc, s) else take_word r (acc ++ [c])
  | [] => (acc, [])
  end.

(** fs_path.h:525-533: (new value of p, rest of the stream); [p] is kept when extraction fails. *)
Definition stream_in (w : platform) (p : path) (s : str) : path * str :=
  match skip_ws s with
  | [] => (p, [])
  | c :: r =>
      if Ascii.eqb c quote then
        let '(t, rest, ok) := unquote r [] in
        if ok then (assign_str w p t, rest) else (p, rest)
      else let '(t, rest) := take_word (c :: r) [] in (assign_str w p t, rest)
  end.
