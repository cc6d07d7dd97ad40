(** The postfix increments of the directory iterators and the comparison of directory entries. *)
From Coq Require Import Bool NArith ZArith.
From Verif Require Import Str PathModel FlagsModel TimeModel Prog DirModel OpsModel.
From Coq Require Import List.
Import ListNotations.

(** include/filesystem/fs_dir.h:41-42, 53-54: the defaulted moves of directory_entry, on POSIX. The path is moved, the members of CachedData_ (250-285) are
    copied. The new entry and what is left of the old one. *)
Definition entry_move (e : dir_entry) : dir_entry * dir_entry :=
  let '(a, b) := move_ctor Posix (de_path e) in (Entry a (de_data e), Entry b (de_data e)).

(** fs_dir.h:364-377 class DirectoryEntryProxy_: it has an entry. *)
Definition proxy := dir_entry.
(** fs_dir.h:371: the argument, a copy of the entry, is moved into the member. *)
Definition proxy_ctor (e : dir_entry) : proxy := fst (entry_move e).
(** fs_dir.h:372, used by the return statements in 448-452 and 565-569 where the compiler does not elide it. *)
Definition proxy_return (elided : bool) (q : proxy) : proxy := if elided then q else fst (entry_move q).
(** fs_dir.h:366 operator*: the entry is moved out. The entry and what is left in the proxy. *)
Definition proxy_deref (q : proxy) : dir_entry * proxy := entry_move q.

Section Post.
Variable cf : config.

(** fs_dir.h:448-452 directory_iterator::operator++(int) *)
Definition dir_iter_post (n : nat) (it : dir_iter) : prog (proxy * dir_iter) :=
  let! e := dir_iter_deref cf it in
  let q := proxy_ctor e in
  let! j := dir_iter_increment cf n false it in
  Ret (proxy_return (el_other (cf_el cf)) q, fst j).

(** fs_dir.h:565-569 recursive_directory_iterator::operator++(int) *)
Definition rdir_post (n : nat) (it : rdir_iter) : prog (proxy * rdir_iter) :=
  let! e := rdir_deref cf it in
  let q := proxy_ctor e in
  let! j := rdir_increment cf n false it in
  Ret (proxy_return (el_other (cf_el cf)) q, fst j).
End Post.

(** fs_dir.h:231 operator< *)
Definition entry_lt (a b : dir_entry) : bool := path_lt (de_path a) (de_path b).
(** fs_dir.h:233 operator== *)
Definition entry_eq (a b : dir_entry) : bool := path_eq (de_path a) (de_path b).
(** fs_dir.h:235 operator!= *)
Definition entry_ne (a b : dir_entry) : bool := path_ne (de_path a) (de_path b).
(** fs_dir.h:237 operator<= *)
Definition entry_le (a b : dir_entry) : bool := path_le (de_path a) (de_path b).
(** fs_dir.h:239 operator> *)
Definition entry_gt (a b : dir_entry) : bool := path_gt (de_path a) (de_path b).
(** fs_dir.h:241 operator>= *)
Definition entry_ge (a b : dir_entry) : bool := path_ge (de_path a) (de_path b).
