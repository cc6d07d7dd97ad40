(** A POSIX file system as a kernel for the programs of Prog.v. No code of the repository is modelled
    here: this file is our reading of POSIX.1 (with Linux behaviour where POSIX leaves a choice) for the
    calls that src/fs_ops.cpp, src/fs_dir_iterator.cpp and src/posix/*.cpp make, and belongs to the trusted base of the
    theorems that use it. The place where the library makes the call is cited with each one.

    Simplifications: one mounted file system; a process that passes every permission check; umask 0; no limits
    on sizes, lengths or numbers of objects; times change only by utimensat; the link count of a directory is
    constant; opendir takes a snapshot of the directory; the current directory is kept as a place, so that one that
    was removed comes back when a directory of its name is made again. *)
From Coq Require Import Ascii String Bool Arith NArith ZArith.
From Verif Require Import Str PathModel PathSpec FlagsModel TimeModel Prog DirModel.
From Coq Require Import List.
Import ListNotations.

(** * The tree of names *)

(** A directory is an ordered list of named entries; every other object is a leaf holding the number of
    the object, so that several names can share one. *)
Inductive tree := Leaf (i : N) | Dir (i : N) (l : list (str * tree)).

(** Places are given by the names from the root. *)
Definition loc := list str.

Fixpoint assoc {A} (n : str) (l : list (str * A)) : option A :=
  match l with
  | [] => None
  | (m, x) :: r => if str_eqb m n then Some x else assoc n r
  end.

Fixpoint get (t : tree) (p : loc) : option tree :=
  match p with
  | [] => Some t
  | n :: r =>
      match t with
      | Leaf _ => None
      | Dir _ l => match assoc n l with Some c => get c r | None => None end
      end
  end.

Fixpoint update {A} (n : str) (f : A -> A) (l : list (str * A)) : list (str * A) :=
  match l with
  | [] => []
  | (m, x) :: r => if str_eqb m n then (m, f x) :: r else (m, x) :: update n f r
  end.

Fixpoint delete {A} (n : str) (l : list (str * A)) : list (str * A) :=
  match l with
  | [] => []
  | (m, x) :: r => if str_eqb m n then r else (m, x) :: delete n r
  end.

(** Apply [f] to the entries of the directory at [p]. *)
Fixpoint alter (f : list (str * tree) -> list (str * tree)) (p : loc) (t : tree) : tree :=
  match t with
  | Leaf i => Leaf i
  | Dir i l =>
      match p with
      | [] => Dir i (f l)
      | n :: r => Dir i (update n (alter f r) l)
      end
  end.

Definition insert_at (p : loc) (n : str) (c : tree) (t : tree) : tree := alter (fun l => l ++ [(n, c)]) p t.
Definition delete_at (p : loc) (n : str) (t : tree) : tree := alter (delete n) p t.

(** * Resolution of names *)

Inductive node := NLeaf (i : N) | NDir (i : N).
Definition node_of (t : tree) : node := match t with Leaf i => NLeaf i | Dir i _ => NDir i end.
Definition look (t : tree) (p : loc) : option node := option_map node_of (get t p).

(** The result of following a path: an object (with the number of symlinks that may still
    be followed), a missing last component, or an error. *)
Inductive place := Found (links : nat) (p : loc) | Missing (p : loc) (n : str) | Fail (e : errno).

(** The components of a path text; a trailing slash asks for a directory and counts as ".". *)
Definition comps (t : str) : list str :=
  names t ++ (if ends_slash t && negb (is_nil (names t)) then [lit "."] else []).

(** POSIX.1 4.13 pathname resolution. [target] tells the text of a symlink; [last]
    tells whether a symlink in the last component is followed. *)
Fixpoint steps (lk : loc -> option node) (target : N -> option str) (last : bool) (links : nat) : loc -> list str -> place :=
  fix go (cur : loc) (rest : list str) {struct rest} : place :=
    match rest with
    | [] => Found links cur
    | n :: r =>
        match lk cur with
        | None => Fail ENOENT
        | Some (NLeaf _) => Fail ENOTDIR
        | Some (NDir _) =>
            if str_eqb n (lit ".") then go cur r
            else if str_eqb n (lit "..") then go (removelast cur) r
            else
              match lk (cur ++ [n]) with
              | None => if is_nil r then Missing cur n else Fail ENOENT
              | Some (NDir _) => go (cur ++ [n]) r
              | Some (NLeaf i) =>
                  match target i with
                  | None => if is_nil r then Found links (cur ++ [n]) else Fail ENOTDIR
                  | Some t =>
                      if is_nil r && negb last then Found links (cur ++ [n])
                      else match links with
                           | O => Fail ELOOP
                           | S l => steps lk target last l (if starts_slash t then [] else cur) (comps t ++ r)
                           end
                  end
              end
        end
    end.

(** * The state *)

(** What a leaf holds. *)
Inductive special := SBlock | SChar | SFifo | SSock.
Inductive body := BReg (data : str) | BLink (target : str) | BSpecial (k : special).

(** Attributes of an object. *)
Record meta := Meta { m_perm : N; m_nlink : Z; m_mtime : timespec; m_atime : timespec }.

Record fs := Fs {
  f_root : tree;
  f_body : N -> body;                                (* contents of the leaves *)
  f_meta : N -> meta;
  f_next : N;                                        (* the next unused object number *)
  f_cwd : loc;
  f_fds : list (N * (N * nat));                      (* descriptors: object and offset *)
  f_dirs : list (N * list (str * dtype));            (* directory streams: entries to come *)
  f_handle : N;                                      (* the next descriptor or stream *)
  f_env : str -> option str;
  f_clock : nat                                      (* number of transfers made *)
}.

(** What the system is free to choose: how many bytes the k-th transfer moves at most, the link limit, whether
    readdir tells types, the answers of statvfs and pathconf. *)
Record choices := Choices {
  k_read : nat -> nat; k_write : nat -> nat; k_send : nat -> nat;
  k_links : nat; k_dtype : bool; k_vfs : statvfs_t; k_path_max : Z; k_now : timespec }.

Definition upd {A} (f : N -> A) (i : N) (x : A) : N -> A := fun j => if N.eqb j i then x else f j.

Fixpoint nassoc {A} (n : N) (l : list (N * A)) : option A :=
  match l with
  | [] => None
  | (m, x) :: r => if N.eqb m n then Some x else nassoc n r
  end.
Fixpoint nupdate {A} (n : N) (y : A) (l : list (N * A)) : list (N * A) :=
  match l with
  | [] => []
  | (m, x) :: r => if N.eqb m n then (m, y) :: r else (m, x) :: nupdate n y r
  end.
Fixpoint ndelete {A} (n : N) (l : list (N * A)) : list (N * A) :=
  match l with
  | [] => []
  | (m, x) :: r => if N.eqb m n then r else (m, x) :: ndelete n r
  end.

Definition set_root (s : fs) (r : tree) : fs :=
  Fs r (f_body s) (f_meta s) (f_next s) (f_cwd s) (f_fds s) (f_dirs s) (f_handle s) (f_env s) (f_clock s).
Definition set_body (s : fs) (i : N) (b : body) : fs :=
  Fs (f_root s) (upd (f_body s) i b) (f_meta s) (f_next s) (f_cwd s) (f_fds s) (f_dirs s) (f_handle s) (f_env s) (f_clock s).
Definition set_meta (s : fs) (i : N) (m : meta) : fs :=
  Fs (f_root s) (f_body s) (upd (f_meta s) i m) (f_next s) (f_cwd s) (f_fds s) (f_dirs s) (f_handle s) (f_env s) (f_clock s).
Definition set_next (s : fs) (i : N) : fs :=
  Fs (f_root s) (f_body s) (f_meta s) i (f_cwd s) (f_fds s) (f_dirs s) (f_handle s) (f_env s) (f_clock s).
Definition set_cwd (s : fs) (p : loc) : fs :=
  Fs (f_root s) (f_body s) (f_meta s) (f_next s) p (f_fds s) (f_dirs s) (f_handle s) (f_env s) (f_clock s).
Definition set_fds (s : fs) (l : list (N * (N * nat))) : fs :=
  Fs (f_root s) (f_body s) (f_meta s) (f_next s) (f_cwd s) l (f_dirs s) (f_handle s) (f_env s) (f_clock s).
Definition set_dirs (s : fs) (l : list (N * list (str * dtype))) : fs :=
  Fs (f_root s) (f_body s) (f_meta s) (f_next s) (f_cwd s) (f_fds s) l (f_handle s) (f_env s) (f_clock s).
Definition new_handle (s : fs) : fs :=
  Fs (f_root s) (f_body s) (f_meta s) (f_next s) (f_cwd s) (f_fds s) (f_dirs s) (f_handle s + 1) (f_env s) (f_clock s).
Definition tick (s : fs) : fs :=
  Fs (f_root s) (f_body s) (f_meta s) (f_next s) (f_cwd s) (f_fds s) (f_dirs s) (f_handle s) (f_env s) (S (f_clock s)).

Definition add_link (m : meta) (d : Z) : meta := Meta (m_perm m) (m_nlink m + d) (m_mtime m) (m_atime m).
Definition with_perm (m : meta) (p : N) : meta := Meta p (m_nlink m) (m_mtime m) (m_atime m).
Definition with_mtime (m : meta) (t : timespec) : meta := Meta (m_perm m) (m_nlink m) t (m_atime m).

(** The mode bits a call may set. *)
Definition mode_bits (mode : N) : N := N.land mode 4095.

(** A new object [c], of number f_next, under the name [n] of the directory at [p]. *)
Definition make (k : choices) (s : fs) (p : loc) (n : str) (c : tree) (perm : N) (nlink : Z) : fs :=
  set_next (set_meta (set_root s (insert_at p n c (f_root s))) (f_next s) (Meta perm nlink (k_now k) (k_now k)))
    (f_next s + 1).

(** The name [n] of the leaf [i] is removed from the directory at [p]. *)
Definition unlink (s : fs) (p : loc) (n : str) (i : N) : fs :=
  set_meta (set_root s (delete_at p n (f_root s))) i (add_link (f_meta s i) (-1)).

(** * Attributes *)

Definition link_text (s : fs) (i : N) : option str :=
  match f_body s i with BLink t => Some t | _ => None end.

Definition body_format (b : body) : N :=
  match b with
  | BReg _ => s_ifreg | BLink _ => s_iflnk
  | BSpecial SBlock => s_ifblk | BSpecial SChar => s_ifchr
  | BSpecial SFifo => s_ififo | BSpecial SSock => s_ifsock
  end.
Definition body_size (b : body) : Z :=
  match b with BReg d => Z.of_nat (length d) | BLink t => Z.of_nat (length t) | BSpecial _ => 0%Z end.
Definition body_dtype (b : body) : dtype :=
  match b with
  | BReg _ => DT_REG | BLink _ => DT_LNK
  | BSpecial SBlock => DT_BLK | BSpecial SChar => DT_CHR
  | BSpecial SFifo => DT_FIFO | BSpecial SSock => DT_SOCK
  end.

Definition stat_of (s : fs) (x : node) : stat_t :=
  match x with
  | NLeaf i =>
      let m := f_meta s i in
      Stat 1 i (body_format (f_body s i) + mode_bits (m_perm m)) (m_nlink m) (body_size (f_body s i)) (m_mtime m) (m_atime m)
  | NDir i =>
      let m := f_meta s i in
      Stat 1 i (s_ifdir + mode_bits (m_perm m)) (m_nlink m) 0 (m_mtime m) (m_atime m)
  end.

Definition dtype_of (k : choices) (s : fs) (t : tree) : dtype :=
  if k_dtype k then match t with Dir _ _ => DT_DIR | Leaf i => body_dtype (f_body s i) end else DT_UNKNOWN.

(** * Resolution in a state *)

(** [cs] starting at the root or the current directory, as [t] says. *)
Definition resolve_comps (k : choices) (s : fs) (last : bool) (t : str) (cs : list str) : place :=
  if is_nil t then Fail ENOENT
  else steps (look (f_root s)) (link_text s) last (k_links k) (if starts_slash t then [] else f_cwd s) cs.

Definition find_at (k : choices) (s : fs) (last : bool) (t : str) : place := resolve_comps k s last t (comps t).

(** For the calls that work on a directory entry (mkdir, remove, rename): a trailing slash is not a component. *)
Definition find_entry (k : choices) (s : fs) (t : str) : place := resolve_comps k s false t (names t).

Definition node_at (s : fs) (p : place) : res node :=
  match p with
  | Found _ q => match look (f_root s) q with Some x => Val x | None => Err ENOENT end
  | Missing _ _ => Err ENOENT
  | Fail e => Err e
  end.

(** The text of a place: what getcwd and realpath return. *)
Definition place_text (p : loc) : str := slash :: join p.

(** * The calls *)

Definition sys_stat (k : choices) (s : fs) (follow : bool) (t : str) : res stat_t :=
  match node_at s (find_at k s follow t) with Val x => Val (stat_of s x) | Err e => Err e end.

(** mkdir(2): src/fs_ops.cpp:699, 737 *)
Definition sys_mkdir (k : choices) (s : fs) (t : str) (mode : N) : res unit * fs :=
  match find_entry k s t with
  | Found _ _ => (Err EEXIST, s)
  | Fail e => (Err e, s)
  | Missing p n => (Val tt, make k s p n (Dir (f_next s) []) (mode_bits mode) 2)
  end.

(** symlink(2): src/fs_ops.cpp:763, 798 *)
Definition sys_symlink (k : choices) (s : fs) (target t : str) : res unit * fs :=
  if is_nil target then (Err ENOENT, s)
  else
    match find_at k s false t with
    | Found _ _ => (Err EEXIST, s)
    | Fail e => (Err e, s)
    | Missing p n => (Val tt, set_body (make k s p n (Leaf (f_next s)) 511 1) (f_next s) (BLink target))
    end.

(** link(2), which does not follow a symlink [old] on Linux: src/fs_ops.cpp:781 *)
Definition sys_link (k : choices) (s : fs) (old new : str) : res unit * fs :=
  match node_at s (find_at k s false old) with
  | Err e => (Err e, s)
  | Val x =>
      match find_at k s false new with
      | Found _ _ => (Err EEXIST, s)
      | Fail e => (Err e, s)
      | Missing p n =>
          match x with
          | NDir _ => (Err EPERM, s)
          | NLeaf i =>
              (Val tt, set_meta (set_root s (insert_at p n (Leaf i) (f_root s))) i (add_link (f_meta s i) 1))
          end
      end
  end.

(** readlink(2): src/fs_ops.cpp:1224 *)
Definition sys_readlink (k : choices) (s : fs) (t : str) (size : Z) : res str :=
  match node_at s (find_at k s false t) with
  | Err e => Err e
  | Val (NLeaf i) =>
      match f_body s i with BLink x => Val (firstn (Z.to_nat size) x) | _ => Err EINVAL end
  | Val (NDir _) => Err EINVAL
  end.

Definition last_name (t : str) : str := last (names t) [].

(** remove(3): unlink(2) or rmdir(2): src/fs_ops.cpp:1276 *)
Definition sys_remove (k : choices) (s : fs) (t : str) : res unit * fs :=
  match find_entry k s t with
  | Missing _ _ => (Err ENOENT, s)
  | Fail e => (Err e, s)
  | Found _ q =>
      if is_nil q then (Err EBUSY, s)
      else if str_eqb (last_name t) (lit ".") then (Err EINVAL, s)
      else if str_eqb (last_name t) (lit "..") then (Err ENOTEMPTY, s)
      else
        match get (f_root s) q with
        | None => (Err ENOENT, s)
        | Some (Leaf i) =>
            if ends_slash t then (Err ENOTDIR, s) else (Val tt, unlink s (removelast q) (last q []) i)
        | Some (Dir _ l) =>
            if is_nil l then (Val tt, set_root s (delete_at (removelast q) (last q []) (f_root s)))
            else (Err ENOTEMPTY, s)
        end
  end.

(** Is [q] the place [p] or below it? *)
Fixpoint below (p q : loc) : bool :=
  match p, q with
  | [], _ => true
  | a :: p', b :: q' => str_eqb a b && below p' q'
  | _ :: _, [] => false
  end.
Definition same_loc (p q : loc) : bool := below p q && below q p.

(** Where a place below [q] is after [q] has become [r]. *)
Definition rebase (q r x : loc) : loc := if below q x then r ++ skipn (length q) x else x.

(** The entry at [q] moves to the free name [n] of the directory at [p]; the current directory goes with it. *)
Definition move_entry (s : fs) (q : loc) (c : tree) (p : loc) (n : str) : fs :=
  set_cwd (set_root s (insert_at p n c (delete_at (removelast q) (last q []) (f_root s))))
    (rebase q (p ++ [n]) (f_cwd s)).

Definition is_dots (n : str) : bool := str_eqb n (lit ".") || str_eqb n (lit "..").

(** rename(2): src/fs_ops.cpp:1346 *)
Definition sys_rename (k : choices) (s : fs) (old new : str) : res unit * fs :=
  match find_entry k s old with
  | Missing _ _ => (Err ENOENT, s)
  | Fail e => (Err e, s)
  | Found _ q =>
      match get (f_root s) q with
      | None => (Err ENOENT, s)
      | Some c =>
          let is_dir := match c with Dir _ _ => true | Leaf _ => false end in
          if is_nil q || is_dots (last_name old) || is_dots (last_name new) || is_nil (names new) then (Err EBUSY, s)
          else if negb is_dir && (ends_slash old || ends_slash new) then (Err ENOTDIR, s)
          else
            match find_entry k s new with
            | Fail e => (Err e, s)
            | Missing p n =>
                if is_dir && below q p then (Err EINVAL, s) else (Val tt, move_entry s q c p n)
            | Found _ q2 =>
                match get (f_root s) q2, c with
                | None, _ => (Err ENOENT, s)
                | Some (Leaf j), Leaf i =>
                    if N.eqb i j then (Val tt, s)
                    else (Val tt, move_entry (unlink s (removelast q2) (last q2 []) j) q c (removelast q2) (last q2 []))
                | Some (Dir _ _), Leaf _ => (Err EISDIR, s)
                | Some (Leaf _), Dir _ _ => (Err ENOTDIR, s)
                | Some (Dir _ l), Dir _ _ =>
                    if same_loc q q2 then (Val tt, s)
                    else if below q q2 then (Err EINVAL, s)
                    else if is_nil l
                    then (Val tt, move_entry (set_root s (delete_at (removelast q2) (last q2 []) (f_root s)))
                                    q c (removelast q2) (last q2 []))
                    else (Err ENOTEMPTY, s)
                end
            end
      end
  end.

(** New size of a file: cut, or extended with zero bytes. *)
Definition resized (d : str) (n : nat) : str := firstn n d ++ repeat zero (n - length d).

Definition resize_obj (s : fs) (i : N) (len : Z) : res unit * fs :=
  match f_body s i with
  | BReg d => if (len <? 0)%Z then (Err EINVAL, s) else (Val tt, set_body s i (BReg (resized d (Z.to_nat len))))
  | _ => (Err EINVAL, s)
  end.

(** truncate(2): src/fs_ops.cpp:1372 *)
Definition sys_truncate (k : choices) (s : fs) (t : str) (len : Z) : res unit * fs :=
  match node_at s (find_at k s true t) with
  | Err e => (Err e, s)
  | Val (NDir _) => (Err EISDIR, s)
  | Val (NLeaf i) => resize_obj s i len
  end.

(** fchmodat(2): src/fs_ops.cpp:1202. Linux cannot change the mode of a symlink. *)
Definition sys_fchmodat (k : choices) (s : fs) (t : str) (mode : N) (nofollow : bool) : res unit * fs :=
  match node_at s (find_at k s (negb nofollow) t) with
  | Err e => (Err e, s)
  | Val x =>
      let i := match x with NLeaf i => i | NDir i => i end in
      let is_link := match x with NLeaf i => match f_body s i with BLink _ => true | _ => false end | NDir _ => false end in
      if is_link then (Err ENOTSUP, s)
      else (Val tt, set_meta s i (with_perm (f_meta s i) (mode_bits mode)))
  end.

(** utimensat(2) with UTIME_OMIT for the access time: src/posix/time.cpp:85 *)
Definition sys_utimensat (k : choices) (s : fs) (t : str) (ts : timespec) : res unit * fs :=
  match node_at s (find_at k s true t) with
  | Err e => (Err e, s)
  | Val x =>
      let i := match x with NLeaf i => i | NDir i => i end in
      if (tv_nsec ts <? 0)%Z || (999999999 <? tv_nsec ts)%Z then (Err EINVAL, s)
      else (Val tt, set_meta s i (with_mtime (f_meta s i) ts))
  end.

(** chdir(2): src/fs_ops.cpp:841 *)
Definition sys_chdir (k : choices) (s : fs) (t : str) : res unit * fs :=
  match find_at k s true t with
  | Missing _ _ => (Err ENOENT, s)
  | Fail e => (Err e, s)
  | Found _ q =>
      match look (f_root s) q with
      | Some (NDir _) => (Val tt, set_cwd s q)
      | Some (NLeaf _) => (Err ENOTDIR, s)
      | None => (Err ENOENT, s)
      end
  end.

(** getcwd(3): src/fs_ops.cpp:826 *)
Definition sys_getcwd (s : fs) (size : Z) : res str :=
  match look (f_root s) (f_cwd s) with
  | Some (NDir _) =>
      if (size <=? Z.of_nat (length (place_text (f_cwd s))))%Z then Err (EOther 34) else Val (place_text (f_cwd s))
  | _ => Err ENOENT
  end.

(** realpath(3): src/fs_ops.cpp:90 *)
Definition sys_realpath (k : choices) (s : fs) (t : str) : res str :=
  match find_at k s true t with
  | Found _ q => match look (f_root s) q with Some _ => Val (place_text q) | None => Err ENOENT end
  | Missing _ _ => Err ENOENT
  | Fail e => Err e
  end.

Definition new_fd (s : fs) (i : N) : res N * fs :=
  (Val (f_handle s), new_handle (set_fds s ((f_handle s, (i, O)) :: f_fds s))).

(** open(2): src/fs_portability.h:276-284, from src/fs_ops.cpp:493, 553-556 *)
Definition sys_open (k : choices) (s : fs) (t : str) (fl : oflags) (mode : N) : res N * fs :=
  match find_at k s true t with
  | Fail e => (Err e, s)
  | Found _ q =>
      match look (f_root s) q, fl with
      | None, _ => (Err ENOENT, s)
      | Some (NDir i), O_READ => new_fd s i
      | Some (NDir _), _ => (Err EISDIR, s)
      | Some (NLeaf i), _ => new_fd s i
      end
  | Missing p n =>
      match fl with
      | O_WRITE_CREAT =>
          new_fd (set_body (make k s p n (Leaf (f_next s)) (mode_bits mode) 1) (f_next s) (BReg [])) (f_next s)
      | _ => (Err ENOENT, s)
      end
  end.

(** How many of [n] bytes the system moves: at least one, at most the chosen number. *)
Definition moved (choice n : nat) : nat := Nat.min n (Nat.max 1 choice).

(** Bytes [d] written at offset [o]. *)
Definition spliced (old : str) (o : nat) (d : str) : str :=
  firstn o (old ++ repeat zero (o - length old)) ++ d ++ skipn (o + length d) old.

(** read(2): src/fs_ops.cpp:378 *)
Definition sys_read (k : choices) (s : fs) (fd : N) (n : Z) : res str * fs :=
  match nassoc fd (f_fds s) with
  | None => (Err EBADF, s)
  | Some (i, o) =>
      match f_body s i with
      | BReg d =>
          let avail := skipn o d in
          let m := moved (k_read k (f_clock s)) (Nat.min (Z.to_nat n) (length avail)) in
          (Val (firstn m avail), tick (set_fds s (nupdate fd (i, (o + m)%nat) (f_fds s))))
      | _ => (Err EINVAL, s)
      end
  end.

(** write(2): src/fs_ops.cpp:384 *)
Definition sys_write (k : choices) (s : fs) (fd : N) (data : str) : res Z * fs :=
  match nassoc fd (f_fds s) with
  | None => (Err EBADF, s)
  | Some (i, o) =>
      match f_body s i with
      | BReg d =>
          let m := moved (k_write k (f_clock s)) (length data) in
          (Val (Z.of_nat m),
           tick (set_fds (set_body s i (BReg (spliced d o (firstn m data)))) (nupdate fd (i, (o + m)%nat) (f_fds s))))
      | _ => (Err EINVAL, s)
      end
  end.

(** sendfile(2): src/fs_ops.cpp:333 *)
Definition sys_sendfile (k : choices) (s : fs) (out inp : N) (count : Z) : res Z * fs :=
  match nassoc inp (f_fds s), nassoc out (f_fds s) with
  | Some (i, o), Some (j, o2) =>
      match f_body s i, f_body s j with
      | BReg d, BReg d2 =>
          let avail := skipn o d in
          let m := moved (k_send k (f_clock s)) (Nat.min (Z.to_nat count) (length avail)) in
          (Val (Z.of_nat m),
           tick (set_fds (set_body s j (BReg (spliced d2 o2 (firstn m avail))))
                   (nupdate out (j, (o2 + m)%nat) (nupdate inp (i, (o + m)%nat) (f_fds s)))))
      | _, _ => (Err EINVAL, s)
      end
  | _, _ => (Err EBADF, s)
  end.

(** opendir(3): src/fs_dir_iterator.cpp:773. The snapshot has the entries . and .. first. *)
Definition listing (k : choices) (s : fs) (l : list (str * tree)) : list (str * dtype) :=
  map (fun e => (fst e, dtype_of k s (snd e))) l.
Definition dot_entries (k : choices) : list (str * dtype) :=
  let d := if k_dtype k then DT_DIR else DT_UNKNOWN in [(lit ".", d); (lit "..", d)].

Definition sys_opendir (k : choices) (s : fs) (t : str) : res N * fs :=
  match find_at k s true t with
  | Missing _ _ => (Err ENOENT, s)
  | Fail e => (Err e, s)
  | Found _ q =>
      match get (f_root s) q with
      | None => (Err ENOENT, s)
      | Some (Leaf _) => (Err ENOTDIR, s)
      | Some (Dir _ l) =>
          (Val (f_handle s), new_handle (set_dirs s ((f_handle s, dot_entries k ++ listing k s l) :: f_dirs s)))
      end
  end.

(** readdir(3): src/fs_dir_iterator.cpp:577 *)
Definition sys_readdir (s : fs) (d : N) : res (option (str * dtype)) * fs :=
  match nassoc d (f_dirs s) with
  | None => (Err EBADF, s)
  | Some [] => (Val None, s)
  | Some (e :: r) => (Val (Some e), set_dirs s (nupdate d r (f_dirs s)))
  end.

Definition with_fd {A} (s : fs) (fd : N) (f : N -> res A * fs) : res A * fs :=
  match nassoc fd (f_fds s) with Some (i, _) => f i | None => (Err EBADF, s) end.

Definition fsk (k : choices) : kernel fs := fun c s =>
  match c as c return answer c * fs with
  | c_stat t => (sys_stat k s true t, s)
  | c_lstat t => (sys_stat k s false t, s)
  | c_open t fl mode => sys_open k s t fl mode
  | c_close fd => (tt, set_fds s (ndelete fd (f_fds s)))
  | c_mkdir t mode => sys_mkdir k s t mode
  | c_symlink x t => sys_symlink k s x t
  | c_link a b => sys_link k s a b
  | c_readlink t n => (sys_readlink k s t n, s)
  | c_remove t => sys_remove k s t
  | c_rename a b => sys_rename k s a b
  | c_truncate t n => sys_truncate k s t n
  | c_ftruncate fd n => with_fd s fd (fun i => resize_obj s i n)
  | c_fchmod fd m => with_fd s fd (fun i => (Val tt, set_meta s i (with_perm (f_meta s i) (mode_bits m))))
  | c_fchmodat t m nf => sys_fchmodat k s t m nf
  | c_utimensat t ts => sys_utimensat k s t ts
  | c_statvfs t => (match node_at s (find_at k s true t) with Val _ => Val (k_vfs k) | Err e => Err e end, s)
  | c_chdir t => sys_chdir k s t
  | c_getcwd n => (sys_getcwd s n, s)
  | c_pathconf => (k_path_max k, s)
  | c_realpath t => (sys_realpath k s t, s)
  | c_getenv x => (f_env s x, s)
  | c_sendfile a b n => sys_sendfile k s a b n
  | c_read fd n => sys_read k s fd n
  | c_write fd d => sys_write k s fd d
  | c_opendir t => sys_opendir k s t
  | c_readdir d => sys_readdir s d
  | c_closedir d => (tt, set_dirs s (ndelete d (f_dirs s)))
  end.

(** * Well-formed states *)

(** A name a directory entry can have. *)
Definition good_name (n : str) : bool := plain n && forallb (fun c => negb (is_slash c)) n.

(** Every directory has distinct, possible names. *)
Fixpoint wf_tree (t : tree) : Prop :=
  match t with
  | Leaf _ => True
  | Dir _ l =>
      NoDup (map fst l) /\ Forall (fun e => good_name (fst e) = true) l /\
      (fix all (l : list (str * tree)) : Prop :=
         match l with [] => True | e :: r => wf_tree (snd e) /\ all r end) l
  end.

(** Object numbers in a tree. *)
Fixpoint inodes (t : tree) : list N :=
  match t with
  | Leaf i => [i]
  | Dir i l => i :: flat_map (fun e => inodes (snd e)) l
  end.

Record wf (s : fs) : Prop := Wf {
  wf_root : wf_tree (f_root s);
  wf_root_dir : exists i l, f_root s = Dir i l;
  wf_fresh : forall i, In i (inodes (f_root s)) -> (i < f_next s)%N }.
