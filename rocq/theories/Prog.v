(** Programs over system calls. An operation of the library that talks to the system is modelled as
    a tree of system calls: [Sys c k] makes the call [c] and continues with [k] applied
    to the kernel's answer. What the kernel answers is left open here; theorems either
    quantify over every kernel or use the file system of FS.v.

    No code of the repository is modelled in this file except where cited: it fixes
    the interface between the library and the system. *)
From Coq Require Import Ascii String Bool Arith NArith ZArith List.
From Verif Require Import Str PathModel FlagsModel TimeModel.
Import ListNotations.

(** Values of errno; std::generic_category makes std::errc and errno the same numbers
    (src/fs_error.h:34-43). ENOSYS is errc::function_not_supported, ENOTSUP
    errc::not_supported, EOVERFLOW errc::value_too_large, EBADF errc::bad_file_descriptor. [EOther]
    stands for every other value. *)
Inductive errno :=
| ENOENT | ENOTDIR | EEXIST | EISDIR | ENOTEMPTY | EINVAL | ELOOP | EACCES | EPERM
| EBADF | ENOSYS | ENOTSUP | EOVERFLOW | EBUSY | ENAMETOOLONG | ENOMEM | EOther (n : positive).

(** Comparison of error values, e.g. src/posix/stat.cpp:26. *)
Definition errno_eq_dec : forall a b : errno, {a = b} + {a <> b}.
Proof. decide equality. apply BinPos.Pos.eq_dec. Defined.
(** Comparison of error values, e.g. src/posix/stat.cpp:26. *)
Definition errno_eqb (a b : errno) : bool := if errno_eq_dec a b then true else false.

(** std::error_code: [None] is the cleared code. *)
(** The codes of src/fs_error.h:34-43, 86-147. *)
Definition ecode := option errno.
(** The codes of src/fs_error.h:34-43, 86-147. *)
Definition failed (e : ecode) : bool := match e with Some _ => true | None => false end.

(** Answer of a call that fails with errno set, or succeeds with a value. *)
(** The answers tested before src/fs_error.h:34-43 capture_errno. *)
Inductive res (A : Type) := Err (e : errno) | Val (a : A).
Arguments Err {A}. Arguments Val {A}.

(** struct stat, the members the library reads. *)
(** src/fs_portability.h:183-203 *)
Record stat_t := Stat {
  st_dev : N; st_ino : N; st_mode : N; st_nlink : Z; st_size : Z;
  st_mtim : timespec; st_atim : timespec }.

(** StatT st = {}: src/fs_ops.cpp:221, 232, 894-895. stat(2) leaves the buffer alone when it fails. *)
Definition stat_zero : stat_t := Stat 0 0 0 0 0 (TimeSpec 0 0) (TimeSpec 0 0).

(** struct statvfs, the members the library reads. *)
(** src/fs_ops.cpp:1384-1432 *)
Record statvfs_t := StatVfs { f_frsize : Z; f_blocks : Z; f_bfree : Z; f_bavail : Z }.

(** d_type of struct dirent; [DT_OTHER] stands for values outside the list. *)
(** src/fs_dir_iterator.cpp:546-572 *)
Inductive dtype := DT_BLK | DT_CHR | DT_DIR | DT_FIFO | DT_LNK | DT_REG | DT_SOCK | DT_UNKNOWN | DT_OTHER.

(** The open(2) flags used: O_RDONLY|O_NONBLOCK, O_WRONLY, O_WRONLY|O_CREAT
    (src/fs_ops.cpp:493, 553-556). *)
Inductive oflags := O_READ | O_WRITE | O_WRITE_CREAT.

(** System calls and library calls of libc, with the arguments passed. A path argument is the text
    p.c_str() points to; the programs pass the whole native text. What the system sees of
    a text with an embedded NUL is modelled in NulModel.v, between the programs and the system. *)
(** The functions of src/fs_portability.h:55-97 and the direct calls in src/fs_ops.cpp and src/fs_dir_iterator.cpp:773, 818. *)
Inductive call :=
| c_stat (p : str) | c_lstat (p : str)
| c_open (p : str) (fl : oflags) (mode : N) | c_close (fd : N)
| c_mkdir (p : str) (mode : N)
| c_symlink (target link : str) | c_link (old new : str) | c_readlink (p : str) (size : Z)
| c_remove (p : str) | c_rename (old new : str)
| c_truncate (p : str) (len : Z) | c_ftruncate (fd : N) (len : Z)
| c_fchmod (fd : N) (mode : N) | c_fchmodat (p : str) (mode : N) (nofollow : bool)
| c_utimensat (p : str) (mtime : timespec)      (* access time UTIME_OMIT, flags 0 *)
| c_statvfs (p : str)
| c_chdir (p : str) | c_getcwd (size : Z) | c_pathconf | c_realpath (p : str)
| c_getenv (name : str)
| c_sendfile (out_fd in_fd : N) (count : Z)
| c_read (fd : N) (n : Z) | c_write (fd : N) (data : str)
| c_opendir (p : str) | c_readdir (d : N) | c_closedir (d : N).

(** The functions of src/fs_portability.h:55-97 and the direct calls in src/fs_ops.cpp and src/fs_dir_iterator.cpp:773, 818. *)
Definition answer (c : call) : Type :=
  match c with
  | c_stat _ | c_lstat _ => res stat_t
  | c_open _ _ _ | c_opendir _ => res N
  | c_close _ | c_closedir _ => unit              (* result ignored by the library *)
  | c_mkdir _ _ | c_symlink _ _ | c_link _ _ | c_remove _ | c_rename _ _
  | c_truncate _ _ | c_ftruncate _ _ | c_fchmod _ _ | c_fchmodat _ _ _
  | c_utimensat _ _ | c_chdir _ => res unit
  | c_readlink _ _ | c_getcwd _ | c_realpath _ => res str
  | c_statvfs _ => res statvfs_t
  | c_pathconf => Z
  | c_getenv _ => option str
  | c_sendfile _ _ _ | c_write _ _ => res Z       (* bytes moved *)
  | c_read _ _ => res str                         (* the bytes read; none at end of file *)
  | c_readdir _ => res (option (str * dtype))     (* None at the end of the directory *)
  end.

(** How a call of the library can end other than by returning: a filesystem_error with its
    code and paths; an exception of class path; a failed ASAP_ASSERT (active when
    assertions are compiled in); undefined behaviour; or the model's step bound. *)
(** src/fs_error.h:103-147; src/fs_path.cpp:674; ASAP_ASSERT e.g. src/fs_error.h:41. *)
Inductive failure :=
| FThrow (code : ecode) (paths : list path)
| FPath (e : exn)
| FAssert
| FUB
| FFuel.

(** Not in the repository: the meaning of a function that makes system calls (src/fs_ops.cpp:1-1655). *)
Inductive prog (A : Type) : Type :=
| Ret (a : A)
| Stop (f : failure)
| Sys (c : call) (k : answer c -> prog A).
Arguments Ret {A}. Arguments Stop {A}. Arguments Sys {A}.

(** Not in the repository: the meaning of a function that makes system calls (src/fs_ops.cpp:1-1655). *)
Fixpoint pbind {A B} (p : prog A) (f : A -> prog B) : prog B :=
  match p with
  | Ret a => f a
  | Stop x => Stop x
  | Sys c k => Sys c (fun r => pbind (k r) f)
  end.

Notation "'let!' x := p 'in' q" := (pbind p (fun x => q))
  (at level 200, x pattern, p at level 100, q at level 200, right associativity).
Notation "'sys' x := c 'in' q" := (Sys c (fun x => q))
  (at level 200, x pattern, c at level 100, q at level 200, right associativity).

(** Results of class path inside an operation. *)
(** Calls of class path from src/fs_ops.cpp and src/fs_dir_iterator.cpp, e.g. fs_ops.cpp:55. *)
Definition lift {A} (x : out A) : prog A :=
  match x with
  | Ok a => Ret a
  | Throw e => Stop (FPath e)
  | AssertFail => Stop FAssert
  | UB => Stop FUB
  end.

(** ASAP_ASSERT (asap/common, not in the repository): checked when [dbg], nothing otherwise. *)
(** Used at src/fs_ops.cpp:824, 1163, src/fs_dir_iterator.cpp:209, 278, 871. *)
Definition asap_assert (dbg cond : bool) : prog unit :=
  if dbg && negb cond then Stop FAssert else Ret tt.

(** Does the failure unwind the stack, running destructors? *)
(** Destructors of FileDescriptor (src/fs_portability.h) and DirectoryStream (src/fs_dir_iterator.cpp:785-789). *)
Definition unwinds (f : failure) : bool :=
  match f with FThrow _ _ | FPath _ => true | _ => false end.

(** [p] in a scope whose object has the destructor [c]. *)
(** Destructors of FileDescriptor (src/fs_portability.h) and DirectoryStream (src/fs_dir_iterator.cpp:785-789). *)
Fixpoint scoped {A} (p : prog A) (c : prog unit) : prog A :=
  match p with
  | Ret a => let! _ := c in Ret a
  | Stop f => if unwinds f then (let! _ := c in Stop f) else Stop f
  | Sys q k => Sys q (fun r => scoped (k r) c)
  end.

(** As [scoped], with the destructor run only when [p] throws (the normal exits of the scope are
    written out in the model). *)
(** Destructors of FileDescriptor (src/fs_portability.h) and DirectoryStream (src/fs_dir_iterator.cpp:785-789). *)
Fixpoint unwinding {A} (p : prog A) (c : prog unit) : prog A :=
  match p with
  | Ret a => Ret a
  | Stop f => if unwinds f then (let! _ := c in Stop f) else Stop f
  | Sys q k => Sys q (fun r => unwinding (k r) c)
  end.

(** Execution with a kernel [h] whose state is of type [S]. *)
(** Not in the repository: the meaning of a function that makes system calls (src/fs_ops.cpp:1-1655). *)
Inductive outcome (A S : Type) := Done (a : A) (s : S) | Failed (f : failure) (s : S).
Arguments Done {A S}. Arguments Failed {A S}.

(** Not in the repository: the meaning of a function that makes system calls (src/fs_ops.cpp:1-1655). *)
Definition kernel (S : Type) := forall c : call, S -> answer c * S.

(** Not in the repository: the meaning of a function that makes system calls (src/fs_ops.cpp:1-1655). *)
Fixpoint run {A S} (h : kernel S) (p : prog A) (s : S) : outcome A S :=
  match p with
  | Ret a => Done a s
  | Stop f => Failed f s
  | Sys c k => let '(r, s') := h c s in run h (k r) s'
  end.

(** src/fs_error.h:86-147 ErrorHandler<T>::report, with [v] the value of error_value<T>() (46-84):
    with an error_code the value is returned and the code set, otherwise
    filesystem_error is thrown with the paths of the handler. [has] tells whether the caller
    passed an error_code. The message is not kept (see ErrorModel.v for what()). *)
Definition report {A} (has : bool) (paths : list path) (v : A) (e : ecode) : prog (A * ecode) :=
  if has then Ret (v, e) else Stop (FThrow e paths).
