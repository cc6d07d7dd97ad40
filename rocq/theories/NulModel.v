(** Paths whose text contains a NUL character. A path is handed to the system as the pointer c_str(), so the system sees
    the text up to the first NUL. Prog.v passes the whole text to the kernel; here a kernel is wrapped so that it sees
    what the system sees. *)
From Coq Require Import Ascii String Bool Arith NArith ZArith List.
From Verif Require Import Str PathModel FlagsModel TimeModel Prog.
Import ListNotations.

(** The C string p.c_str() points to: include/filesystem/fs_path.h:198-200, as passed at src/fs_ops.cpp:94, 701, 738, 766, 783, 801,
    842, 1129, 1198, 1225, 1275, 1345, 1374, 1415, src/posix/stat.cpp:63, 72, src/posix/file.cpp:29, 33, src/fs_portability.h:277-284
    and src/fs_dir_iterator.cpp:773. *)
Fixpoint ctext (t : str) : str :=
  match t with [] => [] | c :: r => if Ascii.eqb c "000"%char then [] else c :: ctext r end.

(** The call as the system sees it (the calls of src/fs_portability.h:55-97). *)
Definition ccall (c : call) : call :=
  match c with
  | c_stat p => c_stat (ctext p)
  | c_lstat p => c_lstat (ctext p)
  | c_open p fl mode => c_open (ctext p) fl mode
  | c_close fd => c_close fd
  | c_mkdir p mode => c_mkdir (ctext p) mode
  | c_symlink target link => c_symlink (ctext target) (ctext link)
  | c_link old new => c_link (ctext old) (ctext new)
  | c_readlink p size => c_readlink (ctext p) size
  | c_remove p => c_remove (ctext p)
  | c_rename old new => c_rename (ctext old) (ctext new)
  | c_truncate p len => c_truncate (ctext p) len
  | c_ftruncate fd len => c_ftruncate fd len
  | c_fchmod fd mode => c_fchmod fd mode
  | c_fchmodat p mode nofollow => c_fchmodat (ctext p) mode nofollow
  | c_utimensat p mtime => c_utimensat (ctext p) mtime
  | c_statvfs p => c_statvfs (ctext p)
  | c_chdir p => c_chdir (ctext p)
  | c_getcwd size => c_getcwd size
  | c_pathconf => c_pathconf
  | c_realpath p => c_realpath (ctext p)
  | c_getenv name => c_getenv name
  | c_sendfile out_fd in_fd count => c_sendfile out_fd in_fd count
  | c_read fd n => c_read fd n
  | c_write fd data => c_write fd data
  | c_opendir p => c_opendir (ctext p)
  | c_readdir d => c_readdir d
  | c_closedir d => c_closedir d
  end.

(** The answer to the call seen is the answer to the call made (the same types of src/fs_portability.h:55-97). *)
Definition canswer (c : call) : answer (ccall c) -> answer c :=
  match c with
  | c_stat _ => fun r => r
  | c_lstat _ => fun r => r
  | c_open _ _ _ => fun r => r
  | c_close _ => fun r => r
  | c_mkdir _ _ => fun r => r
  | c_symlink _ _ => fun r => r
  | c_link _ _ => fun r => r
  | c_readlink _ _ => fun r => r
  | c_remove _ => fun r => r
  | c_rename _ _ => fun r => r
  | c_truncate _ _ => fun r => r
  | c_ftruncate _ _ => fun r => r
  | c_fchmod _ _ => fun r => r
  | c_fchmodat _ _ _ => fun r => r
  | c_utimensat _ _ => fun r => r
  | c_statvfs _ => fun r => r
  | c_chdir _ => fun r => r
  | c_getcwd _ => fun r => r
  | c_pathconf => fun r => r
  | c_realpath _ => fun r => r
  | c_getenv _ => fun r => r
  | c_sendfile _ _ _ => fun r => r
  | c_read _ _ => fun r => r
  | c_write _ _ => fun r => r
  | c_opendir _ => fun r => r
  | c_readdir _ => fun r => r
  | c_closedir _ => fun r => r
  end.

(** The system behind the C interface (the calls of src/fs_portability.h:55-97). *)
Definition ckernel {S : Type} (h : kernel S) : kernel S :=
  fun c s => let '(r, s') := h (ccall c) s in (canswer c r, s').
