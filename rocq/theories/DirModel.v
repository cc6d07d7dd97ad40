(** Model of the status functions (src/posix/stat.cpp, include/filesystem/fs_ops.h:234-375),
    of class directory_entry with its cache (include/filesystem/fs_dir.h, src/fs_dir_iterator.cpp)
    and of the directory iterators (src/fs_dir_iterator.cpp), POSIX.

    Every operation is a program over system calls. The argument [has] tells whether the caller
    passed an error_code; the code left in it is part of the result ([None] when [has] is
    false). Loops over readdir carry a bound [n]; a program that exceeds it stops with
    [FFuel]. *)
From Coq Require Import Ascii String Bool Arith NArith ZArith List.
From Verif Require Import Str PathModel FlagsModel TimeModel Prog.
Import ListNotations.

(** What is fixed when the library is compiled: copy elision, assertions, the meaning of
    signed overflow, ASAP_FS_USE_SENDFILE (src/fs_portability.h:55-60). *)
Record config := Config { cf_el : elision; cf_dbg : bool; cf_mode : signed_mode; cf_sendfile : bool }.

(** * Status *)

(** S_IFMT and the S_IS* macros of sys/stat.h. *)
(** sys/stat.h; used at src/posix/stat.cpp:38-50. *)
Definition s_ifmt : N := 61440.
(** sys/stat.h; used at src/posix/stat.cpp:38-50. *)
Definition s_ifsock : N := 49152.
(** sys/stat.h; used at src/posix/stat.cpp:38-50. *)
Definition s_iflnk : N := 40960.
(** sys/stat.h; used at src/posix/stat.cpp:38-50. *)
Definition s_ifreg : N := 32768.
(** sys/stat.h; used at src/posix/stat.cpp:38-50. *)
Definition s_ifblk : N := 24576.
(** sys/stat.h; used at src/posix/stat.cpp:38-50. *)
Definition s_ifdir : N := 16384.
(** sys/stat.h; used at src/posix/stat.cpp:38-50. *)
Definition s_ifchr : N := 8192.
(** sys/stat.h; used at src/posix/stat.cpp:38-50. *)
Definition s_ififo : N := 4096.
(** sys/stat.h; used at src/posix/stat.cpp:38-50. *)
Definition is_fmt (mode fmt : N) : bool := N.eqb (N.land mode s_ifmt) fmt.

(** src/posix/stat.cpp:35-53 *)
Definition type_of_mode (mode : N) : file_type :=
  if is_fmt mode s_iflnk then ft_symlink
  else if is_fmt mode s_ifreg then ft_regular
  else if is_fmt mode s_ifdir then ft_directory
  else if is_fmt mode s_ifblk then ft_block
  else if is_fmt mode s_ifchr then ft_character
  else if is_fmt mode s_ififo then ft_fifo
  else if is_fmt mode s_ifsock then ft_socket
  else ft_unknown.

(** src/posix/stat.cpp:20-58 CreateFileStatus: the status and the content of *ec. *)
Definition CreateFileStatus (has : bool) (p : path) (r : res stat_t) : prog (file_status * ecode) :=
  match r with
  | Err e =>
      if errno_eqb e ENOENT || errno_eqb e ENOTDIR
      then Ret (status_of_type ft_not_found, if has then Some e else None)
      else report has [p] (status_of_type ft_none) (Some e)
  | Val st => Ret (FStatus (type_of_mode (st_mode st)) (op_and width_perms (st_mode st) perms_mask), None)
  end.

(** The buffer after a stat call: untouched when the call fails. *)
(** src/posix/stat.cpp:60-76 *)
Definition stat_buf (r : res stat_t) : stat_t := match r with Val st => st | Err _ => stat_zero end.

(** src/posix/stat.cpp:60-67 GetFileStatus. An uninitialised buffer is modelled by zeros; the
    library reads it after a failure only where it was zero-initialised. *)
Definition GetFileStatus (has : bool) (p : path) : prog (file_status * stat_t * ecode) :=
  sys r := c_stat (native p) in
  let! se := CreateFileStatus has p r in
  Ret (fst se, stat_buf r, snd se).

(** src/posix/stat.cpp:69-76 GetLinkStatus *)
Definition GetLinkStatus (has : bool) (p : path) : prog (file_status * stat_t * ecode) :=
  sys r := c_lstat (native p) in
  let! se := CreateFileStatus has p r in
  Ret (fst se, stat_buf r, snd se).

(** include/filesystem/fs_ops.h:234-240 *)
Definition status_known (s : file_status) : bool := negb (file_type_eqb (st_type s) ft_none).
(** include/filesystem/fs_ops.h:238-240 *)
Definition st_exists (s : file_status) : bool :=
  status_known s && negb (file_type_eqb (st_type s) ft_not_found).

(** include/filesystem/fs_ops.h:277-279, 289-291, 302-304, 320-322, 329-331, 342-344, 354-356, 366-369:
    the predicates on file_status. *)
Definition has_type (t : file_type) (s : file_status) : bool := file_type_eqb (st_type s) t.
(** include/filesystem/fs_ops.h:277-279 *)
Definition st_is_block_file := has_type ft_block.
(** include/filesystem/fs_ops.h:289-291 *)
Definition st_is_character_file := has_type ft_character.
(** include/filesystem/fs_ops.h:302-304 *)
Definition st_is_directory := has_type ft_directory.
(** include/filesystem/fs_ops.h:320-322 *)
Definition st_is_fifo := has_type ft_fifo.
(** include/filesystem/fs_ops.h:329-331 *)
Definition st_is_regular_file := has_type ft_regular.
(** include/filesystem/fs_ops.h:342-344 *)
Definition st_is_socket := has_type ft_socket.
(** include/filesystem/fs_ops.h:354-356 *)
Definition st_is_symlink := has_type ft_symlink.
(** include/filesystem/fs_ops.h:366-369 *)
Definition st_is_other (s : file_status) : bool :=
  st_exists s && negb (st_is_regular_file s) && negb (st_is_directory s) && negb (st_is_symlink s).

(** src/fs_ops.cpp:1440, 1482-1485 status_impl *)
Definition status_impl (has : bool) (p : path) : prog (file_status * ecode) :=
  let! r := GetFileStatus has p in Ret (fst (fst r), snd r).

(** src/fs_ops.cpp:1488, 1513-1516 symlink_status_impl *)
Definition symlink_status_impl (has : bool) (p : path) : prog (file_status * ecode) :=
  let! r := GetLinkStatus has p in Ret (fst (fst r), snd r).

(** include/filesystem/fs_ops.h:242-250 exists(p) and exists(p, ec): the second clears
    the code when the status is known. *)
Definition exists_ (has : bool) (p : path) : prog (bool * ecode) :=
  let! r := status_impl has p in
  Ret (st_exists (fst r), if has && status_known (fst r) then None else snd r).

(** include/filesystem/fs_ops.h:281-287, 293-300, 306-312, 323-327, 333-340, 346-352, 358-364, 371-375:
    is_x(p) and is_x(p, ec). *)
Definition is_type (t : file_type) (has : bool) (p : path) : prog (bool * ecode) :=
  let! r := status_impl has p in Ret (has_type t (fst r), snd r).
(** include/filesystem/fs_ops.h:281-287 *)
Definition is_block_file := is_type ft_block.
(** include/filesystem/fs_ops.h:293-300 *)
Definition is_character_file := is_type ft_character.
(** include/filesystem/fs_ops.h:306-312 *)
Definition is_directory := is_type ft_directory.
(** include/filesystem/fs_ops.h:323-327 *)
Definition is_fifo := is_type ft_fifo.
(** include/filesystem/fs_ops.h:333-340 *)
Definition is_regular_file := is_type ft_regular.
(** include/filesystem/fs_ops.h:346-352 *)
Definition is_socket := is_type ft_socket.
(** include/filesystem/fs_ops.h:358-364 *)
Definition is_symlink (has : bool) (p : path) : prog (bool * ecode) :=
  let! r := symlink_status_impl has p in Ret (st_is_symlink (fst r), snd r).
(** include/filesystem/fs_ops.h:371-375 *)
Definition is_other (has : bool) (p : path) : prog (bool * ecode) :=
  let! r := status_impl has p in Ret (st_is_other (fst r), snd r).

Section Config.
Variable cf : config.

(** src/posix/time.cpp:64-73 ExtractLastWriteTime *)
Definition ExtractLastWriteTime (has : bool) (p : path) (st : stat_t) : prog (Z * ecode) :=
  let! t := lift (extract_last_write_time (cf_mode cf) (st_mtim st)) in
  match t with
  | Some v => Ret (v, None)
  | None => report has [p] i64_min (Some EOVERFLOW)
  end.

(** * directory_entry *)

(** include/filesystem/fs_dir.h:248 *)
Inductive cache_t := CEMPTY | CBASIC | CEXTRA | CFULL.
(** Comparison of CacheType_, fs_dir.h:248. *)
Definition cache_eqb (a b : cache_t) : bool :=
  match a, b with
  | CEMPTY, CEMPTY | CBASIC, CBASIC | CEXTRA, CEXTRA | CFULL, CFULL => true
  | _, _ => false
  end.

(** include/filesystem/fs_dir.h:250-285 CachedData_ *)
Record cached := Cached {
  cd_cache : cache_t;
  cd_symlink : bool; cd_type_resolved : bool; cd_extra_resolved : bool; cd_perms_resolved : bool;
  cd_type : file_type;
  cd_nlink : Z; cd_size : Z; cd_write_time : Z;
  cd_symlink_perms : N; cd_perms : N }.

(** fs_dir.h:276-284 Reset *)
Definition cache_reset : cached :=
  Cached CEMPTY false false false false ft_none u64_max u64_max i64_min perms_unknown perms_unknown.

(** fs_dir.h:360-361, the members of directory_entry *)
Record dir_entry := Entry { de_path : path; de_data : cached }.

(** fs_dir.h:42 default constructor *)
Definition entry_default : dir_entry := Entry path_default cache_reset.

(** The entry with another cached_data_ (fs_dir.h:250-285). *)
Definition with_data (e : dir_entry) (d : cached) : dir_entry := Entry (de_path e) d.

(** Assignments to single members of the cache. *)
(** The assignments of cache_type, fs_dir_iterator.cpp:139, 215, 284, 806. *)
Definition set_cache (d : cached) (c : cache_t) : cached :=
  Cached c (cd_symlink d) (cd_type_resolved d) (cd_extra_resolved d) (cd_perms_resolved d) (cd_type d)
    (cd_nlink d) (cd_size d) (cd_write_time d) (cd_symlink_perms d) (cd_perms d).
(** fs_dir_iterator.cpp:128 *)
Definition set_size (d : cached) (z : Z) : cached :=
  Cached (cd_cache d) (cd_symlink d) (cd_type_resolved d) (cd_extra_resolved d) (cd_perms_resolved d) (cd_type d)
    (cd_nlink d) z (cd_write_time d) (cd_symlink_perms d) (cd_perms d).
(** fs_dir_iterator.cpp:136-137 *)
Definition set_write_time (d : cached) (z : Z) : cached :=
  Cached (cd_cache d) (cd_symlink d) (cd_type_resolved d) (cd_extra_resolved d) (cd_perms_resolved d) (cd_type d)
    (cd_nlink d) (cd_size d) z (cd_symlink_perms d) (cd_perms d).

(** static_cast<uintmax_t> of a signed 64 bit value. *)
Definition to_u64 (z : Z) : Z := (z mod 2 ^ 64)%Z.

(** src/fs_dir_iterator.cpp:23-25, 103-141 UpdateBasicFileInformation: the content of *ec and
    the entry afterwards. Here and below the entry is not updated when the
    function leaves by an exception. *)
Definition UpdateBasicFileInformation (has follow : bool) (e : dir_entry) : prog (ecode * dir_entry) :=
  let! r := GetFileStatus true (de_path e) in
  let st := fst (fst r) in let full := snd (fst r) in let m_ec := snd r in
  let d := de_data e in
  if cache_eqb (cd_cache d) CEMPTY && (failed m_ec || negb (status_known st)) then
    let! x := report has [de_path e] tt m_ec in Ret (snd x, e)
  else
    let d1 :=
      if cache_eqb (cd_cache d) CEMPTY then
        Cached (cd_cache d) (st_is_symlink st) (cd_type_resolved d) (cd_extra_resolved d) (cd_perms_resolved d)
          (st_type st)
          (if st_is_symlink st then to_u64 (st_nlink full) else cd_nlink d)
          (cd_size d) (cd_write_time d)
          (if st_is_symlink st then st_perms st else cd_symlink_perms d) (cd_perms d)
      else d in
    let d2 :=
      if cd_symlink d1 && follow then
        Cached (cd_cache d1) (cd_symlink d1) true true true (st_type st)
          (cd_nlink d1) (cd_size d1) (cd_write_time d1) (cd_symlink_perms d1) (st_perms st)
      else d1 in
    let d3 := if st_is_regular_file st then set_size d2 (to_u64 (st_size full)) else d2 in
    let! d4 :=
      (if st_exists st then
         let! t := ExtractLastWriteTime true (de_path e) full in Ret (set_write_time d3 (fst t))
       else Ret d3) in
    Ret (None, with_data e (set_cache d4 CFULL)).

(** src/fs_dir_iterator.cpp:143-145, 208-216 UpdateExtraFileInformation *)
Definition UpdateExtraFileInformation (has follow : bool) (e : dir_entry) : prog (ecode * dir_entry) :=
  let! _ := asap_assert (cf_dbg cf) (cache_eqb (cd_cache (de_data e)) CFULL) in
  let! r :=
    (if cd_symlink (de_data e) && follow && negb (cd_extra_resolved (de_data e))
     then UpdateBasicFileInformation has true e else Ret (None, e)) in
  Ret (fst r, with_data (snd r) (set_cache (de_data (snd r)) CEXTRA)).

(** src/fs_dir_iterator.cpp:218-220, 277-285 UpdatePermissionsInformation *)
Definition UpdatePermissionsInformation (has follow : bool) (e : dir_entry) : prog (ecode * dir_entry) :=
  let! _ := asap_assert (cf_dbg cf) (cache_eqb (cd_cache (de_data e)) CFULL) in
  let! r :=
    (if cd_symlink (de_data e) && follow && negb (cd_perms_resolved (de_data e))
     then UpdateBasicFileInformation has true e else Ret (None, e)) in
  Ret (fst r, with_data (snd r) (set_cache (de_data (snd r)) CFULL)).

(** include/filesystem/fs_dir.h:312-334 IsDoesNotExistError and HandleError: the code left in
    *dest_ec. *)
Definition HandleError (has : bool) (p : path) (c : ecode) (allow_dne : bool) : prog ecode :=
  if has then Ret c
  else match c with
       | Some x =>
           if negb allow_dne || negb (errno_eqb x ENOENT || errno_eqb x ENOTDIR)
           then Stop (FThrow c [p]) else Ret None
       | None => Ret None
       end.

(** src/fs_dir_iterator.cpp:287-308 GetSymLinkFileType *)
Definition GetSymLinkFileType (has : bool) (e : dir_entry) : prog (file_type * ecode * dir_entry) :=
  let! r :=
    (if cache_eqb (cd_cache (de_data e)) CEMPTY then
       let! u := UpdateBasicFileInformation has false e in Ret (has, fst u, snd u)
     else Ret (false, None, e)) in
  let '(leave, ec, e1) := r in
  if leave then Ret (ft_none, ec, e1)
  else if cd_symlink (de_data e1) then Ret (ft_symlink, ec, e1)
  else if negb (st_exists (status_of_type (cd_type (de_data e1)))) then
    let! ec2 := HandleError has (de_path e1) (Some ENOENT) false in
    Ret (cd_type (de_data e1), ec2, e1)
  else Ret (cd_type (de_data e1), ec, e1).

(** src/fs_dir_iterator.cpp:310-337 GetFileType *)
Definition GetFileType (has : bool) (e : dir_entry) : prog (file_type * ecode * dir_entry) :=
  let! r :=
    (match cd_cache (de_data e) with
     | CEMPTY => UpdateBasicFileInformation has true e
     | CBASIC => if negb (cd_type_resolved (de_data e)) then UpdateBasicFileInformation has true e else Ret (None, e)
     | _ => Ret (None, e)
     end) in
  let '(ec, e1) := r in
  if has then Ret (ft_none, ec, e1)
  else if negb (st_exists (status_of_type (cd_type (de_data e1)))) then
    let! ec2 := HandleError has (de_path e1) (Some ENOENT) false in
    Ret (cd_type (de_data e1), ec2, e1)
  else Ret (cd_type (de_data e1), ec, e1).

(** src/fs_dir_iterator.cpp:339-379 GetSize *)
Definition GetSize (has : bool) (e : dir_entry) : prog (Z * ecode * dir_entry) :=
  match cd_cache (de_data e) with
  | CEMPTY =>
      let! u := UpdateBasicFileInformation has true e in
      let e1 := snd u in
      let st := status_of_type (cd_type (de_data e1)) in
      if st_exists st && negb (st_is_regular_file st) then
        let! x := report has [de_path e1] u64_max (Some (if st_is_directory st then EISDIR else ENOTSUP)) in
        Ret (fst x, snd x, e1)
      else
        let! v := UpdateExtraFileInformation has true e1 in
        Ret (cd_size (de_data (snd v)), fst v, snd v)
  | CBASIC =>
      let! v := UpdateExtraFileInformation has true e in
      Ret (cd_size (de_data (snd v)), fst v, snd v)
  | CEXTRA =>
      if negb (cd_extra_resolved (de_data e)) then
        let! v := UpdateExtraFileInformation has true e in
        Ret (cd_size (de_data (snd v)), fst v, snd v)
      else Ret (cd_size (de_data e), None, e)
  | CFULL => Ret (cd_size (de_data e), None, e)
  end.

(** src/fs_dir_iterator.cpp:381-405 GetHardLinkCount *)
Definition GetHardLinkCount (has : bool) (e : dir_entry) : prog (Z * ecode * dir_entry) :=
  match cd_cache (de_data e) with
  | CEMPTY =>
      let! u := UpdateBasicFileInformation has false e in
      let! v := UpdateExtraFileInformation has false (snd u) in
      Ret (cd_nlink (de_data (snd v)), fst v, snd v)
  | CBASIC =>
      let! v := UpdateExtraFileInformation has false e in
      Ret (cd_nlink (de_data (snd v)), fst v, snd v)
  | _ => Ret (cd_nlink (de_data e), None, e)
  end.

(** src/fs_dir_iterator.cpp:407-442 GetLastWriteTime *)
Definition GetLastWriteTime (has : bool) (e : dir_entry) : prog (Z * ecode * dir_entry) :=
  let! v :=
    (match cd_cache (de_data e) with
     | CEMPTY =>
         let! u := UpdateBasicFileInformation has true e in
         UpdateExtraFileInformation has true (snd u)
     | CBASIC => UpdateExtraFileInformation has true e
     | CEXTRA => if negb (cd_extra_resolved (de_data e)) then UpdateExtraFileInformation has true e else Ret (None, e)
     | CFULL => Ret (None, e)
     end) in
  let '(ec, e1) := v in
  if st_exists (status_of_type (cd_type (de_data e1))) && Z.eqb (cd_write_time (de_data e1)) i64_min then
    let! x := report has [de_path e1] i64_min (Some EOVERFLOW) in Ret (fst x, snd x, e1)
  else Ret (cd_write_time (de_data e1), ec, e1).

(** src/fs_dir_iterator.cpp:444-483 GetStatus *)
Definition GetStatus (has : bool) (e : dir_entry) : prog (file_status * ecode * dir_entry) :=
  let! v :=
    (match cd_cache (de_data e) with
     | CEMPTY =>
         let! u := UpdateBasicFileInformation has true e in
         let! u2 := UpdateExtraFileInformation has false (snd u) in
         UpdatePermissionsInformation has true (snd u2)
     | CBASIC =>
         let! u2 := UpdateExtraFileInformation has false e in
         UpdatePermissionsInformation has true (snd u2)
     | CEXTRA => UpdatePermissionsInformation has true e
     | CFULL => if negb (cd_perms_resolved (de_data e)) then UpdatePermissionsInformation has true e else Ret (None, e)
     end) in
  Ret (FStatus (cd_type (de_data (snd v))) (cd_perms (de_data (snd v))), fst v, snd v).

(** src/fs_dir_iterator.cpp:485-516 GetSymLinkStatus *)
Definition GetSymLinkStatus (has : bool) (e : dir_entry) : prog (file_status * ecode * dir_entry) :=
  let! v :=
    (match cd_cache (de_data e) with
     | CEMPTY =>
         let! u := UpdateBasicFileInformation has false e in
         let! u2 := UpdateExtraFileInformation has false (snd u) in
         UpdatePermissionsInformation has false (snd u2)
     | CBASIC =>
         let! u2 := UpdateExtraFileInformation has false e in
         UpdatePermissionsInformation has false (snd u2)
     | CEXTRA => UpdatePermissionsInformation has false e
     | CFULL => Ret (None, e)
     end) in
  Ret (FStatus (cd_type (de_data (snd v))) (cd_symlink_perms (de_data (snd v))), fst v, snd v).

(** src/fs_dir_iterator.cpp:519-524 DoRefresh_impl and fs_dir.h:336-339 DoRefresh *)
Definition DoRefresh (has : bool) (e : dir_entry) : prog (ecode * dir_entry) :=
  let! u := UpdateBasicFileInformation true true (with_data e cache_reset) in
  let! ec := HandleError has (de_path e) (fst u) true in
  Ret (ec, snd u).

(** fs_dir.h:46-49 directory_entry(p), which refreshes with its own error_code and drops it;
    51 directory_entry(p, ec). The path is moved into the member. *)
Definition entry_of (p : path) : prog dir_entry :=
  let! r := DoRefresh true (Entry (fst (move_ctor Posix p)) cache_reset) in Ret (snd r).
(** fs_dir.h:47 *)
Definition entry_of_ec (p : path) : prog (ecode * dir_entry) :=
  DoRefresh true (Entry (fst (move_ctor Posix p)) cache_reset).

(** fs_dir.h:54-62 assign, 64-72 replace_filename, 74-82 refresh *)
Definition entry_assign (has : bool) (e : dir_entry) (p : path) : prog (ecode * dir_entry) :=
  DoRefresh has (Entry p (de_data e)).
(** fs_dir.h:64-72 *)
Definition entry_replace_filename (has : bool) (e : dir_entry) (p : path) : prog (ecode * dir_entry) :=
  let! q := lift (replace_filename Posix (cf_el cf) (de_path e) p) in
  DoRefresh has (Entry q (de_data e)).
(** fs_dir.h:74-82 *)
Definition entry_refresh := DoRefresh.

(** fs_dir.h:91-169: exists and the is_* queries. *)
Definition entry_exists (has : bool) (e : dir_entry) : prog (bool * ecode * dir_entry) :=
  let! r := GetFileType has e in
  let '(t, ec, e1) := r in Ret (st_exists (status_of_type t), ec, e1).
(** fs_dir.h:98-132, 144-158: one definition for the queries of one type each. *)
Definition entry_is (t : file_type) (has : bool) (e : dir_entry) : prog (bool * ecode * dir_entry) :=
  let! r := GetFileType has e in
  let '(t', ec, e1) := r in Ret (file_type_eqb t' t, ec, e1).
(** fs_dir.h:134-142 *)
Definition entry_is_other (has : bool) (e : dir_entry) : prog (bool * ecode * dir_entry) :=
  let! r := GetFileType has e in
  let '(t, ec, e1) := r in Ret (st_is_other (status_of_type t), ec, e1).
(** fs_dir.h:160-168 *)
Definition entry_is_symlink (has : bool) (e : dir_entry) : prog (bool * ecode * dir_entry) :=
  let! r := GetSymLinkFileType has e in
  let '(t, ec, e1) := r in Ret (file_type_eqb t ft_symlink, ec, e1).

(** * Directory streams *)

(** src/fs_dir_iterator.cpp:547-572 get_file_type; other values are HEDLEY_UNREACHABLE. *)
Definition get_file_type (t : dtype) : prog file_type :=
  match t with
  | DT_BLK => Ret ft_block | DT_CHR => Ret ft_character | DT_DIR => Ret ft_directory
  | DT_FIFO => Ret ft_fifo | DT_LNK => Ret ft_symlink | DT_REG => Ret ft_regular
  | DT_SOCK => Ret ft_socket | DT_UNKNOWN => Ret ft_none | DT_OTHER => Stop FUB
  end.

(** src/fs_dir_iterator.cpp:574-586 posix_readdir *)
Definition posix_readdir (d : N) : prog (str * file_type * ecode) :=
  sys r := c_readdir d in
  match r with
  | Err e => Ret ([], ft_none, Some e)
  | Val None => Ret ([], ft_none, None)
  | Val (Some (name, t)) => let! ft := get_file_type t in Ret (name, ft, None)
  end.

(** src/fs_dir_iterator.cpp:759-830 class DirectoryStream; the handle is [None] for a null stream_. *)
Record dstream := Stream { ds_handle : option N; ds_root : path; ds_entry : dir_entry }.

(** src/fs_dir_iterator.cpp:785 good() *)
Definition good (s : dstream) : bool := match ds_handle s with Some _ => true | None => false end.

(** src/fs_dir_iterator.cpp:785-789 ~DirectoryStream *)
Definition stream_destroy (s : dstream) : prog unit :=
  match ds_handle s with Some d => Sys (c_closedir d) (fun _ => Ret tt) | None => Ret tt end.

(** src/fs_dir_iterator.cpp:797-803: what advance() writes into the entry. Only the type, the cache state
    and, for a symlink, the symlink flag are written; the other members keep their values. *)
Definition iter_data (d : cached) (t : file_type) : cached :=
  Cached CBASIC (if file_type_eqb t ft_symlink then true else cd_symlink d)
    (cd_type_resolved d) (cd_extra_resolved d) (cd_perms_resolved d) t
    (cd_nlink d) (cd_size d) (cd_write_time d) (cd_symlink_perms d) (cd_perms d).

(** src/fs_dir_iterator.cpp:787-807 advance(): result, *ec and the stream. A null stream_ is passed
    to readdir, which is undefined. *)
Fixpoint advance (n : nat) (s : dstream) : prog (bool * ecode * dstream) :=
  match n with
  | O => Stop FFuel
  | S n' =>
      match ds_handle s with
      | None => Stop FUB
      | Some d =>
          let! r := posix_readdir d in
          let '(name, t, ec) := r in
          if str_eqb name (lit ".") || str_eqb name (lit "..") then advance n' s
          else if failed ec || is_nil name then
            Sys (c_closedir d) (fun _ => Ret (false, ec, Stream None (ds_root s) (ds_entry s)))
          else
            let! p := lift (path_div Posix (cf_el cf) (ds_root s) (split_components Posix name)) in
            Ret (true, ec, Stream (Some d) (ds_root s) (Entry p (iter_data (de_data (ds_entry s)) t)))
      end
  end.

(** bool(opts & directory_options::x) *)
(** fs_dir_iterator.cpp:776, 985, 1018 *)
Definition has_dopt (o : dopt_name) (opts : N) : bool := is_set width_directory_options opts (dopt_value o).

(** src/fs_dir_iterator.cpp:771-783 DirectoryStream(root, opts, ec) *)
Definition stream_ctor (n : nat) (root : path) (opts : N) : prog (ecode * dstream) :=
  sys r := c_opendir (native root) in
  match r with
  | Err e =>
      Ret (if has_dopt do_skip_permission_denied opts && errno_eqb e EACCES then None else Some e,
           Stream None root entry_default)
  | Val d =>
      let! a := advance n (Stream (Some d) root entry_default) in
      let '(_, ec, s) := a in Ret (ec, s)
  end.

(** * directory_iterator *)

(** fs_dir.h:466-474: the shared_ptr; [None] is the end iterator. Copies of an iterator share the stream;
    here one iterator has its own, [ShareModel.v] has copies. *)
Definition dir_iter := option dstream.

(** src/fs_dir_iterator.cpp:835-850 constructor *)
Definition dir_iter_ctor (n : nat) (has : bool) (p : path) (opts : N) : prog (dir_iter * ecode) :=
  let! r := stream_ctor n p opts in
  let '(m_ec, s) := r in
  if good s then Ret (Some s, if has then m_ec else None)
  else if failed m_ec then report has [p] None m_ec
  else Ret (None, None).

(** src/fs_dir_iterator.cpp:852-868 do_increment *)
Definition dir_iter_increment (n : nat) (has : bool) (it : dir_iter) : prog (dir_iter * ecode) :=
  match it with
  | Some s =>
      let! r := advance n s in
      let '(ok, m_ec, s1) := r in
      if ok then Ret (Some s1, None)
      else if failed m_ec then report has [] None m_ec
      else Ret (None, None)
  | None => report has [] None (Some EINVAL)
  end.

(** src/fs_dir_iterator.cpp:870-873 dereference; without assertions a null pointer is dereferenced. *)
Definition dir_iter_deref (it : dir_iter) : prog dir_entry :=
  match it with
  | Some s => Ret (ds_entry s)
  | None => let! _ := asap_assert (cf_dbg cf) false in Stop FUB
  end.

(** Destruction of the last iterator sharing the stream. *)
(** fs_dir_iterator.cpp:785-789, when impl_ (fs_dir.h) is released. *)
Definition dir_iter_destroy (it : dir_iter) : prog unit :=
  match it with Some s => stream_destroy s | None => Ret tt end.

(** * recursive_directory_iterator *)

(** src/fs_dir_iterator.cpp:877-880 and fs_dir.h:608-615: the stack (top first) with the
    options, and recursion_. *)
Record rdir_iter := RIter { r_impl : option (list dstream * N); r_recursion : bool }.

(** impl_.reset(): the streams are closed, bottom of the stack first. *)
(** fs_dir_iterator.cpp:906, 971, 974, 1025 *)
Fixpoint close_all (l : list dstream) : prog unit :=
  match l with
  | [] => Ret tt
  | s :: r => let! _ := stream_destroy s in close_all r
  end.
(** fs_dir_iterator.cpp:906, 971, 974, 1025 *)
Definition impl_reset (st : list dstream) : prog unit := close_all (rev st).

(** src/fs_dir_iterator.cpp:882-899 constructor *)
Definition rdir_ctor (n : nat) (has : bool) (p : path) (opts : N) : prog (rdir_iter * ecode) :=
  let! r := stream_ctor n p opts in
  let '(m_ec, s) := r in
  if failed m_ec then
    let! x := report has [p] tt m_ec in
    let! _ := stream_destroy s in
    Ret (RIter None true, snd x)
  else if negb (good s) then Ret (RIter None true, None)
  else Ret (RIter (Some ([s], opts)) true, None).

(** src/fs_dir_iterator.cpp:958-966, the loop of Advance over the stack: the stack where an entry was found, or
    the error with the stack, or an empty stack. *)
Fixpoint advance_stack (n : nat) (st : list dstream) : prog (option (list dstream) * ecode * list dstream) :=
  match st with
  | [] => Ret (None, None, [])
  | s :: rest =>
      let! r := advance n s in
      let '(ok, m_ec, s1) := r in
      if ok then Ret (Some (s1 :: rest), None, [])
      else if failed m_ec then Ret (None, m_ec, s1 :: rest)
      else advance_stack n rest
  end.

(** src/fs_dir_iterator.cpp:950-976 Advance *)
Definition rdir_advance (n : nat) (has : bool) (it : rdir_iter) : prog (rdir_iter * ecode) :=
  match r_impl it with
  | None => let! x := report has [] tt (Some EINVAL) in Ret (it, snd x)
  | Some (st, opts) =>
      let! r := advance_stack n st in
      let '(found, m_ec, remaining) := r in
      match found with
      | Some st1 => Ret (RIter (Some (st1, opts)) (r_recursion it), None)
      | None =>
          let! _ := impl_reset remaining in
          if failed m_ec then
            let! x := report has [] tt m_ec in Ret (RIter None (r_recursion it), snd x)
          else Ret (RIter None (r_recursion it), None)
      end
  end.

(** src/fs_dir_iterator.cpp:901-913 pop_impl *)
Definition rdir_pop (n : nat) (has : bool) (it : rdir_iter) : prog (rdir_iter * ecode) :=
  match r_impl it with
  | None => let! x := report has [] tt (Some EINVAL) in Ret (it, snd x)
  | Some ([], _) => Stop FUB
  | Some (s :: rest, opts) =>
      let! _ := stream_destroy s in
      if is_nil rest then Ret (RIter None (r_recursion it), None)
      else rdir_advance n has (RIter (Some (rest, opts)) (r_recursion it))
  end.

(** src/fs_dir_iterator.cpp:920-927 depth; the count is converted to int. *)
Definition rdir_depth (it : rdir_iter) : prog Z :=
  match r_impl it with
  | None => Stop (FThrow (Some EINVAL) [])
  | Some (st, _) => Ret (Z.of_nat (length st) - 1)%Z
  end.

(** src/fs_dir_iterator.cpp:929-933 dereference *)
Definition rdir_deref (it : rdir_iter) : prog dir_entry :=
  match r_impl it with
  | Some (s :: _, _) => Ret (ds_entry s)
  | Some ([], _) => Stop FUB
  | None => let! _ := asap_assert (cf_dbg cf) false in Stop FUB
  end.

(** fs_dir.h:585 disable_recursion_pending *)
Definition rdir_disable (it : rdir_iter) : rdir_iter := RIter (r_impl it) false.

(** src/fs_dir_iterator.cpp:978-1031 TryRecursion *)
Definition rdir_try (n : nat) (has : bool) (it : rdir_iter) : prog (bool * ecode * rdir_iter) :=
  match r_impl it with
  | None => let! x := report has [] false (Some EINVAL) in Ret (fst x, snd x, it)
  | Some ([], _) => Stop FUB
  | Some (s :: rest, opts) =>
      let rec_sym := has_dopt do_follow_directory_symlink opts in
      let! r := (if rec_sym then GetFileType true (ds_entry s) else GetSymLinkFileType true (ds_entry s)) in
      let '(t, ec0, e1) := r in
      let s1 := Stream (ds_handle s) (ds_root s) e1 in
      let st := status_of_type t in
      let m_ec := if failed ec0 && status_known st then None else ec0 in
      let skip_rec :=
        if rec_sym then failed m_ec || negb (st_is_directory st)
        else failed m_ec || st_is_symlink st || negb (st_is_directory st) in
      let! o :=
        (if skip_rec then Ret (m_ec, None)
         else
           let! c := stream_ctor n (de_path e1) opts in
           Ret (fst c, if good (snd c) then Some (snd c) else None)) in
      match o with
      | (_, Some new_it) => Ret (true, None, RIter (Some (new_it :: s1 :: rest, opts)) (r_recursion it))
      | (m_ec2, None) =>
          match m_ec2 with
          | Some x =>
              if errno_eqb x EACCES && has_dopt do_skip_permission_denied opts
              then Ret (false, None, RIter (Some (s1 :: rest, opts)) (r_recursion it))
              else
                let! _ := impl_reset (s1 :: rest) in
                let! y := report has [] false m_ec2 in
                Ret (false, snd y, RIter None (r_recursion it))
          | None => Ret (false, None, RIter (Some (s1 :: rest, opts)) (r_recursion it))
          end
      end
  end.

(** src/fs_dir_iterator.cpp:935-948 do_increment *)
Definition rdir_increment (n : nat) (has : bool) (it : rdir_iter) : prog (rdir_iter * ecode) :=
  let! r := (if r_recursion it then rdir_try n has it else Ret (false, None, it)) in
  let '(entered, ec, it1) := r in
  if entered || failed ec then Ret (it1, ec)
  else rdir_advance n has (RIter (r_impl it1) true).

(** Destruction of the last iterator sharing the stack. *)
(** fs_dir_iterator.cpp:785-789 for every stream of SharedImpl (877-880). *)
Definition rdir_destroy (it : rdir_iter) : prog unit :=
  match r_impl it with Some (st, _) => impl_reset st | None => Ret tt end.

End Config.
