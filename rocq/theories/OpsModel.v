(** Model of the filesystem operations, POSIX branches of src/fs_ops.cpp and the inline wrappers of
    include/filesystem/fs_ops.h. Conventions as in DirModel.v: [has] tells whether the
    caller passed an error_code, the result pairs the value with the content of
    that code ([None] when [has] is false). [n] bounds loops and recursion. *)
From Coq Require Import Ascii String Bool Arith NArith ZArith List.
From Verif Require Import Str PathModel FlagsModel TimeModel Prog DirModel.
Import ListNotations.

(** path(text): every conversion of a C string to a path. *)
(** src/fs_ops.cpp:97, 830, 1573-1600 and read_symlink_impl. *)
Definition topath (s : str) : path := split_components Posix s.

(** A call that only reports failure: if (::call(...) == -1) err.report(capture_errno()). *)
Definition simple (has : bool) (paths : list path) (r : res unit) : prog (unit * ecode) :=
  match r with Val _ => Ret (tt, None) | Err e => report has paths tt (Some e) end.

(** src/fs_ops.cpp:170-172 stat_equivalent *)
Definition stat_equivalent (a b : stat_t) : bool :=
  N.eqb (st_dev a) (st_dev b) && N.eqb (st_ino a) (st_ino b).

(** src/fs_ops.cpp:20-23 is_set on copy_options *)
Definition co_set (o : copt_name) (options : N) : bool := is_set width_copy_options options (copt_value o).

(** src/fs_ops.cpp:690-710 create_directory_impl(p, ec) *)
Definition create_directory_impl (has : bool) (p : path) : prog (bool * ecode) :=
  sys r := c_mkdir (native p) perms_all in
  match r with
  | Val _ => Ret (true, None)
  | Err e => if errno_eqb e EEXIST then Ret (false, None) else report has [p] false (Some e)
  end.

(** src/fs_ops.cpp:712-747 create_directory_impl(p, existing_template, ec) *)
Definition create_directory_like_impl (has : bool) (p tmpl : path) : prog (bool * ecode) :=
  let! r := GetFileStatus true tmpl in
  let '(st, buf, mec) := r in
  if negb (status_known st) then report has [p; tmpl] false mec
  else if negb (st_is_directory st) then report has [p; tmpl] false (Some ENOTDIR)
  else
    sys r := c_mkdir (native p) (st_mode buf) in
    match r with
    | Val _ => Ret (true, None)
    | Err e => if errno_eqb e EEXIST then Ret (false, None) else report has [p; tmpl] false (Some e)
    end.

(** src/fs_ops.cpp:753-770 create_directory_symlink_impl *)
Definition create_directory_symlink_impl (has : bool) (target link : path) : prog (unit * ecode) :=
  sys r := c_symlink (native target) (native link) in simple has [target; link] r.

(** src/fs_ops.cpp:772-787 create_hard_link_impl *)
Definition create_hard_link_impl (has : bool) (target link : path) : prog (unit * ecode) :=
  sys r := c_link (native target) (native link) in simple has [target; link] r.

(** src/fs_ops.cpp:789-805 create_symlink_impl *)
Definition create_symlink_impl (has : bool) (target link : path) : prog (unit * ecode) :=
  sys r := c_symlink (native target) (native link) in simple has [target; link] r.

(** src/fs_ops.cpp:834-846 current_path_impl(p, ec) *)
Definition set_current_path_impl (has : bool) (p : path) : prog (unit * ecode) :=
  sys r := c_chdir (native p) in simple has [p] r.

(** src/fs_ops.cpp:852-922 equivalent_impl *)
Definition equivalent_impl (has : bool) (p1 p2 : path) : prog (bool * ecode) :=
  let! r1 := GetFileStatus true (topath (native p1)) in
  if negb (st_exists (fst (fst r1))) then report has [p1; p2] false (Some ENOTSUP)
  else
    let! r2 := GetFileStatus true (topath (native p2)) in
    if negb (st_exists (fst (fst r2))) then report has [p1; p2] false (Some ENOTSUP)
    else Ret (stat_equivalent (snd (fst r1)) (snd (fst r2)), None).

(** src/fs_ops.cpp:929-962 file_size_impl *)
Definition file_size_impl (has : bool) (p : path) : prog (Z * ecode) :=
  let! r := GetFileStatus true p in
  let '(fst_, buf, m_ec) := r in
  if negb (st_exists fst_) || negb (st_is_regular_file fst_) then
    let kind := if st_is_directory fst_ then EISDIR else ENOTSUP in
    report has [p] u64_max (if failed m_ec then m_ec else Some kind)
  else Ret (to_u64 (st_size buf), None).

(** src/fs_ops.cpp:968-996 hard_link_count_impl *)
Definition hard_link_count_impl (has : bool) (p : path) : prog (Z * ecode) :=
  let! r := GetFileStatus true p in
  if failed (snd r) then report has [p] u64_max (snd r)
  else Ret (to_u64 (st_nlink (snd (fst r))), None).

(** src/fs_ops.cpp:1240-1284 remove_impl *)
Definition remove_impl (has : bool) (p : path) : prog (bool * ecode) :=
  if empty p then Ret (false, None)
  else
    sys r := c_remove (native p) in
    match r with
    | Val _ => Ret (true, None)
    | Err e => if errno_eqb e ENOENT then Ret (false, None) else report has [p] false (Some e)
    end.

(** src/fs_ops.cpp:1343-1348 rename_impl *)
Definition rename_impl (has : bool) (from to : path) : prog (unit * ecode) :=
  sys r := c_rename (native from) (native to) in simple has [from; to] r.

(** src/fs_ops.cpp:1354-1378 resize_file_impl; the size is converted to off_t. *)
Definition resize_file_impl (has : bool) (p : path) (size : Z) : prog (unit * ecode) :=
  sys r := c_truncate (native p) (wrap64 size) in simple has [p] r.

(** include/filesystem/fs_ops.h (space_info, fs_ops.h:97-105) *)
Record space_info := Space { capacity : Z; free : Z; available : Z }.
(** src/fs_ops.cpp:1384-1432, the value when the system call fails. *)
Definition space_unknown : space_info := Space u64_max u64_max u64_max.

(** src/fs_ops.cpp:1384-1432 space_impl *)
Definition space_impl (has : bool) (p : path) : prog (space_info * ecode) :=
  sys r := c_statvfs (native p) in
  match r with
  | Val v => Ret (Space (do_mult (f_blocks v) (f_frsize v)) (do_mult (f_bfree v) (f_frsize v))
                        (do_mult (f_bavail v) (f_frsize v)), None)
  | Err e => report has [p] space_unknown (Some e)
  end.

(** src/fs_ops.cpp:1570-1580, the search through the environment *)
Fixpoint first_env (l : list str) : prog (option str) :=
  match l with
  | [] => Ret None
  | x :: r => sys v := c_getenv x in match v with Some t => Ret (Some t) | None => first_env r end
  end.
(** src/fs_ops.cpp:1573 *)
Definition env_paths : list str := [lit "TMPDIR"; lit "TMP"; lit "TEMP"; lit "TEMPDIR"].

Section Config.
Variable cf : config.
Let E := cf_el cf.

(** src/fs_ops.cpp:811-832 current_path_impl(ec). A negative pathconf result makes the buffer
    smaller than the size passed to getcwd. *)
Definition current_path_impl (has : bool) : prog (path * ecode) :=
  sys size := c_pathconf in
  let! _ := asap_assert (cf_dbg cf) (0 <? size)%Z in
  if (size <? 0)%Z then Stop FUB
  else
    sys r := c_getcwd size in
    match r with
    | Val t => Ret (topath t, None)
    | Err e => report has [] path_default (Some e)
    end.

(** src/fs_ops.cpp:39-56 do_absolute_impl: the result, *cwd and *ec *)
Definition do_absolute_impl (has : bool) (p : path) : prog (path * path * ecode) :=
  if is_absolute Posix E p then Ret (p, path_default, None)
  else
    let! r := current_path_impl has in
    let '(cwd, ec) := r in
    if failed ec then Ret (path_default, cwd, ec)
    else let! q := lift (path_div Posix E cwd p) in Ret (q, cwd, ec).

(** src/fs_ops.cpp:58-61 absolute_impl *)
Definition absolute_impl (has : bool) (p : path) : prog (path * ecode) :=
  let! r := do_absolute_impl has p in Ret (fst (fst r), snd r).

(** src/fs_ops.cpp:84-97 canonical_impl. A failed do_absolute_impl does not end the
    function: realpath is called with the empty text. *)
Definition canonical_impl (has : bool) (p : path) : prog (path * ecode) :=
  let! r := do_absolute_impl has p in
  let '(pa, cwd, ec) := r in
  sys a := c_realpath (native pa) in
  match a with
  | Err e => report has [p; cwd] path_default (Some e)
  | Val t => Ret (topath t, ec)
  end.

(** src/fs_ops.cpp:1214-1234 read_symlink_impl. *)
Definition read_symlink_impl (has : bool) (p : path) : prog (path * ecode) :=
  sys size := c_pathconf in
  let! _ := asap_assert (cf_dbg cf) (0 <? size)%Z in
  if (size <? 0)%Z then Stop FUB
  else
    sys r := c_readlink (native p) size in
    match r with
    | Err e => report has [p] path_default (Some e)
    | Val t =>
        let ret := Z.of_nat (length t) in
        let! _ := asap_assert (cf_dbg cf) (ret <=? size)%Z in
        let! _ := asap_assert (cf_dbg cf) (0 <? ret)%Z in
        if (size <? ret)%Z then Stop FUB else Ret (topath t, None)
    end.

(** src/fs_ops.cpp:597-624 copy_symlink_impl *)
Definition copy_symlink_impl (has : bool) (from to : path) : prog (unit * ecode) :=
  let! r := read_symlink_impl true from in
  if failed (snd r) then report has [from; to] tt (snd r)
  else create_symlink_impl has (fst r) to.

(** * copy_file *)

(** src/posix/file.cpp:21-40 FileDescriptor::RefreshStatus(false, ec): lstat by name. *)
Definition refresh_status (p : path) : prog (file_status * stat_t * ecode) := GetLinkStatus true p.

(** src/fs_ops.cpp:330-340, the loop of do_copy_file_sendfile *)
Fixpoint sendfile_loop (n : nat) (rfd wfd : N) (count : Z) : prog (bool * ecode) :=
  match n with
  | O => Stop FFuel
  | S n' =>
      sys r := c_sendfile wfd rfd count in
      match r with
      | Err e => Ret (false, Some e)
      | Val k => if (0 <? count - k)%Z then sendfile_loop n' rfd wfd (count - k)%Z else Ret (true, None)
      end
  end.

(** src/fs_ops.cpp:323-344 do_copy_file_sendfile; [size] is read_fd.PosixStatus().st_size. *)
Definition sendfile_max : Z := 2147479552.
(** src/fs_ops.cpp:323-344 *)
Definition do_copy_file_sendfile (n : nat) (rfd wfd : N) (size : Z) : prog (bool * ecode) :=
  if (size <? 0)%Z || (sendfile_max <? size)%Z then Ret (false, None)
  else sendfile_loop n rfd wfd size.

(** src/fs_ops.cpp:370-394 do_copy_file_default; BUFSIZ is 8192. *)
Definition bufsiz : Z := 8192.
(** src/fs_ops.cpp:370-394 *)
Fixpoint do_copy_file_default (n : nat) (rfd wfd : N) : prog (bool * ecode) :=
  match n with
  | O => Stop FFuel
  | S n' =>
      sys r := c_read rfd bufsiz in
      match r with
      | Err e => Ret (false, Some e)
      | Val [] => Ret (true, None)
      | Val data =>
          sys k := c_write wfd data in
          match k with
          | Err e => Ret (false, Some e)
          | Val _ => do_copy_file_default n' rfd wfd
          end
      end
  end.

(** src/fs_ops.cpp:397-414 do_copy_file *)
Definition do_copy_file (n : nat) (rfd wfd : N) (size : Z) : prog (bool * ecode) :=
  if cf_sendfile cf then
    let! r := do_copy_file_sendfile n rfd wfd size in
    if fst r then Ret (true, snd r) else do_copy_file_default n rfd wfd
  else do_copy_file_default n rfd wfd.

(** src/fs_ops.cpp:526-537: is the modification time of [a] later than that of [b]? *)
Definition newer (a b : timespec) : bool :=
  if (tv_sec a <? tv_sec b)%Z then false
  else if (tv_sec a =? tv_sec b)%Z && (tv_nsec a <=? tv_nsec b)%Z then false
  else true.

(** ~FileDescriptor, src/fs_portability.h:270, 308-317 *)
Definition close_fd (fd : N) : prog unit := Sys (c_close fd) (fun _ => Ret tt).

(** src/fs_ops.cpp:564-593, after both files are open *)
Definition copy_file_body (n : nat) (has : bool) (from to : path) (rfd wfd : N)
    (from_stat to_stat : stat_t) (to_exists : bool) : prog (bool * ecode) :=
  let bad e := report has [to; from] false e in
  let! r := refresh_status to in
  if failed (snd r) then bad (snd r)
  else
    let copy :=
      let! c := do_copy_file n rfd wfd (st_size from_stat) in
      if fst c then Ret (true, None) else bad (snd c) in
    if to_exists then
      if negb (stat_equivalent to_stat (snd (fst r))) then bad (Some EBADF)
      else
        sys a := c_fchmod wfd (st_mode from_stat) in
        match a with
        | Err e => bad (Some e)
        | Val _ =>
            sys b := c_ftruncate wfd 0 in
            match b with Err e => bad (Some e) | Val _ => copy end
        end
    else copy.

(** src/fs_ops.cpp:498-593, after the source is open. *)
Definition copy_file_from (n : nat) (has : bool) (from to : path) (options : N) (rfd : N) : prog (bool * ecode) :=
  let bad e := report has [to; from] false e in
  let skip_existing := co_set co_skip_existing options in
  let update_existing := co_set co_update_existing options in
  let overwrite_existing := co_set co_overwrite_existing options in
  let! r := refresh_status from in
  let '(from_st, from_stat, m_ec) := r in
  if failed m_ec then bad m_ec
  else if negb (st_is_regular_file from_st) then bad (Some ENOTSUP)
  else
    let! r2 := GetFileStatus true to in
    let '(to_st, to_stat, m_ec2) := r2 in
    if negb (status_known to_st) then bad m_ec2
    else
      let to_exists := st_exists to_st in
      if to_exists && negb (st_is_regular_file to_st) then bad (Some ENOTSUP)
      else if to_exists && stat_equivalent from_stat to_stat then bad (Some EEXIST)
      else if to_exists && skip_existing then Ret (false, None)
      else
        let! should :=
          (if to_exists && update_existing then Ret (newer (st_mtim from_stat) (st_mtim to_stat), None)
           else if negb to_exists || overwrite_existing then Ret (true, None)
           else bad (Some EEXIST)) in
        if negb (fst should) then Ret (false, snd should)
        else
          sys o := c_open (native to) (if to_exists then O_WRITE else O_WRITE_CREAT) (st_mode from_stat) in
          match o with
          | Err e => bad (Some e)
          | Val wfd => scoped (copy_file_body n has from to rfd wfd from_stat to_stat to_exists) (close_fd wfd)
          end.

(** src/fs_ops.cpp:418-430, 491-595 copy_file_impl. The destructor of to_fd runs
    before that of from_fd. *)
Definition copy_file_impl (n : nat) (has : bool) (from to : path) (options : N) : prog (bool * ecode) :=
  sys r := c_open (native from) O_READ 0 in
  match r with
  | Err e => report has [to; from] false (Some e)
  | Val rfd => scoped (copy_file_from n has from to options rfd) (close_fd rfd)
  end.

(** * copy *)

(** The comparison of src/fs_ops.cpp:286 and 1008 with directory_iterator(). *)
Definition is_end (it : dir_iter) : bool := match it with None => true | Some _ => false end.

(** src/fs_ops.cpp:286-294: for (; it != end; it.increment(m_ec2)), with [rec] the recursive call. *)
Fixpoint copy_loop (rec : path -> path -> prog (unit * ecode)) (n : nat) (has : bool) (from to : path)
    (k : nat) (it : dir_iter) (m_ec : ecode) : prog (unit * ecode) :=
  match k with
  | O => Stop FFuel
  | S k' =>
      if is_end it then Ret (tt, None)
      else if failed m_ec then scoped (report has [from; to] tt m_ec) (dir_iter_destroy it)
      else
        let! r :=
          unwinding
            (let! e := dir_iter_deref cf it in
             let! fn := lift (filename Posix (de_path e)) in
             let! to2 := lift (path_div Posix E to fn) in
             rec (de_path e) to2)
            (dir_iter_destroy it) in
        if failed (snd r) then let! _ := dir_iter_destroy it in Ret (tt, snd r)
        else
          let! j := dir_iter_increment cf n true it in
          copy_loop rec n has from to k' (fst j) (snd j)
  end.

(** src/fs_ops.cpp:176-296 copy_impl *)
Fixpoint copy_impl (n : nat) (has : bool) (from to : path) (options : N) : prog (unit * ecode) :=
  match n with
  | O => Stop FFuel
  | S n' =>
      let bad e := report has [from; to] tt e in
      let skip_symlinks := co_set co_skip_symlinks options in
      let create_symlinks := co_set co_create_symlinks options in
      let copy_symlinks := co_set co_copy_symlinks options in
      let! rf := (if create_symlinks || skip_symlinks || copy_symlinks
                  then GetLinkStatus true from else GetFileStatus true from) in
      let '(f, f_st, m_ec1) := rf in
      if failed m_ec1 then bad m_ec1
      else
        let! rt := (if create_symlinks || skip_symlinks then GetLinkStatus true to else GetFileStatus true to) in
        let '(t, t_st, m_ec2) := rt in
        if negb (status_known t) then bad m_ec2
        else if negb (st_exists f) || st_is_other f || st_is_other t ||
                (st_is_directory f && st_is_regular_file t) || stat_equivalent f_st t_st
        then bad (Some ENOSYS)
        else if st_is_symlink f then
          if skip_symlinks then Ret (tt, None)
          else if negb (st_exists t) then copy_symlink_impl has from to
          else bad (Some EEXIST)
        else if st_is_regular_file f then
          if co_set co_directories_only options then Ret (tt, None)
          else if create_symlinks then create_symlink_impl has from to
          else if co_set co_create_hard_links options then create_hard_link_impl has from to
          else if st_is_directory t then
            let! fn := lift (filename Posix from) in
            let! to2 := lift (path_div Posix E to fn) in
            let! r := copy_file_impl n' has from to2 options in Ret (tt, snd r)
          else let! r := copy_file_impl n' has from to options in Ret (tt, snd r)
        else if st_is_directory f && create_symlinks then bad (Some EISDIR)
        else if st_is_directory f && (co_set co_recursive options || N.eqb options 0) then
          let! c := (if negb (st_exists t) then create_directory_like_impl has to from else Ret (true, None)) in
          if failed (snd c) then Ret (tt, snd c)
          else
            let! i := dir_iter_ctor cf n' has from 0 in
            if failed (snd i) then Ret (tt, snd i)
            else
              copy_loop (fun a b => copy_impl n' has a b options) n' has from to n' (fst i) None
        else Ret (tt, None)
  end.

(** * create_directories *)

(** src/fs_ops.cpp:649-658: the stack of prefixes to create, top first. *)
Fixpoint push_missing (n : nat) (pp : path) (missing : list path) : prog (list path) :=
  match n with
  | O => Stop FFuel
  | S n' =>
      let! hf := lift (has_filename Posix pp) in
      if negb hf then Ret missing
      else
        let! fn := lift (filename Posix pp) in
        let! up := lift (parent_path Posix E pp) in
        push_missing n' up (if is_dot fn || is_dotdot fn then missing else pp :: missing)
  end.

(** src/fs_ops.cpp:669-687: the loop over the stack; is_directory(top) is the throwing overload. *)
Fixpoint create_missing (has : bool) (p : path) (missing : list path) (created : bool) : prog (bool * ecode) :=
  match missing with
  | [] => Ret (created, None)
  | top :: rest =>
      let! s := status_impl true top in
      let absent := file_type_eqb (st_type (fst s)) ft_not_found in
      let! m_ec :=
        (if absent then let! c := create_directory_impl true top in Ret (snd c) else Ret (snd s)) in
      let! m_ec2 :=
        (if failed m_ec then
           let! d := is_directory false top in Ret (if fst d then None else m_ec)
         else Ret m_ec) in
      match m_ec2 with
      | Some _ => report has [p] false m_ec2
      | None => create_missing has p rest (created || absent)
      end
  end.

(** src/fs_ops.cpp:630-688 create_directories_impl *)
Definition create_directories_impl (n : nat) (has : bool) (p : path) : prog (bool * ecode) :=
  if empty p then report has [p] false (Some EINVAL)
  else
    let! missing := push_missing n p [] in
    if is_nil missing then Ret (false, None)
    else create_missing has p missing false.

(** * Other operations *)

(** src/fs_ops.cpp:1003-1010 is_empty_directory *)
Definition is_empty_directory (n : nat) (has : bool) (p : path) : prog (bool * ecode) :=
  let! r := dir_iter_ctor cf n has p 0 in
  if failed (snd r) then Ret (false, snd r)
  else let! _ := dir_iter_destroy (fst r) in Ret (is_end (fst r), None).

(** src/fs_ops.cpp:1012-1045 is_empty_impl *)
Definition is_empty_impl (n : nat) (has : bool) (p : path) : prog (bool * ecode) :=
  let! r := GetFileStatus true p in
  let '(st, pst, m_ec) := r in
  if failed m_ec then report has [p] false m_ec
  else if negb (st_is_directory st) && negb (st_is_regular_file st) then report has [p] false (Some ENOTSUP)
  else if st_is_directory st then is_empty_directory n has p
  else Ret (Z.eqb (to_u64 (st_size pst)) 0, None).

(** src/fs_ops.cpp:1051-1079 last_write_time_impl(p, ec) *)
Definition last_write_time_impl (has : bool) (p : path) : prog (Z * ecode) :=
  let! r := GetFileStatus true p in
  if failed (snd r) then report has [p] i64_min (snd r)
  else ExtractLastWriteTime cf has p (snd (fst r)).

(** src/fs_ops.cpp:1081-1149 last_write_time_impl(p, new_time, ec), ASAP_FS_USE_UTIMENSAT *)
Definition set_last_write_time_impl (has : bool) (p : path) (t : Z) : prog (unit * ecode) :=
  let! ts := lift (timespec_of_time (cf_mode cf) t) in
  match ts with
  | None => report has [p] tt (Some EINVAL)
  | Some ts => sys r := c_utimensat (native p) ts in simple has [p] r
  end.

(** src/fs_ops.cpp:1155-1208 permissions_impl *)
Definition has_popt (o : popt_name) (opts : N) : bool := is_set width_perm_options opts (popt_value o).
(** src/fs_ops.cpp:1155-1208 *)
Definition permissions_impl (has : bool) (p : path) (prms opts : N) : prog (unit * ecode) :=
  let resolve_symlinks := negb (has_popt po_nofollow opts) in
  let add_perms := has_popt po_add opts in
  let remove_perms := has_popt po_remove opts in
  let count := (Nat.b2n add_perms + Nat.b2n remove_perms + Nat.b2n (has_popt po_replace opts))%nat in
  let! _ := asap_assert (cf_dbg cf) (Nat.eqb count 1) in
  let prms1 := op_and width_perms prms perms_mask in
  let finish set_sym prms2 :=
    sys r := c_fchmodat (native p) (op_and width_perms prms2 perms_mask) set_sym in simple has [p] r in
  if negb resolve_symlinks || (add_perms || remove_perms) then
    let! s := (if resolve_symlinks then status_impl true p else symlink_status_impl true p) in
    let '(st, m_ec) := s in
    if failed m_ec then report has [p] tt m_ec
    else
      let! _ := asap_assert (cf_dbg cf) (negb (N.eqb (st_perms st) perms_unknown)) in
      finish (st_is_symlink st)
        (if add_perms then op_or width_perms prms1 (st_perms st)
         else if remove_perms then op_and width_perms (st_perms st) (op_not width_perms prms1)
         else prms1)
  else finish false prms1.

(** src/fs_ops.cpp:1300-1307, the loop over the directory, with [rec] the recursive call; the
    stream of [it] is closed on every exit. *)
Fixpoint remove_loop (rec : path -> prog (Z * ecode)) (n k : nat) (it : dir_iter) (ec : ecode) (count : Z) : prog (Z * ecode) :=
  match k with
  | O => Stop FFuel
  | S k' =>
      if failed ec || is_end it then Ret (count, ec)
      else
        let! r :=
          unwinding
            (let! e := dir_iter_deref cf it in rec (de_path e))
            (dir_iter_destroy it) in
        if failed (snd r) then let! _ := dir_iter_destroy it in Ret (u64_max, snd r)
        else
          let! j := dir_iter_increment cf n true it in
          remove_loop rec n k' (fst j) (snd j) (to_u64 (count + fst r))
  end.

(** src/fs_ops.cpp:1292-1316 do_remove_all_impl; the counts are 64 bit unsigned. *)
Fixpoint do_remove_all_impl (n : nat) (p : path) : prog (Z * ecode) :=
  match n with
  | O => Stop FFuel
  | S n' =>
      let! s := symlink_status_impl true p in
      if failed (snd s) then Ret (u64_max, snd s)
      else
        let! c :=
          (if st_is_directory (fst s) then
             let! i := dir_iter_ctor cf n' true p 0 in
             remove_loop (do_remove_all_impl n') n' n' (fst i) (snd i) 1%Z
           else Ret (1%Z, None)) in
        if failed (snd c) then Ret (u64_max, snd c)
        else
          let! r := remove_impl true p in
          if fst r then Ret (fst c, None) else Ret (u64_max, snd r)
  end.

(** src/fs_ops.cpp:1320-1337 remove_all_impl *)
Definition remove_all_impl (n : nat) (has : bool) (p : path) : prog (Z * ecode) :=
  if empty p then Ret (0%Z, None)
  else
    let! r := do_remove_all_impl n p in
    match snd r with
    | Some e => if errno_eqb e ENOENT then Ret (0%Z, None) else report has [p] u64_max (snd r)
    | None => Ret (fst r, None)
    end.

(** src/fs_ops.cpp:1559-1597 temp_directory_path_impl. *)
Definition temp_directory_path_impl (has : bool) : prog (path * ecode) :=
  let! v := first_env env_paths in
  let p := topath (match v with Some t => t | None => lit "/tmp" end) in
  let! s := status_impl true p in
  if negb (status_known (fst s)) then report has [] path_default (snd s)
  else if negb (st_exists (fst s)) || negb (st_is_directory (fst s))
  then report has [] path_default (Some ENOTDIR)
  else Ret (fin Posix (el_other E) p, None).

(** src/fs_ops.cpp:1623-1637: the leading elements that exist. The result is the
    path, the remaining elements and m_ec. *)
Fixpoint existing_prefix (l : list path) (result : path) : prog (path * list path * ecode) :=
  match l with
  | [] => Ret (result, [], None)
  | x :: rest =>
      let! tmp := lift (path_div Posix E result x) in
      let! s := status_impl true tmp in
      if st_exists (fst s) then existing_prefix rest tmp
      else Ret (result, l, if status_known (fst s) then None else snd s)
  end.

(** src/fs_ops.cpp:1603-1652 weakly_canonical_impl. An error found after line 1618 is not
    reported: the result is empty and the code stays clear. *)
Definition weakly_canonical_impl (has : bool) (p : path) : prog (path * ecode) :=
  if empty p then canonical_impl has (topath [])
  else
    let! s := status_impl true p in
    if negb (status_known (fst s)) then report has [p] path_default (snd s)
    else if st_exists (fst s) then canonical_impl has p
    else
      let! x := existing_prefix (elems p) path_default in
      let '(result, rest, m_ec) := x in
      let! y := (if negb (failed m_ec) && negb (empty result) then canonical_impl true result
                 else Ret (result, m_ec)) in
      let '(result1, m_ec1) := y in
      if failed m_ec1 then Ret (fin Posix (el_other E) (clear Posix result1), None)
      else
        let! r := lift (append_all Posix E rest result1) in
        let! nrm := lift (lexically_normal Posix E r) in
        Ret (fin Posix (el_other E) nrm, None).

(** include/filesystem/fs_ops.h:439-450 relative(p, base, ec) and 456-459 relative(p, base). In the throwing form the
    order of the two evaluations is unspecified; the model takes p first. *)
Definition relative_with (rel : path -> path -> out path) (has : bool) (p base : path) : prog (path * ecode) :=
  let! a := weakly_canonical_impl has p in
  if failed (snd a) then Ret (path_default, snd a)
  else
    let! b := weakly_canonical_impl has base in
    if failed (snd b) then Ret (path_default, snd b)
    else let! r := lift (rel (fst a) (fst b)) in Ret (r, None).
(** include/filesystem/fs_ops.h:439-450, 456-459 *)
Definition relative_impl := relative_with (lexically_relative Posix E).

(** include/filesystem/fs_ops.h:410-421 proximate(p, base, ec) and 427-431 *)
Definition proximate_impl := relative_with (lexically_proximate Posix E).

(** include/filesystem/fs_ops.h:452-454 relative(p, ec) and 423-425 proximate(p, ec): the current path comes from
    the throwing overload; 456, 427: the default argument of the throwing forms. *)
Definition relative_cwd_impl (has : bool) (p : path) : prog (path * ecode) :=
  let! c := current_path_impl false in relative_impl has p (fst c).
(** include/filesystem/fs_ops.h:423-425 *)
Definition proximate_cwd_impl (has : bool) (p : path) : prog (path * ecode) :=
  let! c := current_path_impl false in proximate_impl has p (fst c).

End Config.
