(** Model of the Windows branches of the operations in src/fs_ops.cpp and src/windows/stat.cpp.

    An operation is a tree of calls to Windows: [WSys c k] makes the call [c] and goes on with [k] applied to the
    answer. As in WinStatModel.v a call that fails answers [inl e], with [e] the value of GetLastError afterwards, and
    error codes are the numbers themselves. The texts given to Windows are those of p.wstring(); the conversion between
    char and wchar_t is left out. *)
From Coq Require Import Ascii String Bool NArith ZArith List.
From Verif Require Import Str PathModel FlagsModel TimeModel WinPermsModel WinStatModel.
Import ListNotations.
Local Open Scope N_scope.

(** BY_HANDLE_FILE_INFORMATION, the members read at src/fs_ops.cpp:883-904, 981-985: volume, file index, size and write time
    (the two halves of each as one number), number of links. *)
Record handle_info := HInfo { hi_volume : N; hi_index : N; hi_size : N; hi_time : N; hi_links : N }.

(** The union of src/windows/stat.cpp:16-45 after DeviceIoControl: the tag, the four 16 bit numbers common to both structures, and the
    16 bit words that follow them. *)
Record reparse_data := Reparse {
  rp_tag : N; rp_subst_offset : N; rp_subst_length : N; rp_print_offset : N; rp_print_length : N; rp_words : list N }.

(** The calls to Windows. [w_Info] stands for all calls of status_impl and symlink_status_impl (WinStatModel.v); [w_FileInfo] for
    CreateFileW following links and GetFileInformationByHandle; [w_Reparse] for CreateFileW of the link and DeviceIoControl; [w_WriteTime] and
    [w_SetWriteTime] for CreateFileW with GetFileTime and SetFileTime; [w_OpenExclusive] for CreateFileW to read and write and [w_SetEnd] for
    SetFilePointerEx and SetEndOfFile on that handle; [w_Rename] for rename of the C library, whose errors GetLastError is asked for; [w_Find] for FindFirstFileW and FindNextFileW up to the end.
    src/fs_ops.cpp:429-1600, src/windows/stat.cpp:79-146, src/fs_dir_iterator.cpp:644-740 *)
Inductive wcall :=
| w_Info (p : str)
| w_FileInfo (p : str)
| w_AttributesEx (p : str)
| w_Attributes (p : str)
| w_Reparse (p : str)
| w_WriteTime (p : str)
| w_Find (p : str)
| w_CurrentDirectory
| w_TempPath
| w_DiskFreeSpace (p : str)
| w_RemoveDirectory (p : str)
| w_DeleteFile (p : str)
| w_CreateDirectory (p : str)
| w_CreateDirectoryEx (tmpl p : str)
| w_CopyFile (from to : str) (fail_if_exists : bool)
| w_CreateSymbolicLink (link target : str) (directory : bool)
| w_CreateHardLink (link target : str)
| w_SetWriteTime (p : str) (t : N)
| w_SetCurrentDirectory (p : str)
| w_Rename (from to : str)
| w_OpenExclusive (p : str)
| w_SetEnd (p : str) (size : Z).

(** src/fs_ops.cpp:429-1600 *)
Definition wanswer (c : wcall) : Type :=
  match c with
  | w_Info _ => winfo
  | w_FileInfo _ => N + handle_info
  | w_AttributesEx _ => N + (N * N)            (* attributes and size *)
  | w_Attributes _ => N + N
  | w_Reparse _ => N + reparse_data
  | w_WriteTime _ => N + N
  | w_Find _ => (N + (find_data * list find_data)) * N      (* the files; GetLastError at the end *)
  | w_CurrentDirectory => N + str
  | w_TempPath => N * N * str                  (* result, GetLastError, buffer *)
  | w_DiskFreeSpace _ => N + (N * N * N)       (* available, total, free *)
  | _ => N + unit
  end.

(** How an operation ends: as in WinStatModel.v, with an exception of class path, with a failed assertion or undefined behaviour
    outside WinStatModel.v, or at the model's bound on the number of steps. *)
(** src/fs_error.h:102-147; src/fs_path.cpp:1-830 *)
Inductive wend (A : Type) := WE (r : wres A) | WExn | WStop | WFuel.
Arguments WE {A}. Arguments WExn {A}. Arguments WStop {A}. Arguments WFuel {A}.

(** Not in the repository: the meaning of a function that makes system calls (src/fs_ops.cpp:1-1655). *)
Inductive wprog (A : Type) := WEnd (r : wend A) | WSys (c : wcall) (k : wanswer c -> wprog A).
Arguments WEnd {A}. Arguments WSys {A}.

(** Not in the repository: the meaning of a function that makes system calls (src/fs_ops.cpp:1-1655). *)
Definition wkernel (S : Type) := forall c : wcall, S -> wanswer c * S.
(** Not in the repository: the meaning of a function that makes system calls (src/fs_ops.cpp:1-1655). *)
Fixpoint wrun {A S} (h : wkernel S) (p : wprog A) (s : S) : wend A * S :=
  match p with
  | WEnd r => (r, s)
  | WSys c k => let '(r, s') := h c s in wrun h (k r) s'
  end.

(** A call to a function of the library that returned, with its value and the content of *ec. *)
(** Calls within src/fs_ops.cpp:1-1655. *)
Fixpoint wbind {A B} (p : wprog A) (f : A -> N -> wprog B) : wprog B :=
  match p with
  | WEnd (WE (WRet a e)) => f a e
  | WEnd (WE (WThrow c)) => WEnd (WE (WThrow c))
  | WEnd (WE WAssert) => WEnd (WE WAssert)
  | WEnd WExn => WEnd WExn
  | WEnd WStop => WEnd WStop
  | WEnd WFuel => WEnd WFuel
  | WSys c k => WSys c (fun r => wbind (k r) f)
  end.

(** Results of class path inside an operation, e.g. src/fs_ops.cpp:55, 126, 133. *)
Definition wlift {A B} (x : out A) (f : A -> wprog B) : wprog B :=
  match x with Ok a => f a | Throw _ => WEnd WExn | AssertFail | UB => WEnd WStop end.

(** Further values of winerror.h and std::errc. *)
(** winerror.h; used at src/fs_ops.cpp:697, 720. *)
Definition ERROR_ALREADY_EXISTS : N := 183.
(** Used at src/fs_ops.cpp:482, 491. *)
Definition errc_file_exists : N := 17.
(** Used at src/fs_ops.cpp:123, 1593. *)
Definition errc_not_a_directory : N := 20.
(** Used at src/fs_ops.cpp:480, src/windows/time.cpp:36-52. *)
Definition errc_invalid_argument : N := 22.
(** Used at src/fs_ops.cpp:139; ELOOP of the Microsoft C library. *)
Definition errc_too_many_symbolic_link_levels : N := 114.

Section Build.
(** Assertions compiled in; copy elision; the meaning of signed overflow. *)
Variable dbg : bool.
Variable E : elision.
Variable m : signed_mode.

(** Return with value and code: [return v]. *)
(** src/fs_ops.cpp:1-1655 *)
Definition wret {A} (a : A) (ec : N) : wprog A := WEnd (WE (WRet a ec)).
(** src/fs_error.h:102-118 report as the end of a function. *)
Definition wbad {A} (has : bool) (v : A) (code : N) : wprog A := WEnd (WE (wreport has v code)).
(** report(capture_errno()), src/fs_error.h:34-43, 102-118. *)
Definition wfail {A} (has : bool) (v : A) (last : N) : wprog A := WEnd (WE (wcapture dbg last (wreport has v))).

(** path(text) *)
(** Conversions from text, e.g. src/fs_ops.cpp:821, src/windows/stat.cpp:140-145. *)
Definition wpath (s : str) : path := split_components Windows s.

(** src/fs_ops.cpp:1440-1481; WinStatModel.v *)
Definition wstatus_of (has : bool) (p : path) : wprog wstatus :=
  WSys (w_Info (native p)) (fun i => WEnd (WE (wstatus_impl dbg has i))).
(** src/fs_ops.cpp:1488-1512; WinStatModel.v *)
Definition wsymlink_status_of (has : bool) (p : path) : wprog wstatus :=
  WSys (w_Info (native p)) (fun i => WEnd (WE (wsymlink_status_impl dbg has i))).

(** include/filesystem/fs_ops.h:234-236 *)
Definition wknown (s : wstatus) : bool := negb (wtype_is ft_none (fst s)).
(** include/filesystem/fs_ops.h:302-304, 329-331, 354-356 *)
Definition wis (t : file_type) (s : wstatus) : bool := wtype_is t (fst s).

(** include/filesystem/fs_ops.h:244-250 exists(p, ec): the code is cleared when the status is known. *)
Definition wexists_ec (p : path) : wprog bool :=
  wbind (wstatus_of true p) (fun st e => wret (wexists (fst st)) (if wknown st then 0 else e)).
(** include/filesystem/fs_ops.h:310-312 is_directory(p, ec) *)
Definition wis_directory_ec (p : path) : wprog bool :=
  wbind (wstatus_of true p) (fun st e => wret (wis ft_directory st) e).
(** include/filesystem/fs_ops.h:362-364 is_symlink(p, ec) *)
Definition wis_symlink_ec (p : path) : wprog bool :=
  wbind (wsymlink_status_of true p) (fun st e => wret (wis ft_symlink st) e).

(** * read_symlink *)

(** What the memory holds at SymbolicLinkReparseBuffer.PathBuffer: the words after the 32 bit member Flags. For a junction the structure is
    MountPointReparseBuffer, which has no such member, but the same place is read. src/windows/stat.cpp:16-45, 140-145 *)
Definition path_buffer (d : reparse_data) : list N := skipn 2 (rp_words d).

(** A character of a 16 bit word; words above 255 are outside the model. *)
(** src/windows/stat.cpp:140-145 *)
Definition char_of (n : N) : ascii := ascii_of_N n.

(** src/windows/stat.cpp:140-145: the words from PrintNameOffset on, PrintNameLength bytes long; reading beyond the buffer is not modelled. *)
Definition print_name (d : reparse_data) : str :=
  map char_of (firstn (N.to_nat (rp_print_length d / 2)) (skipn (N.to_nat (rp_print_offset d / 2)) (path_buffer d))).

(** src/windows/stat.cpp:110-146 ReadSymlinkFromReparsePoint and src/fs_ops.cpp:1214-1216 read_symlink_impl *)
Definition wread_symlink (has : bool) (p : path) : wprog path :=
  WSys (w_Reparse (native p)) (fun r =>
  match r with
  | inl e => wfail has path_default e
  | inr d => wret (wpath (print_name d)) 0
  end).

(** * current_path, absolute *)

(** src/fs_ops.cpp:811-821 current_path_impl *)
Definition wcurrent_path (has : bool) : wprog path :=
  WSys w_CurrentDirectory (fun r =>
  match r with
  | inl e => wfail has path_default e
  | inr t => wret (wpath t) 0
  end).

(** src/fs_ops.cpp:39-56 do_absolute_impl *)
Definition wabsolute (has : bool) (p : path) : wprog path :=
  if is_absolute Windows E p && has_root_name p then wret p 0
  else
    wbind (wcurrent_path has) (fun cwd e =>
      if e =? 0 then wlift (path_div Windows E cwd p) (fun q => wret q 0) else wret path_default e).

(** * canonical *)

(** max_allowed_symlinks, src/fs_ops.cpp:109. *)
Definition max_links : Z := 40.

(** src/fs_ops.cpp:115-153, the loop: result, components to come, the counter (an int: below its range is undefined), m_ec and *ec. The reports at lines 123 and 139 do not leave the
    function when there is an error_code. *)
Fixpoint canonical_loop (n : nat) (has : bool) (root : path) (result : path) (cmpts : list path) (links : Z) (m_ec ec : N)
  : wprog (path * N) :=
  match n with
  | O => WEnd WFuel
  | S n' =>
      match cmpts with
      | [] => wret (result, m_ec) ec
      | f0 :: rest =>
          if negb (m_ec =? 0) then wret (result, m_ec) ec
          else
            let f := fst (move_ctor Windows f0) in
            if empty f then canonical_loop n' has root result rest links m_ec ec
            else if is_dot f then
              wbind (wis_directory_ec result) (fun d e =>
                if negb d && (e =? 0) then
                  if has then canonical_loop n' has root result rest links e errc_not_a_directory
                  else WEnd (WE (WThrow errc_not_a_directory))
                else canonical_loop n' has root result rest links e ec)
            else if is_dotdot f then
              wlift (parent_path Windows E result) (fun parent =>
                canonical_loop n' has root (if empty parent then root else parent) rest links m_ec ec)
            else
              wlift (path_append Windows E true result f) (fun result1 =>
              wbind (wis_symlink_ec result1) (fun l e =>
                if l then
                  wbind (wread_symlink true result1) (fun link e2 =>
                    if e2 =? 0 then
                      let links' := (links - 1)%Z in
                      if (links' <? - 2 ^ 31)%Z then WEnd WStop
                      else if (links' =? 0)%Z then
                        if has then canonical_loop n' has root result1 rest links' e2 errc_too_many_symbolic_link_levels
                        else WEnd (WE (WThrow errc_too_many_symbolic_link_levels))
                      else if is_absolute Windows E link then
                        wlift (relative_path Windows E link) (fun rel =>
                          canonical_loop n' has root (root_path Windows E link) (elems rel ++ rest) links' e2 ec)
                      else
                        wlift (parent_path Windows E result1) (fun up =>
                          canonical_loop n' has root up (elems link ++ rest) links' e2 ec)
                    else canonical_loop n' has root result1 rest links e2 ec)
                else canonical_loop n' has root result1 rest links e ec))
      end
  end.

(** src/fs_ops.cpp:84-162 canonical_impl on Windows. The code do_absolute_impl leaves in *ec is not looked at. *)
Definition wcanonical (n : nat) (has : bool) (p : path) : wprog path :=
  wbind (wabsolute has p) (fun pa ec0 =>
    let root := root_path Windows E pa in
    wlift (relative_path Windows E pa) (fun rel =>
    wbind (canonical_loop n has root root (elems rel) max_links 0 ec0) (fun r ec =>
      let '(result, m_ec) := r in
      if negb (m_ec =? 0) then wbad has path_default errc_no_such_file_or_directory
      else
        wbind (wexists_ec result) (fun b _ =>
          if b then wret result ec else wbad has path_default errc_no_such_file_or_directory)))).

(** * remove *)

(** src/fs_ops.cpp:1240-1284 remove_impl *)
Definition wremove (has : bool) (p : path) : wprog bool :=
  if empty p then wret false 0
  else
    WSys (w_Attributes (native p)) (fun a =>
    match a with
    | inl e => if e =? ERROR_FILE_NOT_FOUND then wret false 0 else wfail has false e
    | inr attrs =>
        let done (r : N + unit) : wprog bool :=
          match r with
          | inl e => if negb (e =? ERROR_FILE_NOT_FOUND) then wfail has false e else wret true 0
          | inr _ => wret true 0
          end in
        if has_attr attrs FILE_ATTRIBUTE_DIRECTORY
        then WSys (w_RemoveDirectory (native p)) done
        else WSys (w_DeleteFile (native p)) done
    end).

(** * create_directory *)

(** src/fs_ops.cpp:690-710 create_directory_impl(p, ec) *)
Definition wcreate_directory (has : bool) (p : path) : wprog bool :=
  WSys (w_CreateDirectory (native p)) (fun r : N + unit =>
  match r with
  | inr _ => wret true 0
  | inl e => if negb (e =? ERROR_ALREADY_EXISTS) then wfail has false e else wret false 0
  end).

(** src/fs_ops.cpp:712-724 create_directory_impl(p, existing, ec): the value is true in every case. *)
Definition wcreate_directory_like (has : bool) (p tmpl : path) : wprog bool :=
  WSys (w_CreateDirectoryEx (native tmpl) (native p)) (fun r : N + unit =>
  match r with
  | inr _ => wret true 0
  | inl e => if negb (e =? ERROR_ALREADY_EXISTS) then wfail has true e else wret true 0
  end).

(** * Links *)

(** A call that only reports failure. *)
(** src/fs_ops.cpp:753-805 *)
Definition wsimple (has : bool) (r : N + unit) : wprog unit :=
  match r with inr _ => wret tt 0 | inl e => wfail has tt e end.
(** src/fs_ops.cpp:753-764 create_directory_symlink_impl *)
Definition wcreate_directory_symlink (has : bool) (target link : path) : wprog unit :=
  WSys (w_CreateSymbolicLink (native link) (native target) true) (fun r : N + unit => wsimple has r).
(** src/fs_ops.cpp:789-799 create_symlink_impl *)
Definition wcreate_symlink (has : bool) (target link : path) : wprog unit :=
  WSys (w_CreateSymbolicLink (native link) (native target) false) (fun r : N + unit => wsimple has r).
(** src/fs_ops.cpp:772-781 create_hard_link_impl *)
Definition wcreate_hard_link (has : bool) (target link : path) : wprog unit :=
  WSys (w_CreateHardLink (native link) (native target)) (fun r : N + unit => wsimple has r).

(** src/fs_ops.cpp:597-620 copy_symlink_impl: the type of the new link is that of the target as seen from the current directory. *)
Definition wcopy_symlink (has : bool) (from to : path) : wprog unit :=
  wbind (wread_symlink true from) (fun real e =>
    if negb (e =? 0) then wbad has tt e
    else
      let target := wpath (native real) in
      wbind (wis_directory_ec target) (fun d e2 =>
        if negb (e2 =? 0) then wbad has tt e2
        else if d then wcreate_directory_symlink has target to else wcreate_symlink has target to)).

(** * Attributes of a file *)

(** src/fs_ops.cpp:852-904 equivalent_impl. The second file is opened before the first is asked for its data; here each file
    is opened and asked at once. *)
Definition wequivalent (has : bool) (p1 p2 : path) : wprog bool :=
  WSys (w_FileInfo (native p1)) (fun r1 =>
  match r1 with
  | inl e => wfail has false e
  | inr a =>
      WSys (w_FileInfo (native p2)) (fun r2 =>
      match r2 with
      | inl e => wfail has false e
      | inr b =>
          wret ((hi_volume a =? hi_volume b) && (hi_index a =? hi_index b) && (hi_size a =? hi_size b) && (hi_time a =? hi_time b)) 0
      end)
  end).

(** src/fs_ops.cpp:929-946 file_size_impl *)
Definition wfile_size (has : bool) (p : path) : wprog N :=
  WSys (w_AttributesEx (native p)) (fun r =>
  match r with
  | inl e => wfail has umax e
  | inr (attrs, size) => if has_attr attrs FILE_ATTRIBUTE_DIRECTORY then wbad has umax errc_is_a_directory else wret size 0
  end).

(** src/fs_ops.cpp:968-985 hard_link_count_impl *)
Definition whard_link_count (has : bool) (p : path) : wprog N :=
  WSys (w_FileInfo (native p)) (fun r =>
  match r with inl e => wfail has umax e | inr i => wret (hi_links i) 0 end).

(** GetLastError after FindClose, given its value before (WinStatModel.v). *)
Variable after_close : N -> N.

(** src/fs_ops.cpp:1003-1024 is_empty_impl: a directory iterator is made and compared with the end (WinStatModel.v). *)
Definition wis_empty (has : bool) (p : path) : wprog bool :=
  WSys (w_AttributesEx (native p)) (fun r =>
  match r with
  | inl e => wfail has false e
  | inr (attrs, size) =>
      if has_attr attrs FILE_ATTRIBUTE_DIRECTORY then
        WSys (w_Find (native p)) (fun found =>
          match wstream_open (snd found) after_close false (fst found) with
          | (WOpen _ _, _) => wret false 0
          | (WClosed, ec) => if ec =? 0 then wret true 0 else wbad has false ec
          end)
      else wret (size =? 0) 0
  end).

(** Ticks of system_clock per second. *)
Variable tps : Z.

(** src/fs_ops.cpp:1051-1069 last_write_time_impl(p, ec); the minimum is the error value. *)
Definition wlast_write_time (has : bool) (p : path) : wprog Z :=
  WSys (w_WriteTime (native p)) (fun r =>
  match r with
  | inl e => wfail has i64_min e
  | inr q => wlift (FileTimeTypeFromWindowsFileTime m tps (Z.of_N q)) (fun t => wret t 0)
  end).

(** src/fs_ops.cpp:1081-1103 last_write_time_impl(p, t, ec). The file is opened before the time is converted: a missing file is reported first; here
    the conversion comes first. *)
Definition wset_last_write_time (has : bool) (p : path) (t : Z) : wprog unit :=
  wlift (FileTimeTypeToWindowsFileTime m tps t) (fun o =>
  match o with
  | None => wbad has tt errc_invalid_argument
  | Some q => WSys (w_SetWriteTime (native p) (Z.to_N q)) (fun r : N + unit => wsimple has r)
  end).

(** * copy_file *)

(** src/fs_ops.cpp:422-425 *)
Definition wopt (o : copt_name) (options : N) : bool := negb (op_and width_copy_options (copt_value o) options =? 0).

(** src/fs_ops.cpp:418-489 copy_file_impl. The code of equivalent_impl is looked at only if it answered true. *)
Definition wcopy_file (has : bool) (from to : path) (options : N) : wprog bool :=
  wbind (wstatus_of true from) (fun from_st e1 =>
  if negb (e1 =? 0) then wbad has false e1
  else if negb (wis ft_regular from_st) then wbad has false errc_not_supported
  else
    wbind (wstatus_of true to) (fun to_st e2 =>
    if negb (wknown to_st) then wbad has false e2
    else
      let to_exists := wexists (fst to_st) in
      if to_exists && negb (wis ft_regular to_st) then wbad has false errc_not_supported
      else
        wbind (if to_exists then wequivalent true from to else wret false e2) (fun same e3 =>
        if same then wbad has false (if negb (e3 =? 0) then errc_invalid_argument else errc_file_exists)
        else if to_exists && wopt co_skip_existing options then wret false 0
        else
          let copy := WSys (w_CopyFile (native from) (native to) false) (fun r : N + unit =>
                        match r with inr _ => wret true 0 | inl e => wfail has false e end) in
          if to_exists && wopt co_update_existing options then
            wbind (wlast_write_time true from) (fun t1 e4 =>
            if negb (e4 =? 0) then wbad has false e4
            else
              wbind (wlast_write_time true to) (fun t2 e5 =>
              if negb (e5 =? 0) then wbad has false e5
              else if (t2 <=? t1)%Z then copy else wret false 0))
          else if negb to_exists || wopt co_overwrite_existing options then copy
          else wbad has false errc_file_exists))).

(** * copy *)

(** include/filesystem/fs_ops.h:366-369 is_other: exists and is none of regular file, directory, symlink. *)
Definition wis_other (s : wstatus) : bool :=
  wexists (fst s) && negb (wis ft_regular s) && negb (wis ft_directory s) && negb (wis ft_symlink s).

(** function_not_supported, src/fs_ops.cpp:206, 215; ENOSYS of the Microsoft C library. *)
Definition errc_function_not_supported : N := 40.

(** How many entries a listing has at most; bounds the loop of WinStatModel.v (src/fs_dir_iterator.cpp:835-868). *)
Definition listing_bound (first : N + (find_data * list find_data)) : nat :=
  match first with inl _ => 0%nat | inr (_, r) => S (length r) end.

(** src/fs_dir_iterator.cpp:644-740: the entries a directory_iterator with error_code delivers, and the code at the end. *)
Definition wlisting (found : (N + (find_data * list find_data)) * N) : option (list went * N) :=
  wdirectory (snd found) after_close (S (listing_bound (fst found))) false (fst found).

(** detail::is_set, src/fs_ops.cpp:20-23. *)
Definition wset (o : copt_name) (options : N) : bool := is_set width_copy_options options (copt_value o).

(** src/fs_ops.cpp:283-292: the loop over the entries; [f] is the recursive call. An error of increment also ends the
    iteration, so that the test at line 285 never sees it. *)
Fixpoint wcopy_entries (f : path -> path -> wprog unit) (from to : path) (l : list went) : wprog unit :=
  match l with
  | [] => wret tt 0
  | e :: r =>
      wlift (path_div Windows E from (wpath (we_name e))) (fun a =>
      wlift (filename Windows a) (fun fn =>
      wlift (path_div Windows E to fn) (fun b =>
      wbind (f a b) (fun _ ec => if negb (ec =? 0) then wret tt ec else wcopy_entries f from to r))))
  end.

(** src/fs_ops.cpp:176-296 copy_impl on Windows; [n] bounds the depth. The directory is taken to be listed before its first entry is
    copied. *)
Fixpoint wcopy (n : nat) (has : bool) (from to : path) (options : N) : wprog unit :=
  match n with
  | O => WEnd WFuel
  | S n' =>
      let skip_symlinks := wset co_skip_symlinks options in
      let create_symlinks := wset co_create_symlinks options in
      let copy_symlinks := wset co_copy_symlinks options in
      wbind (if create_symlinks || skip_symlinks || copy_symlinks then wsymlink_status_of true from else wstatus_of true from) (fun f e1 =>
      if negb (e1 =? 0) then wbad has tt e1
      else
        wbind (if create_symlinks || skip_symlinks then wsymlink_status_of true to else wstatus_of true to) (fun t e2 =>
        if negb (wknown t) then wbad has tt e2
        else if negb (wexists (fst f)) || wis_other f || wis_other t || (wis ft_directory f && wis ft_regular t)
        then wbad has tt errc_function_not_supported
        else
          wbind (if wexists (fst f) && wexists (fst t) then wequivalent true from to else wret false 0) (fun same e3 =>
          if negb (e3 =? 0) then wbad has tt e3
          else if same then wbad has tt errc_function_not_supported
          else if wis ft_symlink f then
            if skip_symlinks then wret tt 0
            else if negb (wexists (fst t)) then wcopy_symlink has from to
            else wbad has tt errc_file_exists
          else if wis ft_regular f then
            if wset co_directories_only options then wret tt 0
            else if create_symlinks then wcreate_symlink has from to
            else if wset co_create_hard_links options then wcreate_hard_link has from to
            else if wis ft_directory t then
              wlift (filename Windows from) (fun fn =>
              wlift (path_div Windows E to fn) (fun to2 =>
              wbind (wcopy_file has from to2 options) (fun _ e => wret tt e)))
            else wbind (wcopy_file has from to options) (fun _ e => wret tt e)
          else if wis ft_directory f && create_symlinks then wbad has tt errc_is_a_directory
          else if wis ft_directory f && (wset co_recursive options || (options =? 0)) then
            wbind (if negb (wexists (fst t)) then wcreate_directory_like has to from else wret true 0) (fun _ e4 =>
            if negb (e4 =? 0) then wret tt e4
            else
              WSys (w_Find (native from)) (fun found =>
                let '(_, ec) := wstream_open (snd found) after_close false (fst found) in
                if negb (ec =? 0) then wbad has tt ec
                else
                  match wlisting found with
                  | None => WEnd WFuel
                  | Some (l, _) => wcopy_entries (fun a b => wcopy n' has a b options) from to l
                  end))
          else wret tt 0)))
  end.

(** * create_directories *)

(** src/fs_ops.cpp:649-657: the stack of prefixes to create, top first. *)
Fixpoint wpush_missing (n : nat) (pp : path) (missing : list path) : wprog (list path) :=
  match n with
  | O => WEnd WFuel
  | S n' =>
      wlift (has_filename Windows pp) (fun hf =>
      if negb hf then wret missing 0
      else
        wlift (filename Windows pp) (fun fn =>
        wlift (parent_path Windows E pp) (fun up =>
          wpush_missing n' up (if is_dot fn || is_dotdot fn then missing else pp :: missing))))
  end.

(** src/fs_ops.cpp:669-687: the loop over the stack; is_directory(top) is the overload without error_code, which never throws on
    Windows (C63). *)
Fixpoint wcreate_missing (has : bool) (missing : list path) (created : bool) : wprog bool :=
  match missing with
  | [] => wret created 0
  | top :: rest =>
      wbind (wstatus_of true top) (fun st e =>
      let absent := wis ft_not_found st in
      wbind (if absent then wbind (wcreate_directory true top) (fun _ e' => wret tt e') else wret tt e) (fun _ m_ec =>
      wbind (if negb (m_ec =? 0) then wbind (wstatus_of false top) (fun st' _ => wret tt (if wis ft_directory st' then 0 else m_ec))
             else wret tt 0) (fun _ m_ec2 =>
      if negb (m_ec2 =? 0) then wbad has false m_ec2
      else wcreate_missing has rest (created || absent))))
  end.

(** src/fs_ops.cpp:630-688 create_directories_impl *)
Definition wcreate_directories (n : nat) (has : bool) (p : path) : wprog bool :=
  if empty p then wbad has false errc_invalid_argument
  else
    wbind (wpush_missing n p []) (fun missing _ =>
      match missing with [] => wret false 0 | _ => wcreate_missing has missing false end).

(** * remove_all *)

(** src/fs_ops.cpp:1300-1307: the loop over the entries with the code [stop] at its end; [f] is the call for an entry. The directory is
    taken to be listed before the first entry is removed. *)
Fixpoint wremove_entries (f : path -> wprog N) (p : path) (l : list went) (stop count : N) : wprog N :=
  match l with
  | [] => wret count stop
  | e :: r =>
      wlift (path_div Windows E p (wpath (we_name e))) (fun q =>
      wbind (f q) (fun c ec =>
        if negb (ec =? 0) then wret umax ec
        else wremove_entries f p r stop ((count + c) mod 2 ^ 64)))
  end.

(** src/fs_ops.cpp:1292-1316 do_remove_all_impl; [n] bounds the depth. *)
Fixpoint wdo_remove_all (n : nat) (p : path) : wprog N :=
  match n with
  | O => WEnd WFuel
  | S n' =>
      wbind (wsymlink_status_of true p) (fun st e =>
      if negb (e =? 0) then wret umax e
      else
        let finish count :=
          wbind (wremove true p) (fun b e2 => if b then wret count e2 else wret umax e2) in
        if wis ft_directory st then
          WSys (w_Find (native p)) (fun found =>
            match wlisting found with
            | None => WEnd WFuel
            | Some (l, stop) =>
                wbind (wremove_entries (wdo_remove_all n') p l stop 1) (fun count e1 =>
                  if negb (e1 =? 0) then wret umax e1 else finish count)
            end)
        else finish 1)
  end.

(** src/fs_ops.cpp:1320-1337 remove_all_impl *)
Definition wremove_all (n : nat) (has : bool) (p : path) : wprog N :=
  if empty p then wret 0 0
  else
    wbind (wdo_remove_all n p) (fun count mec =>
      if negb (mec =? 0) then
        if mec =? errc_no_such_file_or_directory then wret 0 0 else wbad has umax mec
      else wret count 0).

(** * current_path, rename, resize_file *)

(** src/fs_ops.cpp:834-840 current_path_impl(p, ec) *)
Definition wset_current_path (has : bool) (p : path) : wprog unit :=
  WSys (w_SetCurrentDirectory (native p)) (fun r : N + unit => wsimple has r).

(** src/fs_ops.cpp:1343-1348 rename_impl *)
Definition wrename (has : bool) (from to : path) : wprog unit :=
  WSys (w_Rename (native from) (native to)) (fun r : N + unit => wsimple has r).

(** src/fs_ops.cpp:1354-1372 resize_file_impl; the size becomes a signed number (line 1365). *)
Definition wresize_file (has : bool) (p : path) (size : N) : wprog unit :=
  WSys (w_OpenExclusive (native p)) (fun r : N + unit =>
  match r with
  | inl e => wfail has tt e
  | inr _ => WSys (w_SetEnd (native p) (wrap64 (Z.of_N size))) (fun r : N + unit => wsimple has r)
  end).

(** * weakly_canonical, relative, proximate *)

(** src/fs_ops.cpp:1623-1637: the leading elements that exist. The result is the path, the remaining elements and m_ec. The assignment to
    tmp and the swap at lines 1625 and 1628 are taken to hand on the path as it is. *)
Fixpoint wexisting_prefix (l : list path) (result : path) (m_ec : N) : wprog (path * list path * N) :=
  match l with
  | [] => wret (result, [], m_ec) 0
  | x :: rest =>
      wlift (path_div Windows E result x) (fun tmp =>
      wbind (wstatus_of true tmp) (fun st e =>
      if wexists (fst st) then wexisting_prefix rest tmp e
      else wret (result, l, if wknown st then 0 else e) 0))
  end.

(** src/fs_ops.cpp:1603-1652 weakly_canonical_impl. An error found after line 1618 is not reported: the result is empty and the code stays
    clear. *)
Definition wweakly_canonical (n : nat) (has : bool) (p : path) : wprog path :=
  if empty p then wcanonical n has (wpath [])
  else
    wbind (wstatus_of true p) (fun st e =>
    if negb (wknown st) then wbad has path_default e
    else if wexists (fst st) then wcanonical n has p
    else
      wbind (wexisting_prefix (elems p) path_default e) (fun x _ =>
      let '(result, rest, m_ec) := x in
      wbind (if (m_ec =? 0) && negb (empty result) then wcanonical n true result else wret result m_ec) (fun result1 m_ec1 =>
      if negb (m_ec1 =? 0) then wret (fin Windows (el_other E) (clear Windows result1)) 0
      else
        wlift (append_all Windows E rest result1) (fun r =>
        wlift (lexically_normal Windows E r) (fun nrm => wret (fin Windows (el_other E) nrm) 0))))).

(** include/filesystem/fs_ops.h:439-450 relative(p, base, ec) and 456-459 relative(p, base). In the throwing form the order of the two
    evaluations is unspecified; the model takes p first. *)
Definition wrelative_with (rel : path -> path -> out path) (n : nat) (has : bool) (p base : path) : wprog path :=
  wbind (wweakly_canonical n has p) (fun a e1 =>
  if negb (e1 =? 0) then wret path_default e1
  else
    wbind (wweakly_canonical n has base) (fun b e2 =>
    if negb (e2 =? 0) then wret path_default e2 else wlift (rel a b) (fun r => wret r 0))).
(** include/filesystem/fs_ops.h:439-450, 456-459 *)
Definition wrelative := wrelative_with (lexically_relative Windows E).
(** include/filesystem/fs_ops.h:410-421 proximate(p, base, ec) and 427-431 *)
Definition wproximate := wrelative_with (lexically_proximate Windows E).
(** include/filesystem/fs_ops.h:452-454 relative(p, ec) and 423-425 proximate(p, ec): the current path comes from the throwing overload; 456,
    427: the default argument of the throwing forms. *)
Definition wrelative_cwd (n : nat) (has : bool) (p : path) : wprog path :=
  wbind (wcurrent_path false) (fun c _ => wrelative n has p c).
(** include/filesystem/fs_ops.h:423-425 *)
Definition wproximate_cwd (n : nat) (has : bool) (p : path) : wprog path :=
  wbind (wcurrent_path false) (fun c _ => wproximate n has p c).

(** * space, temp_directory_path *)

(** src/fs_ops.cpp:1386-1387: capacity, free and available. *)
Record wspace_info := WSpace { ws_capacity : N; ws_free : N; ws_available : N }.

(** src/fs_ops.cpp:1399-1407: a zero leaves the initial value. *)
Definition nonzero_or_max (x : N) : N := if x =? 0 then umax else x.

(** src/fs_ops.cpp:1384-1411 space_impl. absolute(p) is the throwing overload whether or not there is an error_code. *)
Definition wspace (has : bool) (p : path) : wprog wspace_info :=
  wbind (wabsolute false p) (fun q _ =>
  wlift (remove_filename Windows q) (fun dir =>
  WSys (w_DiskFreeSpace (native dir)) (fun r =>
  match r with
  | inr (avail, total, free) => wret (WSpace (nonzero_or_max total) (nonzero_or_max free) (nonzero_or_max avail)) 0
  | inl e => wfail has (WSpace umax umax umax) e
  end))).

(** MAX_PATH (windef.h), used at src/fs_ops.cpp:1565-1568. *)
Definition MAX_PATH : N := 260.

(** src/fs_ops.cpp:1559-1596 temp_directory_path_impl *)
Definition wtemp_directory_path (has : bool) : wprog path :=
  WSys w_TempPath (fun r =>
  let '(ret, last, buff) := r in
  if (MAX_PATH <? ret) || (ret =? 0) then wfail has path_default last
  else
    let p := wpath buff in
    wbind (wstatus_of true p) (fun st e =>
    if negb (wknown st) then wbad has path_default e
    else if negb (wexists (fst st)) || negb (wis ft_directory st) then wbad has path_default errc_not_a_directory
    else wret p 0)).

End Build.
