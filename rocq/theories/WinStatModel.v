(** Model of the Windows parts that ask the system about files: status and symlink_status (src/fs_ops.cpp, src/windows/stat.cpp,
    src/windows/permissions.cpp), the directory stream and directory_entry (src/fs_dir_iterator.cpp).

    The answers of the system are arguments. A call that fails answers [inl e] with [e] the value of
    GetLastError afterwards, which may be 0. Error codes are the numbers themselves: the library puts
    them all into std::generic_category (src/fs_error.h:34-43); 0 is the cleared code. *)
From Coq Require Import Ascii String Bool NArith List.
From Verif Require Import Str PathModel FlagsModel WinPermsModel.
Import ListNotations.
Local Open Scope N_scope.

(** How a call ends: value and content of *ec (0 when no error_code was passed), a filesystem_error, or a failed ASAP_ASSERT. *)
Inductive wres (A : Type) := WRet (a : A) (ec : N) | WThrow (code : N) | WAssert.
Arguments WRet {A}. Arguments WThrow {A}. Arguments WAssert {A}.

(** include/filesystem/fs_file_type.h:21-37 on Windows: the common types and reparse_file. *)
Inductive wtype := WT (t : file_type) | WReparse.
(** Comparison with a common type, include/filesystem/fs_file_type.h:21-37. *)
Definition wtype_is (t : file_type) (w : wtype) : bool := match w with WT u => file_type_eqb u t | WReparse => false end.

(** winerror.h *)
(** winerror.h; used at src/windows/stat.cpp:69. *)
Definition ERROR_FILE_NOT_FOUND : N := 2.
(** winerror.h; used at src/windows/stat.cpp:69. *)
Definition ERROR_PATH_NOT_FOUND : N := 3.
(** winerror.h; used at src/windows/stat.cpp:163, src/fs_dir_iterator.cpp:668. *)
Definition ERROR_ACCESS_DENIED : N := 5.
(** winerror.h; used at src/windows/stat.cpp:72. *)
Definition ERROR_INVALID_DRIVE : N := 15.
(** winerror.h; used at src/fs_dir_iterator.cpp:678, 736. *)
Definition ERROR_NO_MORE_FILES : N := 18.
(** winerror.h; used at src/windows/stat.cpp:73. *)
Definition ERROR_NOT_READY : N := 21.
(** winerror.h; used at src/windows/stat.cpp:157. *)
Definition ERROR_SHARING_VIOLATION : N := 32.
(** winerror.h; used at src/windows/stat.cpp:76. *)
Definition ERROR_BAD_NETPATH : N := 53.
(** winerror.h; used at src/windows/stat.cpp:74. *)
Definition ERROR_INVALID_PARAMETER : N := 87.
(** winerror.h; used at src/windows/stat.cpp:70. *)
Definition ERROR_INVALID_NAME : N := 123.
(** winerror.h; used at src/windows/stat.cpp:75. *)
Definition ERROR_BAD_PATHNAME : N := 161.
(** winerror.h; used at src/windows/permissions.cpp:222-225. *)
Definition ERROR_INVALID_ACL : N := 1336.
(** std::errc values used *)
(** Used at src/fs_dir_iterator.cpp:304, 333. *)
Definition errc_no_such_file_or_directory : N := 2.
(** Used at src/fs_dir_iterator.cpp:673, src/windows/permissions.cpp:226. *)
Definition errc_permission_denied : N := 13.
(** Used at src/fs_dir_iterator.cpp:187, 353. *)
Definition errc_is_a_directory : N := 21.
(** Used at src/fs_dir_iterator.cpp:354. *)
Definition errc_not_supported : N := 129.          (* ENOTSUP of the Microsoft C library *)

(** winnt.h and src/windows/stat.cpp:60; used at src/windows/stat.cpp:103-107, src/fs_dir_iterator.cpp:594-601. *)
Definition FILE_ATTRIBUTE_REPARSE_POINT : N := 1024.
(** winnt.h and src/windows/stat.cpp:60; used at src/windows/stat.cpp:103-107, src/fs_dir_iterator.cpp:594-601. *)
Definition IO_REPARSE_TAG_MOUNT_POINT : N := 2684354563.
(** winnt.h and src/windows/stat.cpp:60; used at src/windows/stat.cpp:103-107, src/fs_dir_iterator.cpp:594-601. *)
Definition IO_REPARSE_TAG_SYMLINK : N := 2684354572.

(** The test [(attr & bit) != 0U]. *)
Definition has_attr (attr bit : N) : bool := negb (N.land attr bit =? 0).

Section Build.
(** Assertions compiled in. *)
Variable dbg : bool.

(** src/fs_error.h:34-43 capture_errno on Windows *)
Definition wcapture {A} (last : N) (k : N -> wres A) : wres A :=
  if dbg && (last =? 0) then WAssert else k last.

(** src/fs_error.h:102-118 ErrorHandler::report with error value [v] *)
Definition wreport {A} (has : bool) (v : A) (code : N) : wres A := if has then WRet v code else WThrow code.

(** src/windows/stat.cpp:68-77 *)
Definition IsNotFoundError (e : N) : bool :=
  (e =? ERROR_FILE_NOT_FOUND) || (e =? ERROR_PATH_NOT_FOUND) || (e =? ERROR_INVALID_NAME) || (e =? ERROR_INVALID_DRIVE) ||
  (e =? ERROR_NOT_READY) || (e =? ERROR_INVALID_PARAMETER) || (e =? ERROR_BAD_PATHNAME) || (e =? ERROR_BAD_NETPATH).

(** A file_status on Windows: type and permissions. *)
(** include/filesystem/fs_file_status.h:20-75 *)
Definition wstatus : Type := wtype * N.

(** src/windows/stat.cpp:148-176 ProcessStatusFailure. The report in it happens only with [ec != nullptr],
    so it never throws. *)
Definition ProcessStatusFailure (has : bool) (m_ec : N) : wres wstatus :=
  let ec := if has then m_ec else 0 in
  if m_ec =? 0 then WRet (WT ft_none, perms_unknown) ec
  else if IsNotFoundError m_ec then WRet (WT ft_not_found, perms_none) ec
  else if m_ec =? ERROR_SHARING_VIOLATION then WRet (WT ft_unknown, perms_unknown) ec
  else if has
       then WRet (WT ft_none, perms_unknown) (if m_ec =? ERROR_ACCESS_DENIED then errc_permission_denied else m_ec)
       else WRet (WT ft_none, perms_unknown) 0.

(** What GetNamedSecurityInfoW, EqualSid and GetEffectiveRightsFromAcl answer for a file. A failing
    GetEffectiveRightsFromAcl returns a code and leaves another value in GetLastError. *)
(** src/windows/permissions.cpp:326-377 *)
Record security := Security {
  s_named : N + unit;
  s_same : bool;
  s_rights : trustee -> (N * N) + N }.

(** permissions.cpp:207-245, 247-285, 287-324: GetOwnerPermissions, GetGroupPermissions, GetOthersPermissions: the
    permissions and the code. *)
Definition GetTrusteePermissions (sec : security) (t : trustee) (attr : N) : wres N :=
  match s_rights sec t with
  | inl (ret, last) =>
      if ret =? ERROR_INVALID_ACL then WRet perms_none errc_permission_denied
      else wcapture last (fun e => WRet perms_none e)
  | inr mask => match trustee_permissions t mask attr with Ok p => WRet p 0 | _ => WAssert end
  end.

(** permissions.cpp:137-153 ProcessPermissionsFailure; with an error_code the report overwrites it. *)
Definition ProcessPermissionsFailure (has : bool) (m_ec : N) : wres N :=
  if IsNotFoundError m_ec then WRet perms_none 0
  else if m_ec =? ERROR_SHARING_VIOLATION then WRet perms_unknown 0
  else if has then WRet perms_none m_ec
  else WRet perms_none 0.

(** One of the three steps [prms |= GetXPermissions(...); if (m_ec) return ProcessPermissionsFailure(...)]. *)
(** src/windows/permissions.cpp:326-377 *)
Definition permission_step (has : bool) (sec : security) (t : trustee) (attr prms : N) (k : N -> wres N) : wres N :=
  match GetTrusteePermissions sec t attr with
  | WRet p e => if e =? 0 then k (op_or width_perms prms p) else ProcessPermissionsFailure has e
  | WThrow c => WThrow c
  | WAssert => WAssert
  end.

(** permissions.cpp:327-377 GetPermissions *)
Definition GetPermissions (has : bool) (sec : security) (attr : N) : wres N :=
  match s_named sec with
  | inl last => wcapture last (fun e => wreport has perms_unknown e)
  | inr _ =>
      permission_step has sec t_owner attr perms_none (fun p1 =>
        let others p2 := permission_step has sec t_others attr p2 (fun p3 => WRet p3 0) in
        if s_same sec then others p1 else permission_step has sec t_group attr p1 others)
  end.

(** What the system answers about one path: GetFileAttributesW; CreateFileW following links and
    GetFileInformationByHandleEx on the handle; CreateFileW of the link itself and the reparse tag. *)
(** The calls of the Windows branches of status_impl and symlink_status_impl, src/fs_ops.cpp:1440-1515. *)
Record winfo := WInfo {
  w_attrs : N + N;
  w_open : N + unit; w_handle_attrs : N + N;
  w_open_link : N + unit; w_tag : N + N;
  w_security : security }.

(** fs_ops.cpp:1440-1481, 1488-1512: permissions first, then [k]. *)
Definition with_permissions (has : bool) (i : winfo) (attr : N) (k : N -> wres wstatus) : wres wstatus :=
  match GetPermissions true (w_security i) attr with
  | WRet prms e => if e =? 0 then k prms else ProcessStatusFailure has e
  | WThrow c => WThrow c
  | WAssert => WAssert
  end.

(** The calls of the Windows branches of status_impl and symlink_status_impl, src/fs_ops.cpp:1440-1515. *)
Definition directory_or_regular (attr : N) : wtype :=
  if has_attr attr FILE_ATTRIBUTE_DIRECTORY then WT ft_directory else WT ft_regular.

(** src/fs_ops.cpp:1440-1481 status_impl on Windows *)
Definition wstatus_impl (has : bool) (i : winfo) : wres wstatus :=
  match w_attrs i with
  | inl last => wcapture last (ProcessStatusFailure has)
  | inr attr =>
      let finish attr := with_permissions has i attr (fun prms => WRet (directory_or_regular attr, prms) 0) in
      if has_attr attr FILE_ATTRIBUTE_REPARSE_POINT then
        match w_open i with
        | inl last => wcapture last (ProcessStatusFailure has)
        | inr _ =>
            match w_handle_attrs i with
            | inl last => wcapture last (ProcessStatusFailure has)
            | inr attr' => finish attr'
            end
        end
      else finish attr
  end.

(** src/windows/stat.cpp:79-108 IsReparsePointSymlink *)
Definition IsReparsePointSymlink (has : bool) (i : winfo) : wres bool :=
  match w_open_link i with
  | inl last => wcapture last (wreport has false)
  | inr _ =>
      match w_tag i with
      | inl last => wcapture last (wreport has false)
      | inr tag => WRet ((tag =? IO_REPARSE_TAG_SYMLINK) || (tag =? IO_REPARSE_TAG_MOUNT_POINT)) 0
      end
  end.

(** src/fs_ops.cpp:1488-1512 symlink_status_impl on Windows *)
Definition wsymlink_status_impl (has : bool) (i : winfo) : wres wstatus :=
  match w_attrs i with
  | inl last => wcapture last (ProcessStatusFailure has)
  | inr attr =>
      with_permissions has i attr (fun prms =>
        if has_attr attr FILE_ATTRIBUTE_REPARSE_POINT then
          match IsReparsePointSymlink has i with
          | WRet true e => WRet (WT ft_symlink, prms) e
          | WRet false e => WRet (WReparse, prms) e
          | WThrow c => WThrow c
          | WAssert => WAssert
          end
        else WRet (directory_or_regular attr, prms) 0)
  end.

(** * Directory streams *)

(** WIN32_FIND_DATAW: cFileName, dwFileAttributes, dwReserved0. The path of the entry is root_ / cFileName; the name
    stands for it here. *)
Record find_data := FindData { fd_name : str; fd_attrs : N; fd_tag : N }.

(** src/fs_dir_iterator.cpp:589-606 get_file_type *)
Definition find_type (d : find_data) : wtype :=
  if has_attr (fd_attrs d) FILE_ATTRIBUTE_DIRECTORY then WT ft_directory
  else if has_attr (fd_attrs d) FILE_ATTRIBUTE_REPARSE_POINT then
    if (fd_tag d =? IO_REPARSE_TAG_SYMLINK) || (fd_tag d =? IO_REPARSE_TAG_MOUNT_POINT) then WT ft_symlink else WReparse
  else WT ft_regular.

(** src/fs_dir_iterator.cpp:656-657, 711-712 *)
Definition is_dots (d : find_data) : bool := str_eqb (fd_name d) (lit ".") || str_eqb (fd_name d) (lit "..").

(** The entry of the stream: path, cached_data_.type and cached_data_.symlink. *)
(** src/fs_dir_iterator.cpp:632-757 *)
Record went := WEnt { we_name : str; we_type : wtype; we_symlink : bool }.

(** src/fs_dir_iterator.cpp:682-690, 716-724: the entry is filled from the data; [symlink] is set and never
    cleared. *)
Definition fill_entry (old_symlink : bool) (d : find_data) : went :=
  WEnt (fd_name d) (find_type d) (old_symlink || wtype_is ft_symlink (find_type d)).

(** The stream: closed, or open with its entry and what FindNextFileW has still to deliver. *)
(** src/fs_dir_iterator.cpp:632-757 *)
Inductive wstream := WClosed | WOpen (e : went) (rest : list find_data).

(** The loop around FindNextFileW, src/fs_dir_iterator.cpp:656-662, 710-714: the next data that is not "." or "..". *)
Fixpoint next_data (l : list find_data) : option (find_data * list find_data) :=
  match l with
  | [] => None
  | d :: r => if is_dots d then next_data r else Some (d, r)
  end.

Section Stream.
(** GetLastError when FindNextFileW has nothing more to deliver. *)
Variable last : N.
(** GetLastError after FindClose, given its value before. *)
Variable after_close : N -> N.

(** src/fs_dir_iterator.cpp:644-697 DirectoryStream::DirectoryStream: the first answer of FindFirstFileW is an
    error or the first data with the rest. *)
Definition wstream_open (skip_permission_denied : bool) (first : N + (find_data * list find_data)) : wstream * N :=
  let failed e :=
    let ec := if e =? ERROR_ACCESS_DENIED then if skip_permission_denied then 0 else errc_permission_denied else e in
    (WClosed, if ec =? ERROR_NO_MORE_FILES then 0 else ec) in
  match first with
  | inl e => failed e
  | inr (d, r) =>
      match next_data (d :: r) with
      | Some (d', r') => (WOpen (fill_entry false d') r', 0)
      | None => failed (after_close last)
      end
  end.

(** src/fs_dir_iterator.cpp:709-740 DirectoryStream::advance *)
Definition wstream_advance (e : went) (rest : list find_data) : wstream * N :=
  match next_data rest with
  | Some (d, r) => (WOpen (fill_entry (we_symlink e) d) r, 0)
  | None => (WClosed, if last =? ERROR_NO_MORE_FILES then 0 else last)
  end.

(** A loop over a directory_iterator with error codes, src/fs_dir_iterator.cpp:834-868 (common to both systems): the
    entries seen and the last code. [n] bounds the number of steps. *)
Fixpoint wstream_loop (n : nat) (s : wstream) : option (list went * N) :=
  match s with
  | WClosed => Some ([], 0)
  | WOpen e rest =>
      match n with
      | O => None
      | S n' =>
          let '(s', ec) := wstream_advance e rest in
          if ec =? 0 then
            match wstream_loop n' s' with
            | Some (l, ec') => Some (e :: l, ec')
            | None => None
            end
          else Some ([e], ec)
      end
  end.

(** The loop of a caller over src/fs_dir_iterator.cpp:835-868. *)
Definition wdirectory (n : nat) (skip_permission_denied : bool) (first : N + (find_data * list find_data)) : option (list went * N) :=
  let '(s, ec) := wstream_open skip_permission_denied first in
  if ec =? 0 then wstream_loop n s else Some ([], ec).

End Stream.

(** src/fs_dir_iterator.cpp:990-999 (TryRecursion without follow_directory_symlink) on an entry of a stream, whose cache is
    BASIC: GetSymLinkFileType (lines 287-308) answers symlink if the flag is set and the type otherwise. *)
Definition wrecurses (e : went) : bool :=
  let t := if we_symlink e then WT ft_symlink else we_type e in
  negb (wtype_is ft_symlink t) && wtype_is ft_directory t.

(** * directory_entry *)

(** include/filesystem/fs_dir.h:248 *)
Inductive wcache := WEmpty | WBasic | WExtra | WFull.

(** include/filesystem/fs_dir.h:250-285; write time and the resolved flag of the permissions are left out. *)
Record wdata := WData {
  wd_cache : wcache; wd_symlink : bool; wd_type_resolved : bool; wd_extra_resolved : bool;
  wd_type : wtype; wd_nlink : N; wd_size : N; wd_perms : N }.

(** uintmax_t(-1) *)
Definition umax : N := 18446744073709551615.

(** include/filesystem/fs_dir.h:276-284 Reset *)
Definition wdata_reset : wdata := WData WEmpty false false false (WT ft_none) umax umax perms_unknown.

(** GetFileType: FILE_TYPE_CHAR, FILE_TYPE_PIPE, FILE_TYPE_DISK or another value. *)
(** src/fs_dir_iterator.cpp:78-93 *)
Inductive handle_type := H_CHAR | H_PIPE | H_DISK | H_OTHER.

(** What the system answers about the path of an entry: attributes, whether it is a symlink, the file opened
    with and without following links, GetFileInformationByHandle on it (links, size, attributes), GetFileType with the value
    of GetLastError at that moment. GetFileTime is taken to succeed. *)
(** src/fs_dir_iterator.cpp:27-101, 147-207, 222-276 *)
Record einfo := EInfo {
  e_attrs : N + N;
  e_reparse : wres bool;
  e_open_link : N + unit; e_link_info : N + (N * N);          (* size and attributes, link itself *)
  e_type : handle_type; e_type_last : N;
  e_open : N + unit; e_info : N + N;                          (* number of links, following *)
  e_security : security; e_handle_attrs : N + N }.

(** How the calls of src/fs_dir_iterator.cpp:23-285 end. *)
Definition eres := wres unit.

(** src/fs_dir_iterator.cpp:38, 40, 49, 70-92 *)
Definition set_type (t : wtype) (d : wdata) : wdata :=
  WData (wd_cache d) (wd_symlink d) (wd_type_resolved d) (wd_extra_resolved d) t (wd_nlink d) (wd_size d) (wd_perms d).
(** src/fs_dir_iterator.cpp:37 *)
Definition set_symlink (d : wdata) : wdata :=
  WData (wd_cache d) true (wd_type_resolved d) (wd_extra_resolved d) (wd_type d) (wd_nlink d) (wd_size d) (wd_perms d).
(** src/fs_dir_iterator.cpp:101, 215, 284 *)
Definition set_cache (c : wcache) (d : wdata) : wdata :=
  WData c (wd_symlink d) (wd_type_resolved d) (wd_extra_resolved d) (wd_type d) (wd_nlink d) (wd_size d) (wd_perms d).
(** src/fs_dir_iterator.cpp:97 *)
Definition set_type_resolved (d : wdata) : wdata :=
  WData (wd_cache d) (wd_symlink d) true (wd_extra_resolved d) (wd_type d) (wd_nlink d) (wd_size d) (wd_perms d).
(** src/fs_dir_iterator.cpp:166 *)
Definition set_nlink (n : N) (d : wdata) : wdata :=
  WData (wd_cache d) (wd_symlink d) (wd_type_resolved d) (wd_extra_resolved d) (wd_type d) n (wd_size d) (wd_perms d).
(** src/fs_dir_iterator.cpp:190-192, 206 *)
Definition set_size (n : N) (d : wdata) : wdata :=
  WData (wd_cache d) (wd_symlink d) (wd_type_resolved d) true (wd_type d) (wd_nlink d) n (wd_perms d).
(** src/fs_dir_iterator.cpp:242-246, 270 *)
Definition set_perms (n : N) (d : wdata) : wdata :=
  WData (wd_cache d) (wd_symlink d) (wd_type_resolved d) (wd_extra_resolved d) (wd_type d) (wd_nlink d) (wd_size d) n.

(** Result of an update: what is cached afterwards and how the call ended. *)
(** [return err.report(...)] in src/fs_dir_iterator.cpp:23-285. *)
Definition upd : Type := wdata * eres.
(** [return err.report(...)] in src/fs_dir_iterator.cpp:23-285. *)
Definition fail_with (has : bool) (d : wdata) (last : N) : upd := (d, wcapture last (fun e => wreport has tt e)).

(** src/fs_dir_iterator.cpp:23-97 UpdateBasicFileInformation on Windows. In the switch over GetFileType
    the case FILE_TYPE_DISK has no break (lines 85-86) and goes on into default. *)
Definition wUpdateBasic (has follow : bool) (i : einfo) (d : wdata) : upd :=
  match e_attrs i with
  | inl last => fail_with has d last
  | inr attr =>
      let reparse := has_attr attr FILE_ATTRIBUTE_REPARSE_POINT in
      let step1 : wdata + upd :=
        if reparse then
          match e_reparse i with
          | WRet true _ => inl (set_type (WT ft_symlink) (set_symlink d))
          | WRet false _ => inl (set_type WReparse d)
          | WThrow c => inr (d, wreport has tt c)
          | WAssert => inr (d, WAssert)
          end
        else inl d in
      match step1 with
      | inr u => u
      | inl d1 =>
          let d2 := if has_attr attr FILE_ATTRIBUTE_DIRECTORY then set_type (WT ft_directory) d1 else d1 in
          if wtype_is ft_none (wd_type d2) || (wtype_is ft_symlink (wd_type d2) && follow) then
            match e_open_link i with
            | inl last => fail_with has d2 last
            | inr _ =>
                match e_link_info i with
                | inl last => fail_with has d2 last
                | inr _ =>
                    let done d := (set_cache WBasic (if wd_symlink d then set_type_resolved d else d), WRet tt 0) in
                    if reparse then done (set_type WReparse d2)
                    else if has_attr attr FILE_ATTRIBUTE_DIRECTORY then done (set_type (WT ft_directory) d2)
                    else
                      let default d :=
                        if dbg && (e_type_last i =? 0) then (d, WAssert)
                        else if negb (e_type_last i =? 0) then (d, wreport has tt (e_type_last i))
                        else done (set_type (WT ft_unknown) d) in
                      match e_type i with
                      | H_CHAR => done (set_type (WT ft_character) d2)
                      | H_PIPE => done (set_type (WT ft_fifo) d2)
                      | H_DISK => default (set_type (WT ft_regular) d2)
                      | H_OTHER => default d2
                      end
                end
            end
          else (set_cache WBasic d2, WRet tt 0)
      end
  end.

(** src/fs_dir_iterator.cpp:143-216 UpdateExtraFileInformation on Windows. Size and write time are set for
    symlinks only; the second handle is the one of the link itself. *)
Definition wUpdateExtra (has follow : bool) (i : einfo) (d : wdata) : upd :=
  match wd_cache d, dbg with
  | WEmpty, true | WFull, true => (d, WAssert)
  | _, _ =>
      match e_open i with
      | inl last => fail_with has d last
      | inr _ =>
          match e_info i with
          | inl last => fail_with has d last
          | inr nlink =>
              let d1 := set_nlink nlink d in
              if wd_symlink d1 then
                match e_open_link i with
                | inl last => fail_with has d1 last
                | inr _ =>
                    match e_link_info i with
                    | inl last => fail_with has d1 last
                    | inr (size, attr) =>
                        if has_attr attr FILE_ATTRIBUTE_DIRECTORY then (d1, wreport has tt errc_is_a_directory)
                        else (set_cache WExtra (set_size size d1), WRet tt 0)
                    end
                end
              else (set_cache WExtra d1, WRet tt 0)
          end
      end
  end.

(** src/fs_dir_iterator.cpp:218-285 UpdatePermissionsInformation on Windows; for a symlink the second half
    is left out (the model keeps one set of permissions). *)
Definition wUpdatePermissions (has follow : bool) (i : einfo) (d : wdata) : upd :=
  match wd_cache d, dbg with
  | WEmpty, true | WBasic, true => (d, WAssert)
  | _, _ =>
      match e_open i with
      | inl last => fail_with has d last
      | inr _ =>
          match e_handle_attrs i with
          | inl last => fail_with has d last
          | inr attr =>
              match GetPermissions true (e_security i) attr with
              | WRet p e => let d1 := set_perms p d in
                            if e =? 0 then (set_cache WFull d1, WRet tt 0) else (d1, wreport has tt e)
              | WThrow c => (d, WThrow c)
              | WAssert => (d, WAssert)
              end
          end
      end
  end.

(** Code left by an update called with an error_code. *)
(** src/fs_dir_iterator.cpp:526-539 *)
Definition then_ (u : upd) (k : wdata -> upd) : upd :=
  match snd u with
  | WRet _ e => if e =? 0 then k (fst u) else u
  | _ => u
  end.

(** src/fs_dir_iterator.cpp:526-539 DoRefresh_impl on Windows *)
Definition wrefresh (i : einfo) : upd :=
  then_ (wUpdateBasic true true i wdata_reset) (fun d1 =>
  then_ (wUpdateExtra true true i d1) (fun d2 => wUpdatePermissions true true i d2)).

(** exists(file_status) *)
(** include/filesystem/fs_ops.h:238-240 *)
Definition wexists (t : wtype) : bool := negb (wtype_is ft_none t) && negb (wtype_is ft_not_found t).

(** src/fs_dir_iterator.cpp:310-337 GetFileType without an error_code *)
Definition wGetFileType (i : einfo) (d : wdata) : wdata * wres wtype :=
  let u := match wd_cache d with
           | WEmpty => wUpdateBasic false true i d
           | WBasic => if wd_type_resolved d then (d, WRet tt 0) else wUpdateBasic false true i d
           | _ => (d, WRet tt 0)
           end in
  match snd u with
  | WRet _ _ => (fst u, if wexists (wd_type (fst u)) then WRet (wd_type (fst u)) 0 else WThrow errc_no_such_file_or_directory)
  | WThrow c => (fst u, WThrow c)
  | WAssert => (fst u, WAssert)
  end.

(** src/fs_dir_iterator.cpp:339-379 GetSize without an error_code *)
Definition wGetSize (i : einfo) (d : wdata) : wdata * wres N :=
  let extra d := wUpdateExtra false true i d in
  let u :=
    match wd_cache d with
    | WEmpty =>
        let b := wUpdateBasic false true i d in
        match snd b with
        | WRet _ _ =>
            let t := wd_type (fst b) in
            if wexists t && negb (wtype_is ft_regular t)
            then (fst b, WThrow (if wtype_is ft_directory t then errc_is_a_directory else errc_not_supported))
            else extra (fst b)
        | _ => b
        end
    | WBasic => extra d
    | WExtra => if wd_extra_resolved d then (d, WRet tt 0) else extra d
    | WFull => (d, WRet tt 0)
    end in
  match snd u with
  | WRet _ _ => (fst u, WRet (wd_size (fst u)) 0)
  | WThrow c => (fst u, WThrow c)
  | WAssert => (fst u, WAssert)
  end.

End Build.
