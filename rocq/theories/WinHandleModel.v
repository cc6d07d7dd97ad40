(** The Windows branches once more, with the handles and the memory they hold. [WinOpsModel.v] and [WinStatModel.v] take the calls
    about one file together; here every call to Windows that makes, uses or releases a handle or a block of memory is a step, and the
    destructors run when a function returns or throws. The texts given to Windows are those of p.wstring(), as there; only the
    conversion of the names found in a directory is a parameter, since it may throw. *)
From Coq Require Import Ascii String Bool NArith ZArith List.
From Verif Require Import Str PathModel FlagsModel TimeModel WinPermsModel WinAclModel WinStatModel WinOpsModel.
Import ListNotations.
Local Open Scope N_scope.

(** A handle of a file or of a search, [None] for INVALID_HANDLE_VALUE (src/fs_portability.h:259, src/windows/file.cpp:18-19). *)
Definition whandle : Type := option N.

(** The calls. [h_Plain] is a call of WinOpsModel.v that involves no handle. CreateFileW: access, sharing and flags; the disposition is
    OPEN_EXISTING everywhere. [h_SetEntries] reads the entries from the blocks MakeAce made and the identifiers from the descriptor.
    src/fs_portability.h:279-317, src/fs_ops.cpp:852-1481, src/windows/stat.cpp:79-146, src/windows/permissions.cpp:207-632,
    src/fs_dir_iterator.cpp:23-285, 632-757 *)
Inductive hcall :=
| h_CreateFile (p : str) (access share flags : N)
| h_CloseHandle (h : N)
| h_Information (h : whandle)
| h_AttributeTag (h : whandle)
| h_DeviceIoControl (h : whandle)
| h_GetFileTime (h : whandle)
| h_SetFileTime (h : whandle) (t : N)
| h_SetFilePointer (h : whandle) (pos : Z)
| h_SetEndOfFile (h : whandle)
| h_GetFileType (h : whandle)
| h_FindFirst (pattern : str)
| h_FindNext (h : whandle)
| h_FindClose (h : whandle)
| h_NamedSecurity (p : str)
| h_EqualSid (descriptor : N)
| h_EffectiveRights (descriptor : N) (t : trustee)
| h_LocalAlloc
| h_LocalFree (block : N)
| h_SetEntries (descriptor : N) (blocks : list N) (l : list ace)
| h_SetNamedSecurity (p : str) (acl : N)
| h_Plain (c : wcall).

(** What they answer: as in WinOpsModel.v [inl e] is a failure with the value of GetLastError afterwards, or with the code itself for
    those that return it. FindClose answers the value of GetLastError afterwards; GetFileType also tells that value.
    src/fs_portability.h:279-317, src/fs_ops.cpp:852-1481, src/windows/stat.cpp:79-146, src/windows/permissions.cpp:207-632 *)
Definition hanswer (c : hcall) : Type :=
  match c with
  | h_CreateFile _ _ _ _ => N + N
  | h_CloseHandle _ => unit
  | h_Information _ => N + (handle_info * N)           (* with the attributes *)
  | h_AttributeTag _ => N + N
  | h_DeviceIoControl _ => N + reparse_data
  | h_GetFileTime _ => N + N
  | h_SetFileTime _ _ => N + unit
  | h_SetFilePointer _ _ => N + unit
  | h_SetEndOfFile _ => N + unit
  | h_GetFileType _ => handle_type * N
  | h_FindFirst _ => N + (N * find_data)
  | h_FindNext _ => N + find_data
  | h_FindClose _ => N
  | h_NamedSecurity _ => N + N
  | h_EqualSid _ => bool
  | h_EffectiveRights _ _ => (N * N) + N
  | h_LocalAlloc => N + N
  | h_LocalFree _ => unit
  | h_SetEntries _ _ _ => N + N
  | h_SetNamedSecurity _ _ => N + unit
  | h_Plain c => wanswer c
  end.

(** Not in the repository: the meaning of a function that makes such calls; the ends are those of WinOpsModel.v
    (src/fs_ops.cpp:1-1655). *)
Inductive hprog (A : Type) := HEnd (r : wend A) | HSys (c : hcall) (k : hanswer c -> hprog A).
Arguments HEnd {A}. Arguments HSys {A}.

(** Not in the repository: the meaning of a function that makes such calls (src/fs_ops.cpp:1-1655). *)
Definition hkernel (S : Type) := forall c : hcall, S -> hanswer c * S.
(** Not in the repository: the meaning of a function that makes such calls (src/fs_ops.cpp:1-1655). *)
Fixpoint hrun {A S} (h : hkernel S) (p : hprog A) (s : S) : wend A * S :=
  match p with
  | HEnd r => (r, s)
  | HSys c k => let '(r, s') := h c s in hrun h (k r) s'
  end.

(** A call to a function of the library that returned, with its value and the content of *ec (src/fs_ops.cpp:1-1655). *)
Fixpoint hbind {A B} (p : hprog A) (f : A -> N -> hprog B) : hprog B :=
  match p with
  | HEnd (WE (WRet a e)) => f a e
  | HEnd (WE (WThrow c)) => HEnd (WE (WThrow c))
  | HEnd (WE WAssert) => HEnd (WE WAssert)
  | HEnd WExn => HEnd WExn
  | HEnd WStop => HEnd WStop
  | HEnd WFuel => HEnd WFuel
  | HSys c k => HSys c (fun r => hbind (k r) f)
  end.

(** Does the end run the destructors: the function returns, throws filesystem_error or lets another exception pass. A failed assertion
    ends the program (src/fs_portability.h:273, src/windows/permissions.cpp:347, 438). *)
Definition leaves {A} (r : wend A) : bool :=
  match r with WE (WRet _ _) | WE (WThrow _) | WExn => true | _ => false end.
(** The same for exceptions only (src/fs_dir_iterator.cpp:699-704). *)
Definition throws {A} (r : wend A) : bool :=
  match r with WE (WThrow _) | WExn => true | _ => false end.

(** A local object whose destructor makes the call [c]: FileDescriptor (src/fs_portability.h:273, 309-317), std::unique_ptr with LocalFree
    (src/windows/permissions.cpp:347, 438, 442, 623). *)
Fixpoint hscope {A} (c : hcall) (p : hprog A) : hprog A :=
  match p with
  | HEnd r => if leaves r then HSys c (fun _ => HEnd r) else HEnd r
  | HSys c' k => HSys c' (fun x => hscope c (k x))
  end.

(** A local directory_iterator while [p] runs: its destructor makes the calls [cs] if [p] throws (src/fs_ops.cpp:1000, 276, 1300;
    src/fs_dir_iterator.cpp:699-704). *)
Fixpoint hcalls {A} (cs : list hcall) (r : wend A) : hprog A :=
  match cs with [] => HEnd r | c :: l => HSys c (fun _ => hcalls l r) end.
(** src/fs_ops.cpp:1000, 276, 1300 *)
Fixpoint hunwind {A} (cs : list hcall) (p : hprog A) : hprog A :=
  match p with
  | HEnd r => if throws r then hcalls cs r else HEnd r
  | HSys c' k => HSys c' (fun x => hunwind cs (k x))
  end.

(** Several such objects, the first destroyed first (src/fs_dir_iterator.cpp:699-704). *)
Definition hscopes {A} (cs : list hcall) (p : hprog A) : hprog A := fold_right (fun c q => hscope c q) p (rev cs).

(** try { p } catch (filesystem_error const &ex) { f(ex.code()) }, src/fs_dir_iterator.cpp:35-45. *)
Fixpoint hcatch {A} (p : hprog A) (f : N -> hprog A) : hprog A :=
  match p with
  | HEnd (WE (WThrow c)) => f c
  | HEnd r => HEnd r
  | HSys c' k => HSys c' (fun x => hcatch (k x) f)
  end.

(** Results of class path inside an operation, e.g. src/fs_ops.cpp:229, 290. *)
Definition hlift {A B} (x : out A) (f : A -> hprog B) : hprog B :=
  match x with Ok a => f a | Throw _ => HEnd WExn | AssertFail | UB => HEnd WStop end.

(** winnt.h and winbase.h; used at src/fs_ops.cpp:857-1460, src/windows/stat.cpp:83-122, src/fs_dir_iterator.cpp:57-260: sharing and flags. *)
Definition share_all : N := 7.
(** winbase.h; used at src/fs_ops.cpp:857-1460, src/windows/stat.cpp:83-122, src/fs_dir_iterator.cpp:57-260. *)
Definition FILE_FLAG_BACKUP_SEMANTICS : N := 33554432.
(** winbase.h; used at src/windows/stat.cpp:86, 119, src/fs_dir_iterator.cpp:60, 175, 259. *)
Definition FILE_FLAG_OPEN_REPARSE_POINT : N := 2097152.
(** winnt.h; used at src/fs_ops.cpp:1360. *)
Definition FILE_ATTRIBUTE_NORMAL : N := 128.
(** winnt.h; used at src/fs_ops.cpp:1089. *)
Definition FILE_WRITE_ATTRIBUTES : N := 256.
(** src/windows/stat.cpp:86, 119, src/fs_dir_iterator.cpp:60, 175, 259 *)
Definition link_itself : N := N.lor FILE_FLAG_BACKUP_SEMANTICS FILE_FLAG_OPEN_REPARSE_POINT.

Section Build.
(** Assertions compiled in; copy elision; the meaning of signed overflow; ticks of system_clock per second. *)
Variable dbg : bool.
Variable E : elision.
Variable m : signed_mode.
Variable tps : Z.

(** [return v], src/fs_ops.cpp:1-1655. *)
Definition hret {A} (a : A) (ec : N) : hprog A := HEnd (WE (WRet a ec)).
(** src/fs_error.h:102-118 report as the end of a function. *)
Definition hbad {A} (has : bool) (v : A) (code : N) : hprog A := HEnd (WE (wreport has v code)).
(** capture_errno, src/fs_error.h:34-43: an assertion if there is no error. *)
Definition hcapture {A} (last : N) (k : N -> hprog A) : hprog A := if dbg && (last =? 0) then HEnd (WE WAssert) else k last.
(** report(capture_errno()), src/fs_error.h:34-43, 102-118. *)
Definition hfail {A} (has : bool) (v : A) (last : N) : hprog A := hcapture last (hbad has v).

(** FileDescriptor::Create and the object it makes, src/fs_portability.h:262-317, with the test of the code that follows each call
    of it. If CreateFileW fails without an error the code is clear and the function goes on with an invalid handle, which is not
    closed. *)
Definition with_file {A} (p : path) (access share flags : N) (bad : N -> hprog A) (body : whandle -> hprog A) : hprog A :=
  HSys (h_CreateFile (native p) access share flags) (fun r =>
  match r with
  | inl last => hcapture last (fun e => if e =? 0 then body None else bad e)
  | inr h => hscope (h_CloseHandle h) (body (Some h))
  end).

(** * status, symlink_status, permissions *)

(** src/windows/permissions.cpp:207-245, 247-285, 287-324 with the tests at 356-359, 364-367, 372-375. *)
Definition hpermission_step (has : bool) (d : N) (t : trustee) (attr prms : N) (k : N -> hprog N) : hprog N :=
  HSys (h_EffectiveRights d t) (fun r =>
  match GetTrusteePermissions dbg (Security (inr tt) false (fun _ => r)) t attr with
  | WRet p e => if e =? 0 then k (op_or width_perms prms p) else HEnd (WE (ProcessPermissionsFailure has e))
  | WThrow c => HEnd (WE (WThrow c))
  | WAssert => HEnd (WE WAssert)
  end).

(** src/windows/permissions.cpp:327-377 GetPermissions; the descriptor is freed at the end. *)
Definition hGetPermissions (has : bool) (p : path) (attr : N) : hprog N :=
  HSys (h_NamedSecurity (native p)) (fun r =>
  match r with
  | inl last => hfail has perms_unknown last
  | inr d =>
      hscope (h_LocalFree d)
        (hpermission_step has d t_owner attr perms_none (fun p1 =>
         let others p2 := hpermission_step has d t_others attr p2 (fun p3 => hret p3 0) in
         HSys (h_EqualSid d) (fun same => if same then others p1 else hpermission_step has d t_group attr p1 others)))
  end).

(** src/fs_ops.cpp:1474-1481, 1499-1502 *)
Definition hwith_permissions (has : bool) (p : path) (attr : N) (k : N -> hprog wstatus) : hprog wstatus :=
  hbind (hGetPermissions true p attr) (fun prms e =>
    if e =? 0 then k prms else HEnd (WE (ProcessStatusFailure has e))).

(** src/fs_ops.cpp:1440-1481 status_impl. The handle is closed before the permissions are asked for. *)
Definition hstatus (has : bool) (p : path) : hprog wstatus :=
  HSys (h_Plain (w_Attributes (native p))) (fun a : N + N =>
  match a with
  | inl last => hcapture last (fun e => HEnd (WE (ProcessStatusFailure has e)))
  | inr attrs =>
      hbind (if has_attr attrs FILE_ATTRIBUTE_REPARSE_POINT
             then with_file p 0 share_all FILE_FLAG_BACKUP_SEMANTICS (fun e => hret (inl e) 0) (fun h =>
                    HSys (h_AttributeTag h) (fun r =>
                    match r with inl last => hcapture last (fun e => hret (inl e) 0) | inr attrs' => hret (inr attrs') 0 end))
             else hret (inr attrs) 0) (fun r _ =>
      match r with
      | inl e => HEnd (WE (ProcessStatusFailure has e))
      | inr attr => hwith_permissions has p attr (fun prms => hret (directory_or_regular attr, prms) 0)
      end)
  end).

(** src/windows/stat.cpp:79-108 IsReparsePointSymlink *)
Definition hIsReparsePointSymlink (has : bool) (p : path) : hprog bool :=
  with_file p FILE_READ_EA share_all link_itself (hbad has false) (fun h =>
  HSys (h_DeviceIoControl h) (fun r =>
  match r with
  | inl last => hfail has false last
  | inr d => hret ((rp_tag d =? IO_REPARSE_TAG_SYMLINK) || (rp_tag d =? IO_REPARSE_TAG_MOUNT_POINT)) 0
  end)).

(** src/fs_ops.cpp:1488-1512 symlink_status_impl *)
Definition hsymlink_status (has : bool) (p : path) : hprog wstatus :=
  HSys (h_Plain (w_Attributes (native p))) (fun a : N + N =>
  match a with
  | inl last => hcapture last (fun e => HEnd (WE (ProcessStatusFailure has e)))
  | inr attr =>
      hwith_permissions has p attr (fun prms =>
        if has_attr attr FILE_ATTRIBUTE_REPARSE_POINT
        then hbind (hIsReparsePointSymlink has p) (fun l e => hret (if l then WT ft_symlink else WReparse, prms) e)
        else hret (directory_or_regular attr, prms) 0)
  end).

(** src/windows/permissions.cpp:379-418 MakeAce for the entries wanted, each kept in the list aces (446-606) until the end of
    SetPermissions. *)
Fixpoint hmake_aces (has : bool) (todo : list ace) (blocks : list N) (k : list N -> hprog unit) : hprog unit :=
  match todo with
  | [] => k blocks
  | _ :: rest =>
      HSys h_LocalAlloc (fun b =>
      match b with
      | inl last => hfail has tt last
      | inr b => hscope (h_LocalFree b) (hmake_aces has rest (b :: blocks) k)
      end)
  end.

(** src/windows/permissions.cpp:420-632 SetPermissions. The entries are those of WinAclModel.v, made in the reverse of their order in the
    list; EqualSid is asked before the first one is made instead of after it. *)
Definition hSetPermissions (has : bool) (p : path) (prms : N) : hprog unit :=
  HSys (h_NamedSecurity (native p)) (fun r =>
  match r with
  | inl code => hbad has tt code
  | inr d =>
      hscope (h_LocalFree d)
        (HSys (h_EqualSid d) (fun same =>
         let entries := explicit_entries 0 (if same then 0 else 1) prms in
         hmake_aces has (rev entries) [] (fun blocks =>
         HSys (h_SetEntries d blocks entries) (fun r =>
         match r with
         | inl code => hbad has tt code
         | inr acl =>
             hscope (h_LocalFree acl)
               (HSys (h_SetNamedSecurity (native p) acl) (fun r : N + unit =>
                match r with inl code => hbad has tt code | inr _ => hret tt 0 end))
         end))))
  end).

(** src/fs_ops.cpp:1155-1192 permissions_impl on Windows. *)
Definition hpermissions (has : bool) (p : path) (prms opts : N) : hprog unit :=
  let opt o := negb (op_and width_perm_options (popt_value o) opts =? 0) in
  let add := opt po_add in
  let remove := opt po_remove in
  let one := Nat.eqb ((if add then 1 else 0) + (if remove then 1 else 0) + (if opt po_replace then 1 else 0)) 1 in
  if dbg && negb one then HEnd (WE WAssert)
  else
    let masked := op_and width_perms prms perms_mask in
    hbind (if opt po_nofollow || (add || remove)
           then hbind (if opt po_nofollow then hsymlink_status true p else hstatus true p) (fun st e =>
                if negb (e =? 0) then hret (inl e) 0
                else if dbg && (snd st =? perms_unknown) then HEnd (WE WAssert)
                else if add then hret (inr (op_or width_perms masked (snd st))) 0
                else if remove then hret (inr (op_and width_perms (snd st) (op_not width_perms masked))) 0
                else hret (inr masked) 0)
           else hret (inr masked) 0) (fun r _ =>
    match r with
    | inl e => hbad has tt e
    | inr prms' => hbind (hSetPermissions true p prms') (fun _ e => if negb (e =? 0) then hbad has tt e else hret tt 0)
    end).

(** * Operations that open files *)

(** src/windows/stat.cpp:110-146 ReadSymlinkFromReparsePoint and src/fs_ops.cpp:1214-1216 read_symlink_impl *)
Definition hread_symlink (has : bool) (p : path) : hprog path :=
  with_file p FILE_READ_EA share_all link_itself (hbad has path_default) (fun h =>
  HSys (h_DeviceIoControl h) (fun r =>
  match r with inl last => hfail has path_default last | inr d => hret (wpath (print_name d)) 0 end)).

(** src/fs_ops.cpp:852-904 equivalent_impl: both files are opened before the first is asked for its data. The test for invalid handles at
    869-879 concerns CreateFileW failing without an error. *)
Definition hequivalent (has : bool) (p1 p2 : path) : hprog bool :=
  with_file p1 0 share_all FILE_FLAG_BACKUP_SEMANTICS (hbad has false) (fun h1 =>
  with_file p2 0 share_all FILE_FLAG_BACKUP_SEMANTICS (hbad has false) (fun h2 =>
  match h1, h2 with
  | None, None => hbad has false errc_not_supported
  | None, Some _ | Some _, None => hret false 0
  | _, _ =>
      HSys (h_Information h1) (fun r1 =>
      match r1 with
      | inl last => hfail has false last
      | inr (a, _) =>
          HSys (h_Information h2) (fun r2 =>
          match r2 with
          | inl last => hfail has false last
          | inr (b, _) =>
              hret ((hi_volume a =? hi_volume b) && (hi_index a =? hi_index b) && (hi_size a =? hi_size b) && (hi_time a =? hi_time b)) 0
          end)
      end)
  end)).

(** src/fs_ops.cpp:968-985 hard_link_count_impl *)
Definition hhard_link_count (has : bool) (p : path) : hprog N :=
  with_file p 0 share_all FILE_FLAG_BACKUP_SEMANTICS (hbad has umax) (fun h =>
  HSys (h_Information h) (fun r =>
  match r with inl last => hfail has umax last | inr (i, _) => hret (hi_links i) 0 end)).

(** src/fs_ops.cpp:1051-1069 last_write_time_impl(p, ec) *)
Definition hlast_write_time (has : bool) (p : path) : hprog Z :=
  with_file p FILE_READ_ATTRIBUTES share_all FILE_FLAG_BACKUP_SEMANTICS (hbad has i64_min) (fun h =>
  HSys (h_GetFileTime h) (fun r =>
  match r with
  | inl last => hfail has i64_min last
  | inr q => hlift (FileTimeTypeFromWindowsFileTime m tps (Z.of_N q)) (fun t => hret t 0)
  end)).

(** src/fs_ops.cpp:1081-1103 last_write_time_impl(p, t, ec): the file is opened before the time is converted. *)
Definition hset_last_write_time (has : bool) (p : path) (t : Z) : hprog unit :=
  with_file p FILE_WRITE_ATTRIBUTES share_all FILE_FLAG_BACKUP_SEMANTICS (hbad has tt) (fun h =>
  hlift (FileTimeTypeToWindowsFileTime m tps t) (fun o =>
  match o with
  | None => hbad has tt errc_invalid_argument
  | Some q => HSys (h_SetFileTime h (Z.to_N q)) (fun r : N + unit => match r with inl last => hfail has tt last | inr _ => hret tt 0 end)
  end)).

(** src/fs_ops.cpp:1354-1372 resize_file_impl *)
Definition hresize_file (has : bool) (p : path) (size : N) : hprog unit :=
  with_file p (N.lor GENERIC_READ GENERIC_WRITE) 0 FILE_ATTRIBUTE_NORMAL (hbad has tt) (fun h =>
  HSys (h_SetFilePointer h (wrap64 (Z.of_N size))) (fun r : N + unit =>
  match r with
  | inl last => hfail has tt last
  | inr _ => HSys (h_SetEndOfFile h) (fun r : N + unit => match r with inl last => hfail has tt last | inr _ => hret tt 0 end)
  end)).

(** * directory_entry *)

(** [return err.report(...)] in src/fs_dir_iterator.cpp:23-285: what is cached then, and how the function ends, as one value. *)
Definition hupd (u : upd) : hprog upd := HEnd (WE (WRet u 0)).
(** report(capture_errno()) there. *)
Definition hupd_fail (has : bool) (d : wdata) (last : N) : hprog upd := hcapture last (fun e => hupd (d, wreport has tt e)).

(** src/fs_dir_iterator.cpp:23-101 UpdateBasicFileInformation *)
Definition hUpdateBasic (has follow : bool) (p : path) (d : wdata) : hprog upd :=
  HSys (h_Plain (w_Attributes (native p))) (fun a : N + N =>
  match a with
  | inl last => hupd_fail has d last
  | inr attr =>
      let reparse := has_attr attr FILE_ATTRIBUTE_REPARSE_POINT in
      let directory := has_attr attr FILE_ATTRIBUTE_DIRECTORY in
      hbind (if reparse
             then hcatch (hbind (hIsReparsePointSymlink false p) (fun l _ =>
                           hret (inl (if l then set_type (WT ft_symlink) (set_symlink d) else set_type WReparse d)) 0))
                         (fun c => hret (inr (d, wreport has tt c)) 0)
             else hret (inl d) 0) (fun step _ =>
      match step with
      | inr u => hupd u
      | inl d1 =>
          let d2 := if directory then set_type (WT ft_directory) d1 else d1 in
          if wtype_is ft_none (wd_type d2) || (wtype_is ft_symlink (wd_type d2) && follow) then
            with_file p 0 share_all link_itself (fun e => hupd (d2, wreport has tt e)) (fun h =>
            HSys (h_Information h) (fun r =>
            match r with
            | inl last => hupd_fail has d2 last
            | inr _ =>
                let done d := hupd (set_cache WBasic (if wd_symlink d then set_type_resolved d else d), WRet tt 0) in
                if reparse then done (set_type WReparse d2)
                else if directory then done (set_type (WT ft_directory) d2)
                else
                  HSys (h_GetFileType h) (fun t =>
                  let default d :=
                    hcapture (snd t) (fun e => if negb (e =? 0) then hupd (d, wreport has tt e) else done (set_type (WT ft_unknown) d)) in
                  match fst t with
                  | H_CHAR => done (set_type (WT ft_character) d2)
                  | H_PIPE => done (set_type (WT ft_fifo) d2)
                  | H_DISK => default (set_type (WT ft_regular) d2)
                  | H_OTHER => default d2
                  end)
            end))
          else hupd (set_cache WBasic d2, WRet tt 0)
      end)
  end).

(** src/fs_dir_iterator.cpp:143-216 UpdateExtraFileInformation: two blocks, each with its own handle. The write time is converted but not
    kept (WinStatModel.v). *)
Definition hUpdateExtra (has follow : bool) (p : path) (d : wdata) : hprog upd :=
  match wd_cache d, dbg with
  | WEmpty, true | WFull, true => HEnd (WE WAssert)
  | _, _ =>
      hbind (with_file p 0 share_all FILE_FLAG_BACKUP_SEMANTICS (fun e => hret (inr (d, wreport has tt e)) 0) (fun h =>
             HSys (h_Information h) (fun r =>
             match r with
             | inl last => hcapture last (fun e => hret (inr (d, wreport has tt e)) 0)
             | inr (i, _) => hret (inl (set_nlink (hi_links i) d)) 0
             end))) (fun step _ =>
      match step with
      | inr u => hupd u
      | inl d1 =>
          if wd_symlink d1 then
            with_file p 0 share_all link_itself (fun e => hupd (d1, wreport has tt e)) (fun h =>
            HSys (h_Information h) (fun r =>
            match r with
            | inl last => hupd_fail has d1 last
            | inr (i, attr) =>
                if has_attr attr FILE_ATTRIBUTE_DIRECTORY then hupd (d1, wreport has tt errc_is_a_directory)
                else
                  HSys (h_GetFileTime h) (fun r =>
                  match r with
                  | inl last => hupd_fail has d1 last
                  | inr q => hlift (FileTimeTypeFromWindowsFileTime m tps (Z.of_N q)) (fun _ =>
                               hupd (set_cache WExtra (set_size (hi_size i) d1), WRet tt 0))
                  end)
            end))
          else hupd (set_cache WExtra d1, WRet tt 0)
      end)
  end.

(** One of the two blocks of UpdatePermissionsInformation, src/fs_dir_iterator.cpp:227-251, 255-275: the handle stays open while the permissions
    are asked for. *)
Definition hpermission_block (has : bool) (p : path) (flags : N) (d : wdata) : hprog (wdata + upd) :=
  with_file p 0 share_all flags (fun e => hret (inr (d, wreport has tt e)) 0) (fun h =>
  HSys (h_AttributeTag h) (fun r =>
  match r with
  | inl last => hcapture last (fun e => hret (inr (d, wreport has tt e)) 0)
  | inr attr =>
      hbind (hGetPermissions true p attr) (fun prms e =>
        if e =? 0 then hret (inl (set_perms prms d)) 0 else hret (inr (set_perms prms d, wreport has tt e)) 0)
  end)).
(** src/fs_dir_iterator.cpp:218-285 UpdatePermissionsInformation (the model keeps one set of permissions, WinStatModel.v). *)
Definition hUpdatePermissions (has follow : bool) (p : path) (d : wdata) : hprog upd :=
  match wd_cache d, dbg with
  | WEmpty, true | WBasic, true => HEnd (WE WAssert)
  | _, _ =>
      hbind (hpermission_block has p FILE_FLAG_BACKUP_SEMANTICS d) (fun step _ =>
      match step with
      | inr u => hupd u
      | inl d1 =>
          if wd_symlink d1 && follow then
            hbind (hpermission_block has p link_itself d1) (fun step2 _ =>
            match step2 with inr u => hupd u | inl d2 => hupd (set_cache WFull d2, WRet tt 0) end)
          else hupd (set_cache WFull d1, WRet tt 0)
      end)
  end.

(** src/fs_dir_iterator.cpp:526-539 DoRefresh_impl *)
Definition hthen (q : hprog upd) (k : wdata -> hprog upd) : hprog upd :=
  hbind q (fun u _ => match snd u with WRet _ e => if e =? 0 then k (fst u) else hupd u | _ => hupd u end).
(** src/fs_dir_iterator.cpp:526-539 DoRefresh_impl *)
Definition hrefresh (p : path) : hprog upd :=
  hthen (hUpdateBasic true true p wdata_reset) (fun d1 =>
  hthen (hUpdateExtra true true p d1) (fun d2 => hUpdatePermissions true true p d2)).

(** * Directory streams *)

(** The conversion of a file name to the text of a path by nowide (not in /repo); [None] if it throws. Used at
    src/fs_dir_iterator.cpp:682, 716. *)
Variable narrow : str -> option str.

(** class DirectoryStream, src/fs_dir_iterator.cpp:632-757: stream_, root_, and path_ and cached_data_ of entry_. *)
Record hstream := HStream { hs_handle : whandle; hs_root : path; hs_path : path; hs_data : wdata }.

(** src/fs_dir_iterator.cpp:646-652: what to search for. *)
Definition find_pattern (p : str) : str :=
  match rev p with
  | c :: _ => if (Ascii.eqb c backslash || Ascii.eqb c slash || Ascii.eqb c colon)%bool then p ++ lit "*" else p ++ [backslash; "*"%char]
  | [] => [backslash; "*"%char]
  end.

(** The stream without a handle (src/fs_dir_iterator.cpp:645, 747). *)
Definition hclosed (s : hstream) : hstream := HStream None (hs_root s) (hs_path s) (hs_data s).

(** src/fs_dir_iterator.cpp:682-690, 716-724: entry_ is filled. *)
Definition hfill (s : hstream) (d : find_data) : hprog hstream :=
  match narrow (fd_name d) with
  | None => HEnd WExn
  | Some t =>
      hlift (path_div Windows E (hs_root s) (wpath t)) (fun q =>
      let t := find_type d in
      let e := set_type t (hs_data s) in
      hret (HStream (hs_handle s) (hs_root s) q (set_cache WBasic (if wtype_is ft_symlink t then set_symlink e else e))) 0)
  end.

(** src/fs_dir_iterator.cpp:664-680: the code of the constructor when there is no handle. *)
Definition open_code (skip_permission_denied : bool) (e : N) : N :=
  let ec := if e =? ERROR_ACCESS_DENIED then if skip_permission_denied then 0 else errc_permission_denied else e in
  if ec =? ERROR_NO_MORE_FILES then 0 else ec.

(** src/fs_dir_iterator.cpp:655-663: "." and ".." are skipped; the first data that is neither or the failure of FindNextFileW. *)
Fixpoint hskip (n : nat) (h : N) (d : find_data) : hprog (N + find_data) :=
  match n with
  | O => HEnd WFuel
  | S n' =>
      if is_dots d then HSys (h_FindNext (Some h)) (fun r => match r with inl last => hret (inl last) 0 | inr d' => hskip n' h d' end)
      else hret (inr d) 0
  end.

(** src/fs_dir_iterator.cpp:644-697 DirectoryStream::DirectoryStream: the stream and the code. The object is not complete before the end of
    the constructor: an exception does not run its destructor. *)
Definition hstream_open (n : nat) (skip_permission_denied : bool) (root : path) : hprog hstream :=
  let s0 := HStream None root path_default wdata_reset in
  HSys (h_FindFirst (find_pattern (native root))) (fun r =>
  match r with
  | inl last => hret s0 (open_code skip_permission_denied last)
  | inr (h, d) =>
      hbind (hskip n h d) (fun x _ =>
      match x with
      | inl _ => HSys (h_FindClose (Some h)) (fun last => hret s0 (open_code skip_permission_denied last))
      | inr d' => hfill (HStream (Some h) root path_default wdata_reset) d'
      end)
  end).

(** src/fs_dir_iterator.cpp:709-740 DirectoryStream::advance: found, and the stream. *)
Fixpoint hadvance (n : nat) (s : hstream) : hprog (bool * hstream) :=
  match n with
  | O => HEnd WFuel
  | S n' =>
      HSys (h_FindNext (hs_handle s)) (fun r =>
      match r with
      | inl last => HSys (h_FindClose (hs_handle s)) (fun _ => hret (false, hclosed s) (if last =? ERROR_NO_MORE_FILES then 0 else last))
      | inr d => if is_dots d then hadvance n' s else hbind (hfill s d) (fun s' _ => hret (true, s') 0)
      end)
  end.

(** src/fs_dir_iterator.cpp:699-704 the destructor: the calls it makes. *)
Definition closing (s : hstream) : list hcall := match hs_handle s with Some h => [h_FindClose (Some h)] | None => [] end.
(** src/fs_dir_iterator.cpp:699-704 *)
Definition hdestroy (s : hstream) : hprog unit := hcalls (closing s) (WE (WRet tt 0)).

(** A directory_iterator that is not shared: none for the end (fs_dir.h:471). *)
Definition hiter : Type := option hstream.
(** fs_dir.h:437 the destructor: the calls it makes. *)
Definition iter_closing (it : hiter) : list hcall := match it with Some s => closing s | None => [] end.

(** src/fs_dir_iterator.cpp:835-850 *)
Definition hiter_new (n : nat) (has : bool) (p : path) (skip_permission_denied : bool) : hprog hiter :=
  hbind (hstream_open n skip_permission_denied p) (fun s m_ec =>
  match hs_handle s with
  | Some _ => hret (Some s) (if has then m_ec else 0)
  | None => if m_ec =? 0 then hret None 0 else hbad has None m_ec
  end).

(** src/fs_dir_iterator.cpp:852-868 do_increment *)
Definition hiter_increment (n : nat) (has : bool) (it : hiter) : hprog hiter :=
  match it with
  | None => hbad has None errc_invalid_argument
  | Some s =>
      hbind (hadvance n s) (fun r m_ec =>
      let '(found, s') := r in
      if found then hret (Some s') 0
      else hbind (hdestroy s') (fun _ _ => if m_ec =? 0 then hret None 0 else hbad has None m_ec))
  end.
(** fs_dir.h:437 *)
Definition hiter_destroy (it : hiter) : hprog unit := hcalls (iter_closing it) (WE (WRet tt 0)).

(** src/fs_ops.cpp:997-1020 is_empty_impl *)
Definition his_empty (n : nat) (has : bool) (p : path) : hprog bool :=
  HSys (h_Plain (w_AttributesEx (native p))) (fun r : N + (N * N) =>
  match r with
  | inl last => hfail has false last
  | inr (attrs, size) =>
      if has_attr attrs FILE_ATTRIBUTE_DIRECTORY then
        hbind (hiter_new n has p false) (fun it ec =>
        hbind (hiter_destroy it) (fun _ _ =>
        if negb (ec =? 0) then hret false ec else hret (match it with None => true | Some _ => false end) 0))
      else hret (size =? 0) 0
  end).

(** src/fs_ops.cpp:1300-1308: the loop over the entries of a local iterator; [f] is the call for an entry, [k] bounds the loop. The result is
    [None] for a return out of the loop. *)
Fixpoint hremove_entries (f : path -> hprog N) (k n : nat) (it : hiter) (ec count : N) : hprog (option N) :=
  match k with
  | O => HEnd WFuel
  | S k' =>
      match it with
      | Some s =>
          if negb (ec =? 0) then hbind (hdestroy s) (fun _ _ => hret (Some count) ec)
          else
            hbind (hunwind (closing s) (f (hs_path s))) (fun c e =>
            if negb (e =? 0) then hbind (hdestroy s) (fun _ _ => hret None e)
            else hbind (hunwind (closing s) (hiter_increment n true it)) (fun it' e' =>
                 hremove_entries f k' n it' e' ((count + c) mod 2 ^ 64)))
      | None => hret (Some count) ec
      end
  end.

(** src/fs_ops.cpp:1240-1284 remove_impl holds no handle: the calls of WinOpsModel.v as they are. *)
Fixpoint hplain {A} (p : wprog A) : hprog A :=
  match p with WEnd r => HEnd r | WSys c k => HSys (h_Plain c) (fun r => hplain (k r)) end.

(** src/fs_ops.cpp:1292-1316 do_remove_all_impl; [n] bounds the depth, the entries of a directory and the data skipped. *)
Fixpoint hdo_remove_all (n : nat) (p : path) : hprog N :=
  match n with
  | O => HEnd WFuel
  | S n' =>
      hbind (hsymlink_status true p) (fun st e =>
      if negb (e =? 0) then hret umax e
      else
        let finish count := hbind (hplain (wremove dbg true p)) (fun b e2 => if b then hret count e2 else hret umax e2) in
        if wis ft_directory st then
          hbind (hiter_new n' true p false) (fun it ec =>
          hbind (hremove_entries (hdo_remove_all n') n' n' it ec 1) (fun r e1 =>
          match r with
          | None => hret umax e1
          | Some count => if negb (e1 =? 0) then hret umax e1 else finish count
          end))
        else finish 1)
  end.

(** src/fs_ops.cpp:1320-1337 remove_all_impl *)
Definition hremove_all (n : nat) (has : bool) (p : path) : hprog N :=
  if empty p then hret 0 0
  else
    hbind (hdo_remove_all n p) (fun count mec =>
      if negb (mec =? 0) then
        if mec =? errc_no_such_file_or_directory then hret 0 0 else hbad has umax mec
      else hret count 0).

(** src/fs_ops.cpp:418-489 copy_file_impl, as in WinOpsModel.v with the handles of status_impl, equivalent_impl and last_write_time_impl. *)
Definition hcopy_file (has : bool) (from to : path) (options : N) : hprog bool :=
  hbind (hstatus true from) (fun from_st e1 =>
  if negb (e1 =? 0) then hbad has false e1
  else if negb (wis ft_regular from_st) then hbad has false errc_not_supported
  else
    hbind (hstatus true to) (fun to_st e2 =>
    if negb (wknown to_st) then hbad has false e2
    else
      let to_exists := wexists (fst to_st) in
      if to_exists && negb (wis ft_regular to_st) then hbad has false errc_not_supported
      else
        hbind (if to_exists then hequivalent true from to else hret false e2) (fun same e3 =>
        if same then hbad has false (if negb (e3 =? 0) then errc_invalid_argument else errc_file_exists)
        else if to_exists && wopt co_skip_existing options then hret false 0
        else
          let copy := HSys (h_Plain (w_CopyFile (native from) (native to) false)) (fun r : N + unit =>
                        match r with inr _ => hret true 0 | inl e => hfail has false e end) in
          if to_exists && wopt co_update_existing options then
            hbind (hlast_write_time true from) (fun t1 e4 =>
            if negb (e4 =? 0) then hbad has false e4
            else
              hbind (hlast_write_time true to) (fun t2 e5 =>
              if negb (e5 =? 0) then hbad has false e5
              else if (t2 <=? t1)%Z then copy else hret false 0))
          else if negb to_exists || wopt co_overwrite_existing options then copy
          else hbad has false errc_file_exists))).

(** src/fs_ops.cpp:597-620 copy_symlink_impl *)
Definition hcopy_symlink (has : bool) (from to : path) : hprog unit :=
  hbind (hread_symlink true from) (fun real e =>
    if negb (e =? 0) then hbad has tt e
    else
      let target := wpath (native real) in
      hbind (hstatus true target) (fun st e2 =>
        if negb (e2 =? 0) then hbad has tt e2
        else hplain (if wis ft_directory st then wcreate_directory_symlink dbg has target to else wcreate_symlink dbg has target to))).

(** src/fs_ops.cpp:283-292: the loop over the entries of a local iterator; [f] is the recursive call, [k] bounds the loop. *)
Fixpoint hcopy_entries (f : path -> path -> hprog unit) (k n : nat) (has : bool) (to : path) (it : hiter) (m_ec2 : N) : hprog unit :=
  match k with
  | O => HEnd WFuel
  | S k' =>
      match it with
      | Some s =>
          if negb (m_ec2 =? 0) then hbind (hdestroy s) (fun _ _ => hbad has tt m_ec2)
          else
            hbind (hunwind (closing s)
                     (hlift (filename Windows (hs_path s)) (fun fn => hlift (path_div Windows E to fn) (fun b => f (hs_path s) b))))
              (fun _ ec =>
              if negb (ec =? 0) then hbind (hdestroy s) (fun _ _ => hret tt ec)
              else hbind (hunwind (closing s) (hiter_increment n true it)) (fun it' e' => hcopy_entries f k' n has to it' e'))
      | None => hret tt 0
      end
  end.

(** src/fs_ops.cpp:176-296 copy_impl; [n] bounds the depth, the entries of a directory and the data skipped. *)
Fixpoint hcopy (n : nat) (has : bool) (from to : path) (options : N) : hprog unit :=
  match n with
  | O => HEnd WFuel
  | S n' =>
      let skip_symlinks := wset co_skip_symlinks options in
      let create_symlinks := wset co_create_symlinks options in
      let copy_symlinks := wset co_copy_symlinks options in
      hbind (if create_symlinks || skip_symlinks || copy_symlinks then hsymlink_status true from else hstatus true from) (fun f e1 =>
      if negb (e1 =? 0) then hbad has tt e1
      else
        hbind (if create_symlinks || skip_symlinks then hsymlink_status true to else hstatus true to) (fun t e2 =>
        if negb (wknown t) then hbad has tt e2
        else if negb (wexists (fst f)) || wis_other f || wis_other t || (wis ft_directory f && wis ft_regular t)
        then hbad has tt errc_function_not_supported
        else
          hbind (if wexists (fst f) && wexists (fst t) then hequivalent true from to else hret false 0) (fun same e3 =>
          if negb (e3 =? 0) then hbad has tt e3
          else if same then hbad has tt errc_function_not_supported
          else if wis ft_symlink f then
            if skip_symlinks then hret tt 0
            else if negb (wexists (fst t)) then hcopy_symlink has from to
            else hbad has tt errc_file_exists
          else if wis ft_regular f then
            if wset co_directories_only options then hret tt 0
            else if create_symlinks then hplain (wcreate_symlink dbg has from to)
            else if wset co_create_hard_links options then hplain (wcreate_hard_link dbg has from to)
            else if wis ft_directory t then
              hlift (filename Windows from) (fun fn =>
              hlift (path_div Windows E to fn) (fun to2 =>
              hbind (hcopy_file has from to2 options) (fun _ e => hret tt e)))
            else hbind (hcopy_file has from to options) (fun _ e => hret tt e)
          else if wis ft_directory f && create_symlinks then hbad has tt errc_is_a_directory
          else if wis ft_directory f && (wset co_recursive options || (options =? 0)) then
            hbind (if negb (wexists (fst t)) then hplain (wcreate_directory_like dbg has to from) else hret true 0) (fun _ e4 =>
            if negb (e4 =? 0) then hret tt e4
            else
              hbind (hiter_new n' has from false) (fun it ec =>
              if negb (ec =? 0) then hbind (hiter_destroy it) (fun _ _ => hret tt ec)
              else hcopy_entries (fun a b => hcopy n' has a b options) n' n' has to it 0))
          else hret tt 0)))
  end.

(** * recursive_directory_iterator *)

(** SharedImpl (src/fs_dir_iterator.cpp:877-880): the stack, top first, and the options follow_directory_symlink and
    skip_permission_denied; with recursion_ (fs_dir.h:606-610). *)
Record hrec := HRec { hr_stack : list hstream; hr_follow : bool; hr_skip : bool; hr_recursion : bool }.
(** impl_ is null when the stack is empty (src/fs_dir_iterator.cpp:905-906, 971-974). *)
Definition hrec_end (it : hrec) : hrec := HRec [] (hr_follow it) (hr_skip it) (hr_recursion it).
(** The destructor of SharedImpl, src/fs_dir_iterator.cpp:877-880. *)
Definition stack_closing (l : list hstream) : list hcall := flat_map closing l.

(** src/fs_dir_iterator.cpp:882-899; new_s is destroyed when the constructor leaves before line 898. *)
Definition hrec_new (n : nat) (has : bool) (p : path) (follow skip : bool) : hprog hrec :=
  let none := HRec [] follow skip true in
  hbind (hstream_open n skip p) (fun s m_ec =>
  if negb (m_ec =? 0) then hscopes (closing s) (hbad has none m_ec)
  else match hs_handle s with None => hscopes (closing s) (hret none 0) | Some _ => hret (HRec [s] follow skip true) 0 end).

(** src/fs_dir_iterator.cpp:955-965: the loop of Advance: the stack afterwards and m_ec. *)
Fixpoint hadvance_stack (n : nat) (l : list hstream) : hprog (list hstream) :=
  match l with
  | [] => hret [] 0
  | s :: rest =>
      hbind (hadvance n s) (fun r m_ec =>
      let '(found, s') := r in
      if found then hret (s' :: rest) 0
      else if negb (m_ec =? 0) then hret (s' :: rest) m_ec
      else hbind (hdestroy s') (fun _ _ => hadvance_stack n rest))
  end.

(** src/fs_dir_iterator.cpp:946-975 Advance; when the stack becomes empty impl_ is reset. *)
Definition hrec_advance (n : nat) (has : bool) (it : hrec) : hprog hrec :=
  match hr_stack it with
  | [] => hbad has it errc_invalid_argument
  | l =>
      hbind (hadvance_stack n l) (fun l' m_ec =>
      if negb (m_ec =? 0) then hbind (hcalls (stack_closing l') (WE (WRet tt 0))) (fun _ _ => hbad has (hrec_end it) m_ec)
      else hret (HRec l' (hr_follow it) (hr_skip it) (hr_recursion it)) 0)
  end.

(** src/fs_dir_iterator.cpp:986-1007, GetSymLinkFileType and GetFileType at 287-337 for an entry with cache BASIC: may the iterator go down, the
    stream with the entry as it is afterwards, and m_ec. The type of such an entry is never none or not_found. GetFileType with an error_code answers none
    in every case, so that with follow_directory_symlink the iterator never goes down. *)
Definition hrecurses (follow : bool) (s : hstream) : hprog (bool * hstream) :=
  let d := hs_data s in
  if follow then
    if wd_type_resolved d then hret (false, s) 0
    else
      hbind (hUpdateBasic true true (hs_path s) d) (fun u _ =>
      match snd u with
      | WRet _ e => hret (false, HStream (hs_handle s) (hs_root s) (hs_path s) (fst u)) e
      | WThrow c => HEnd (WE (WThrow c))
      | WAssert => HEnd (WE WAssert)
      end)
  else hret (negb (wd_symlink d) && wtype_is ft_directory (wd_type d), s) 0.

(** src/fs_dir_iterator.cpp:977-1037 TryRecursion: its result and the iterator. *)
Definition hrec_try (n : nat) (has : bool) (it : hrec) : hprog (bool * hrec) :=
  match hr_stack it with
  | [] => hbad has (false, it) errc_invalid_argument
  | top :: rest =>
      hbind (hrecurses (hr_follow it) top) (fun r m_ec =>
      let '(go, top') := r in
      let it' := HRec (top' :: rest) (hr_follow it) (hr_skip it) (hr_recursion it) in
      let stay m_ec :=
        if m_ec =? 0 then hret (false, it') 0
        else if (m_ec =? errc_permission_denied) && hr_skip it then hret (false, it') 0
        else hbind (hcalls (stack_closing (hr_stack it')) (WE (WRet tt 0))) (fun _ _ => hbad has (false, hrec_end it') m_ec) in
      if go then
        hbind (hstream_open n (hr_skip it) (hs_path top')) (fun s e =>
        match hs_handle s with
        | Some _ => hret (true, HRec (s :: top' :: rest) (hr_follow it) (hr_skip it) (hr_recursion it)) 0
        | None => hscopes (closing s) (stay e)
        end)
      else stay m_ec)
  end.

(** src/fs_dir_iterator.cpp:932-944 do_increment *)
Definition hrec_increment (n : nat) (has : bool) (it : hrec) : hprog hrec :=
  let go it := hrec_advance n has (HRec (hr_stack it) (hr_follow it) (hr_skip it) true) in
  if hr_recursion it
  then hbind (hrec_try n has it) (fun r e => let '(pushed, it') := r in if pushed || (has && negb (e =? 0)) then hret it' e else go it')
  else go it.

(** src/fs_dir_iterator.cpp:901-913 pop_impl *)
Definition hrec_pop (n : nat) (has : bool) (it : hrec) : hprog hrec :=
  match hr_stack it with
  | [] => hbad has it errc_invalid_argument
  | top :: rest =>
      hbind (hdestroy top) (fun _ _ =>
      match rest with
      | [] => hret (hrec_end it) 0
      | _ => hrec_advance n has (HRec rest (hr_follow it) (hr_skip it) (hr_recursion it))
      end)
  end.

(** fs_dir.h:558 the destructor. *)
Definition hrec_destroy (it : hrec) : hprog unit := hcalls (stack_closing (hr_stack it)) (WE (WRet tt 0)).
End Build.
