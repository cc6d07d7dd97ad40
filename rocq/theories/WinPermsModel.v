(** Model of the pure part of src/windows/permissions.cpp: the mapping of an access mask to perms. The
    access control list built by SetPermissions is in WinAclModel.v, the failures in WinStatModel.v. *)
From Coq Require Import Bool NArith List.
From Verif Require Import PathModel FlagsModel.
Import ListNotations.
Local Open Scope N_scope.

(** Access rights, from the Windows SDK (winnt.h); used in permissions.cpp:37-77. *)
Definition FILE_READ_DATA : N := 1.
(** winnt.h; used in permissions.cpp:37-77. *)
Definition FILE_LIST_DIRECTORY : N := 1.
(** winnt.h; used in permissions.cpp:37-77. *)
Definition FILE_WRITE_DATA : N := 2.
(** winnt.h; used in permissions.cpp:37-77. *)
Definition FILE_ADD_FILE : N := 2.
(** winnt.h; used in permissions.cpp:37-77. *)
Definition FILE_APPEND_DATA : N := 4.
(** winnt.h; used in permissions.cpp:37-77. *)
Definition FILE_ADD_SUBDIRECTORY : N := 4.
(** winnt.h; used in permissions.cpp:37-77. *)
Definition FILE_READ_EA : N := 8.
(** winnt.h; used in permissions.cpp:37-77. *)
Definition FILE_WRITE_EA : N := 16.
(** winnt.h; used in permissions.cpp:37-77. *)
Definition FILE_EXECUTE : N := 32.
(** winnt.h; used in permissions.cpp:37-77. *)
Definition FILE_TRAVERSE : N := 32.
(** winnt.h; used in permissions.cpp:37-77. *)
Definition FILE_DELETE_CHILD : N := 64.
(** winnt.h; used in permissions.cpp:37-77. *)
Definition FILE_READ_ATTRIBUTES : N := 128.
(** winnt.h; used in permissions.cpp:37-77. *)
Definition FILE_WRITE_ATTRIBUTES : N := 256.
(** winnt.h; used in permissions.cpp:37-77. *)
Definition DELETE : N := 65536.
(** winnt.h; used in permissions.cpp:37-77. *)
Definition STANDARD_RIGHTS_READ : N := 131072.
(** winnt.h; used in permissions.cpp:37-77. *)
Definition STANDARD_RIGHTS_WRITE : N := 131072.
(** winnt.h; used in permissions.cpp:37-77. *)
Definition STANDARD_RIGHTS_EXECUTE : N := 131072.
(** winnt.h; used in permissions.cpp:37-77. *)
Definition SYNCHRONIZE : N := 1048576.

(** The expressions [a | b | ...] of permissions.cpp:37-77. *)
Definition lors (l : list N) : N := fold_left N.lor l 0.

(** permissions.cpp:37-54, namespace mapping::file *)
Definition file_read_mask : N :=
  lors [FILE_READ_ATTRIBUTES; FILE_READ_DATA; FILE_READ_EA; STANDARD_RIGHTS_READ; SYNCHRONIZE].
(** permissions.cpp:44-49 *)
Definition file_write_mask : N :=
  lors [FILE_APPEND_DATA; FILE_WRITE_ATTRIBUTES; FILE_WRITE_DATA; FILE_WRITE_EA; STANDARD_RIGHTS_WRITE; SYNCHRONIZE].
(** permissions.cpp:51-54 *)
Definition file_exec_mask : N :=
  lors [FILE_EXECUTE; FILE_READ_ATTRIBUTES; STANDARD_RIGHTS_EXECUTE; SYNCHRONIZE].

(** permissions.cpp:59-77, namespace mapping::directory *)
Definition directory_read_mask : N :=
  lors [FILE_READ_ATTRIBUTES; FILE_LIST_DIRECTORY; FILE_READ_EA; STANDARD_RIGHTS_READ; SYNCHRONIZE].
(** permissions.cpp:66-72 *)
Definition directory_write_mask : N :=
  lors [FILE_ADD_SUBDIRECTORY; FILE_DELETE_CHILD; FILE_WRITE_ATTRIBUTES; FILE_ADD_FILE; FILE_WRITE_EA;
        STANDARD_RIGHTS_WRITE; SYNCHRONIZE].
(** permissions.cpp:74-77 *)
Definition directory_exec_mask : N :=
  lors [FILE_TRAVERSE; FILE_READ_ATTRIBUTES; STANDARD_RIGHTS_EXECUTE; SYNCHRONIZE].

(** FlagTest of common/flag_ops.h (a dependency, not in /repo): every bit of [f] is in [m]. The
    tests in test/windows/win_permissions_test.cpp:53-140 fix this reading, since the masks
    share bits. *)
Definition FlagTest (m f : N) : bool := N.land m f =? f.

(** permissions.cpp:24 *)
Inductive trustee := t_owner | t_group | t_others | t_system | t_admins.

(** permissions.cpp:25 *)
Inductive operation := o_read | o_write | o_exec.

(** permissions.cpp:29-32, mapping::posix[tr][op]; rows 3 and 4 do not exist. *)
Definition posix_perm (t : trustee) (o : operation) : out N :=
  match t, o with
  | t_owner, o_read => Ok (perm_value owner_read)
  | t_owner, o_write => Ok (perm_value owner_write)
  | t_owner, o_exec => Ok (perm_value owner_exec)
  | t_group, o_read => Ok (perm_value group_read)
  | t_group, o_write => Ok (perm_value group_write)
  | t_group, o_exec => Ok (perm_value group_exec)
  | t_others, o_read => Ok (perm_value others_read)
  | t_others, o_write => Ok (perm_value others_write)
  | t_others, o_exec => Ok (perm_value others_exec)
  | _, _ => UB
  end.

(** One of the [if (FlagTest(mask, m)) prm |= posix[tr][op]] blocks. *)
(** permissions.cpp:100-104 and the five like it up to 130. *)
Definition add_if (mask m : N) (t : trustee) (o : operation) (prm : N) : out N :=
  if FlagTest mask m then do b <- posix_perm t o ;; Ok (op_or width_perms prm b) else Ok prm.

(** permissions.cpp:83-133 MapAccessMaskToPerms *)
Definition MapAccessMaskToPerms (mask : N) (t : trustee) (type : file_type) : out N :=
  match type with
  | ft_none | ft_unknown | ft_not_found => Ok perms_unknown
  | _ =>
      if mask =? 0 then Ok perms_none
      else
        let '(r, wr, x) :=
          match type with
          | ft_directory => (directory_read_mask, directory_write_mask, directory_exec_mask)
          | _ => (file_read_mask, file_write_mask, file_exec_mask)
          end in
        do p1 <- add_if mask r t o_read perms_none ;;
        do p2 <- add_if mask wr t o_write p1 ;;
        add_if mask x t o_exec p2
  end.

(** File attributes (winnt.h). *)
(** winnt.h; used in permissions.cpp:207-324. *)
Definition FILE_ATTRIBUTE_READONLY : N := 1.
(** winnt.h; used in permissions.cpp:207-324. *)
Definition FILE_ATTRIBUTE_DIRECTORY : N := 16.

(** FlagClear of common/flag_ops.h (not in /repo): the bits of [f] are removed from [v]. *)
(** Used in permissions.cpp:207-324. *)
Definition FlagClear (v f : N) : N := N.ldiff v f.

(** permissions.cpp:233-244, 273-284, 312-323: the tail of GetOwnerPermissions,
    GetGroupPermissions and GetOthersPermissions, with the effective rights [mask] already
    obtained from the ACL. The comment there says "read-only files ... remove read rights". *)
Definition trustee_permissions (t : trustee) (mask attr : N) : out N :=
  do prms <- MapAccessMaskToPerms mask t (if FlagTest attr FILE_ATTRIBUTE_DIRECTORY then ft_directory else ft_regular) ;;
  if FlagTest attr FILE_ATTRIBUTE_READONLY
  then do b <- posix_perm t o_read ;; Ok (FlagClear prms b)
  else Ok prms.
