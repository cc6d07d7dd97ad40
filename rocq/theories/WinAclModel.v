(** Model of the access control list built by SetPermissions and of the permissions read back by
    GetPermissions (src/windows/permissions.cpp), together with what Windows makes of such a list. *)
From Coq Require Import Bool NArith List.
From Verif Require Import PathModel FlagsModel WinPermsModel.
Import ListNotations.
Local Open Scope N_scope.

(** Generic access rights (winnt.h), used in permissions.cpp:450-601. *)
Definition GENERIC_ALL : N := 268435456.
(** winnt.h; used in permissions.cpp:450-601. *)
Definition GENERIC_EXECUTE : N := 536870912.
(** winnt.h; used in permissions.cpp:450-601. *)
Definition GENERIC_WRITE : N := 1073741824.
(** winnt.h; used in permissions.cpp:450-601. *)
Definition GENERIC_READ : N := 2147483648.

(** FlagSet of common/flag_ops.h (a dependency, not in /repo): the bits of [f] are added to [v]. *)
(** Used in permissions.cpp:450-601. *)
Definition FlagSet (v f : N) : N := N.lor v f.

(** Whom an entry is for: the name "Everyone", or a security identifier (permissions.cpp:388-416).
    The TrusteeType member, which MakeAce also sets, does not take part in the evaluation when
    an identifier is given: it is left out here. The DENY entry of the owner carries
    TRUSTEE_IS_GROUP there (permissions.cpp:590). *)
Inductive sid_ref := Everyone | Sid (n : N).

(** The two values of ACCESS_MODE used. *)
(** permissions.cpp:379-418 *)
Inductive access_mode := GRANT_ACCESS | DENY_ACCESS.

(** EXPLICIT_ACCESS, permissions.cpp:379-418 MakeAce. The inheritance flags are left out: they
    matter to files created later only. LocalAlloc is taken to succeed. *)
Record ace := Ace { ace_who : sid_ref; ace_access : N; ace_mode : access_mode }.

(** The blocks [if (c) FlagSet(access, ...)] for read, write and exec: permissions.cpp:450-461, 487-500,
    513-526, 542-558, 571-587. *)
Definition access_of (r wr x : bool) : N :=
  let a := if r then FlagSet 0 GENERIC_READ else 0 in
  let b := if wr then FlagSet a (N.lor (N.lor GENERIC_WRITE FILE_DELETE_CHILD) DELETE) else a in
  if x then FlagSet b GENERIC_EXECUTE else b.

(** [if (access != 0) aces.emplace_front(MakeAce(...))]: permissions.cpp:463-471, 502-510, 528-536,
    560-568, 589-597. *)
Definition emplace_front (who : sid_ref) (access : N) (mode : access_mode) (aces : list ace) : list ace :=
  if access =? 0 then aces else Ace who access mode :: aces.

(** permissions.cpp:446-614: the entries, in the order of ordered_aces. *)
Definition explicit_entries (owner group prms : N) : list ace :=
  let has n := FlagTest prms (perm_value n) in
  (* Everyone *)
  let aces := emplace_front Everyone (access_of (has others_read) (has others_write) (has others_exec)) GRANT_ACCESS [] in
  (* Group, only if its identifier differs from the one of the owner *)
  let aces :=
    if owner =? group then aces
    else
      let allow := access_of (has group_read && negb (has others_read)) (has group_write && negb (has others_write))
                             (has group_exec && negb (has others_exec)) in
      let deny := access_of (negb (has group_read) && has others_read) (negb (has group_write) && has others_write)
                            (negb (has group_exec) && has others_exec) in
      emplace_front (Sid group) deny DENY_ACCESS (emplace_front (Sid group) allow GRANT_ACCESS aces) in
  (* Owner *)
  let allow := access_of (has owner_read && negb (has group_read || has others_read))
                         (has owner_write && negb (has group_write || has others_write))
                         (has owner_exec && negb (has group_exec || has others_exec)) in
  let deny := access_of (negb (has owner_read) && (has group_read || has others_read))
                        (negb (has owner_write) && (has group_write || has others_write))
                        (negb (has owner_exec) && (has group_exec || has others_exec)) in
  let aces := emplace_front (Sid owner) deny DENY_ACCESS (emplace_front (Sid owner) allow GRANT_ACCESS aces) in
  match aces with
  | [] => emplace_front Everyone GENERIC_ALL DENY_ACCESS []
  | _ => aces
  end.

(** * What Windows does (not code of the repository) *)

(** Generic rights stand for the rights of FILE_GENERIC_READ, FILE_GENERIC_WRITE, FILE_GENERIC_EXECUTE
    and FILE_ALL_ACCESS (winnt.h) when the object is a file or a directory. *)
(** Not in the repository: what Windows makes of the list given at permissions.cpp:609-632. *)
Definition map_generic (access : N) : N :=
  let add g v m := if FlagTest access g then N.lor m v else m in
  add GENERIC_READ 1179785 (add GENERIC_WRITE 1179926 (add GENERIC_EXECUTE 1179808 (add GENERIC_ALL 2032127
    (N.land access 2032127)))).

(** SetEntriesInAcl without an old list: the entries as given, or the refusals first. The documentation
    leaves it to the function to put refusals first; theorems are proved for both. *)
(** Not in the repository: what Windows makes of the list given at permissions.cpp:609-632. *)
Inductive acl_order := as_given | refusals_first.
(** Not in the repository: what Windows makes of the list given at permissions.cpp:609-632. *)
Definition is_refusal (a : ace) : bool := match ace_mode a with DENY_ACCESS => true | GRANT_ACCESS => false end.
(** Not in the repository: what Windows makes of the list given at permissions.cpp:609-632. *)
Definition SetEntriesInAcl (o : acl_order) (l : list ace) : list ace :=
  match o with
  | as_given => l
  | refusals_first => filter is_refusal l ++ filter (fun a => negb (is_refusal a)) l
  end.

(** The access check: entries are taken in order; each decides the rights it names that are not yet
    decided. [who] tells which identifiers stand for the process. The rights an owner has without
    any entry (READ_CONTROL, WRITE_DAC) are left out. *)
(** Not in the repository: the access check of Windows, asked by GetEffectiveRightsFromAcl at permissions.cpp:207-324. *)
Fixpoint check (who : sid_ref -> bool) (l : list ace) (granted refused : N) : N :=
  match l with
  | [] => granted
  | a :: r =>
      if who (ace_who a) then
        match ace_mode a with
        | GRANT_ACCESS => check who r (N.lor granted (N.ldiff (map_generic (ace_access a)) refused)) refused
        | DENY_ACCESS => check who r granted (N.lor refused (N.ldiff (map_generic (ace_access a)) granted))
        end
      else check who r granted refused
  end.
(** Not in the repository: the access check of Windows, asked by GetEffectiveRightsFromAcl at permissions.cpp:207-324. *)
Definition effective_rights (who : sid_ref -> bool) (l : list ace) : N := check who l 0 0.

(** * Reading back *)

(** permissions.cpp:327-377 GetPermissions when every call succeeds: GetEffectiveRightsFromAcl is the
    access check for the owner, for the group and for Everyone. [member] tells whether the owner
    belongs to the group. Failing calls are in WinStatModel.v. *)
Definition as_owner (owner group : N) (member : bool) (s : sid_ref) : bool :=
  match s with Everyone => true | Sid n => (n =? owner) || (member && (n =? group)) end.
(** The trustees of permissions.cpp:207-324. *)
Definition as_group (group : N) (s : sid_ref) : bool :=
  match s with Everyone => true | Sid n => n =? group end.
(** The trustees of permissions.cpp:207-324. *)
Definition as_everyone (s : sid_ref) : bool :=
  match s with Everyone => true | Sid _ => false end.

(** permissions.cpp:326-377 GetPermissions with the calls succeeding. *)
Definition read_permissions (owner group : N) (member : bool) (l : list ace) (attr : N) : out N :=
  do o <- trustee_permissions t_owner (effective_rights (as_owner owner group member) l) attr ;;
  let p1 := op_or width_perms perms_none o in
  do p2 <- (if owner =? group then Ok p1
            else do g <- trustee_permissions t_group (effective_rights (as_group group) l) attr ;;
                 Ok (op_or width_perms p1 g)) ;;
  do e <- trustee_permissions t_others (effective_rights as_everyone l) attr ;;
  Ok (op_or width_perms p2 e).
