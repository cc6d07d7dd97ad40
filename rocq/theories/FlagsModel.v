(** Model of the enumerations and of the bitmask operators
    (include/filesystem/fs_perms.h, fs_copy_options.h, fs_directory_options.h,
    fs_file_type.h, fs_file_status.h).

    A value of an enumeration with underlying type unsigned, unsigned short or unsigned
    char is a number below 2^32, 2^16, 2^8. The operators are written once with the
    width as parameter: the four headers contain the same text four times. *)
From Coq Require Import Bool NArith List.
Import ListNotations.
Local Open Scope N_scope.

(** Widths of the underlying types: fs_perms.h:26 and 94 (unsigned, 32 bits on the
    supported platforms), fs_copy_options.h:27 (unsigned short), fs_directory_options.h:27
    (unsigned char). *)
Definition width_perms : N := 32.
(** fs_perms.h:94 *)
Definition width_perm_options : N := 32.
(** fs_copy_options.h:27 *)
Definition width_copy_options : N := 16.
(** fs_directory_options.h:27 *)
Definition width_directory_options : N := 8.

(** Conversion to an unsigned type of [w] bits (static_cast). *)
(** The casts at fs_perms.h:48-66, fs_copy_options.h:40-67 and fs_directory_options.h:33-60. *)
Definition trunc (w x : N) : N := x mod 2 ^ w.

(** operator&: fs_perms.h:48-51, 101-106, fs_copy_options.h:40-45, fs_directory_options.h:33-38.
    Operands narrower than int are promoted and the result is truncated by the cast. *)
Definition op_and (w a b : N) : N := trunc w (N.land a b).

(** operator|: fs_perms.h:53-56, 108-113, fs_copy_options.h:47-52, fs_directory_options.h:40-45 *)
Definition op_or (w a b : N) : N := trunc w (N.lor a b).

(** operator^: fs_perms.h:58-61, 115-120, fs_copy_options.h:54-59, fs_directory_options.h:47-52 *)
Definition op_xor (w a b : N) : N := trunc w (N.lxor a b).

(** operator~: fs_perms.h:63-66, 122-125, fs_copy_options.h:61-64, fs_directory_options.h:54-57.
    The complement of the promoted 32 bit operand, truncated to [w] bits. *)
Definition op_not (w a : N) : N := trunc w (N.lxor a (2 ^ 32 - 1)).

(** operator&=, |=, ^=: fs_perms.h:68-78, 127-140, fs_copy_options.h:66-79, fs_directory_options.h:59-72.
    The value stored in the left operand. *)
Definition op_and_assign := op_and.
(** operator|=, fs_perms.h:72-74 and the same in the other headers. *)
Definition op_or_assign := op_or.
(** operator^=, fs_perms.h:76-78 and the same in the other headers. *)
Definition op_xor_assign := op_xor.

(** src/fs_ops.cpp:20-23 detail::is_set (for copy_options), and the has_opt lambda
    of permissions_impl, src/fs_ops.cpp:1159. *)
Definition is_set (w obj bits : N) : bool := negb (op_and w obj bits =? 0).

(** fs_perms.h:26-46, enum class perms. *)
Inductive perm_name :=
| owner_read | owner_write | owner_exec
| group_read | group_write | group_exec
| others_read | others_write | others_exec
| set_uid | set_gid | sticky_bit.

(** The values of the single permissions, fs_perms.h:28-43. *)
Definition perm_value (n : perm_name) : N :=
  match n with
  | owner_read => 256 | owner_write => 128 | owner_exec => 64
  | group_read => 32 | group_write => 16 | group_exec => 8
  | others_read => 4 | others_write => 2 | others_exec => 1
  | set_uid => 2048 | set_gid => 0 | sticky_bit => 0
  end.

(** The composed values, fs_perms.h:27, 31, 35, 39-40, 44-45. *)
Definition perms_none : N := 0.
(** fs_perms.h:31 *)
Definition perms_owner_all : N := 448.
(** fs_perms.h:35 *)
Definition perms_group_all : N := 56.
(** fs_perms.h:39 *)
Definition perms_others_all : N := 7.
(** fs_perms.h:40 *)
Definition perms_all : N := 511.
(** fs_perms.h:44 *)
Definition perms_mask : N := 4095.
(** fs_perms.h:45 *)
Definition perms_unknown : N := 65535.

(** fs_perms.h:94-99, enum class perm_options. *)
Inductive popt_name := po_replace | po_add | po_remove | po_nofollow.
(** fs_perms.h:95-98 *)
Definition popt_value (n : popt_name) : N :=
  match n with po_replace => 1 | po_add => 2 | po_remove => 4 | po_nofollow => 8 end.

(** fs_copy_options.h:27-38, enum class copy_options (without none = 0). *)
Inductive copt_name :=
| co_skip_existing | co_overwrite_existing | co_update_existing | co_recursive
| co_copy_symlinks | co_skip_symlinks | co_directories_only | co_create_symlinks | co_create_hard_links.
(** fs_copy_options.h:29-37 *)
Definition copt_value (n : copt_name) : N :=
  match n with
  | co_skip_existing => 1 | co_overwrite_existing => 2 | co_update_existing => 4
  | co_recursive => 8 | co_copy_symlinks => 16 | co_skip_symlinks => 32
  | co_directories_only => 64 | co_create_symlinks => 128 | co_create_hard_links => 256
  end.

(** fs_directory_options.h:27-31, enum class directory_options (without none = 0). *)
Inductive dopt_name := do_follow_directory_symlink | do_skip_permission_denied.
(** fs_directory_options.h:29-30 *)
Definition dopt_value (n : dopt_name) : N :=
  match n with do_follow_directory_symlink => 1 | do_skip_permission_denied => 2 end.

(** What a caller writes as [a | b | c], starting from the value-initialised mask. *)
(** Not in the repository: a use of operator|, fs_perms.h:53-56, by a caller. *)
Definition combine {T} (w : N) (value : T -> N) (l : list T) : N :=
  fold_left (fun acc x => op_or w acc (value x)) l 0.

(** fs_file_type.h:21-32, enum class file_type (POSIX; reparse_file exists on Windows only). *)
Inductive file_type :=
| ft_none | ft_not_found | ft_regular | ft_directory | ft_symlink
| ft_block | ft_character | ft_fifo | ft_socket | ft_unknown.

(** Comparison of file_type values, fs_file_type.h:21-37. *)
Definition file_type_eq_dec : forall a b : file_type, {a = b} + {a <> b}.
Proof. decide equality. Defined.

(** Comparison of file_type values, fs_file_type.h:21-37. *)
Definition file_type_eqb (a b : file_type) : bool := if file_type_eq_dec a b then true else false.

(** fs_file_status.h:24-76, class file_status. *)
Record file_status := FStatus { st_type : file_type; st_perms : N }.

(** fs_file_status.h:29-33: the permissions default to perms::unknown. *)
Definition status_of_type (t : file_type) : file_status := FStatus t perms_unknown.
