{
 "claims": [
  {
   "property": "C01",
   "status": "proved",
   "theorems": [
    "C01_text_kept"
   ],
   "note": ""
  },
  {
   "property": "C02",
   "status": "proved",
   "theorems": [
    "C02_root_decomposition"
   ],
   "note": "any return-value elision"
  },
  {
   "property": "C03",
   "status": "proved",
   "theorems": [
    "C03_iteration",
    "C03_steps_inverse"
   ],
   "note": ""
  },
  {
   "property": "C04",
   "status": "proved",
   "theorems": [
    "C04_filename_parent",
    "C04_recompose"
   ],
   "note": "any return-value elision"
  },
  {
   "property": "C05",
   "status": "proved",
   "theorems": [
    "C05_stem_extension"
   ],
   "note": ""
  },
  {
   "property": "C06",
   "status": "proved",
   "theorems": [
    "C06_queries"
   ],
   "note": ""
  },
  {
   "property": "C07",
   "status": "proved",
   "theorems": [
    "C07_compare_lexicographic",
    "C07_compare_order"
   ],
   "note": "representations: built from text, default, and results of parent_path/lexically_normal under any elision"
  },
  {
   "property": "C08",
   "status": "proved",
   "theorems": [
    "C08_hash_consistent"
   ],
   "note": ""
  },
  {
   "property": "C09",
   "status": "proved",
   "theorems": [
    "C09_append_text",
    "C09_append_elements",
    "C09_capacity_independent",
    "C09_division"
   ],
   "note": ""
  },
  {
   "property": "C10",
   "status": "proved",
   "theorems": [
    "C10_associative",
    "C10_left_identity",
    "C10_empty_middle_differs"
   ],
   "note": ""
  },
  {
   "property": "C11",
   "status": "proved",
   "theorems": [
    "C11_concat"
   ],
   "note": ""
  },
  {
   "property": "C12",
   "status": "proved",
   "theorems": [
    "C12_remove_filename",
    "C12_replace_filename",
    "C12_replace_own"
   ],
   "note": ""
  },
  {
   "property": "C13",
   "status": "proved",
   "theorems": [
    "C13_replace_extension_text",
    "C13_replace_extension_reads_back",
    "C13_replace_own"
   ],
   "note": ""
  },
  {
   "property": "C14",
   "status": "partial",
   "theorems": [
    "C14_text_determines_partial",
    "C14_aliased_partial",
    "C14_aliased_plain",
    "C14_text_determines_refuted",
    "C14_normal_then_remove_filename_refuted",
    "C14_parent_then_remove_filename_refuted"
   ],
   "note": "C14_aliased_partial: whatever is copy-elided, for histories that keep no elided result of parent_path or lexically_normal; those results refute it; arguments may alias the path (what that does: C89)"
  },
  {
   "property": "C15",
   "status": "proved",
   "theorems": [
    "C15_normal_form"
   ],
   "note": ""
  },
  {
   "property": "C16",
   "status": "proved",
   "theorems": [
    "C16_normal_meaning"
   ],
   "note": ""
  },
  {
   "property": "C17",
   "status": "proved",
   "theorems": [
    "C17_idempotent",
    "C17_canonical"
   ],
   "note": ""
  },
  {
   "property": "C18",
   "status": "proved",
   "theorems": [
    "C18_lexically_relative",
    "C18_lexically_proximate",
    "C18_trailing_slash_refuted"
   ],
   "note": "the refutation shows why the remaining base elements must be names or \".\""
  },
  {
   "property": "C19",
   "status": "proved",
   "theorems": [
    "C19_generic"
   ],
   "note": ""
  },
  {
   "property": "C20",
   "status": "proved",
   "theorems": [
    "C20_stream_round_trip"
   ],
   "note": ""
  },
  {
   "property": "C21",
   "status": "proved",
   "theorems": [
    "C21_moves"
   ],
   "note": ""
  },
  {
   "property": "C22",
   "status": "partial",
   "theorems": [
    "C22_overloads_agree_partial",
    "C22_getcwd_succeeds_partial",
    "C22_create_directories_partial",
    "C22_status_partial",
    "C22_status_missing_refuted",
    "C22_create_directories_throws_refuted",
    "C22_canonical_code_refuted",
    "C22_relative_throws_refuted"
   ],
   "note": "31 operations agree for every kernel; canonical, weakly_canonical, relative, proximate when getcwd succeeds; create_directories when stat fails only for missing files; the four refutations show the remaining cases are false of the code"
  },
  {
   "property": "C23",
   "status": "proved",
   "theorems": [
    "C23_status"
   ],
   "note": ""
  },
  {
   "property": "C24",
   "status": "proved",
   "theorems": [
    "C24_partition"
   ],
   "note": ""
  },
  {
   "property": "C25",
   "status": "partial",
   "theorems": [
    "C25_create_directory_partial",
    "C25_creates_partial",
    "C25_mode_partial",
    "C25_like_partial",
    "C25_like_creates_partial",
    "C25_existing_file_refuted"
   ],
   "note": "an existing file that is no directory gives false without an error"
  },
  {
   "property": "C26",
   "status": "partial",
   "theorems": [
    "C26_create_directories_partial",
    "C26_succeeds_partial",
    "C26_existing_file_refuted",
    "C26_dangling_refuted",
    "C26_trailing_refuted",
    "C26_many_slashes_refuted",
    "C26_empty",
    "C26_blocked"
   ],
   "note": "proved for every state and depth for paths of names without trailing separator that do not name a file or a dangling symlink; refuted for all paths that do, for all with a trailing separator, and, when the return of parent_path is elided, for all with several names and more leading slashes than the first has letters (endless loop or std::out_of_range)"
  },
  {
   "property": "C27",
   "status": "proved",
   "theorems": [
    "C27_remove",
    "C27_removes"
   ],
   "note": "on the file system of FS.v"
  },
  {
   "property": "C28",
   "status": "partial",
   "theorems": [
    "C28_remove_all_partial",
    "C28_any_entry",
    "C28_missing",
    "C28_symlink_slash_refuted",
    "C28_dot_refuted",
    "C28_through_itself_refuted",
    "C28_below_file_refuted"
   ],
   "note": "proved for every tree and every path whose last component is a name and that does not lead through the subtree itself; the refuted theorems show the remaining paths: symlink with trailing slash, final dot, path through itself, path through a file"
  },
  {
   "property": "C29",
   "status": "partial",
   "theorems": [
    "C29_count_partial",
    "C29_count_refuted",
    "C29_zero_refuted",
    "C29_left_refuted"
   ],
   "note": "false as stated: a concurrent deletion makes remove_all return 2^64-1 or 0 without error; proved over every kernel when no remove call loses the race"
  },
  {
   "property": "C30",
   "status": "partial",
   "theorems": [
    "C30_copies_bytes_partial",
    "C30_short_write_refuted",
    "C30_unsized_refuted"
   ],
   "note": "Proved for every state, options and sequence of reads and sendfile transfers: true implies a regular source, a destination with its permissions, everything else unchanged, and equal content when sendfile is used or writes are not cut short. Short writes lose bytes silently, and with sendfile a source whose reported size is 0 (as below /proc) is copied as an empty file (refuted)."
  },
  {
   "property": "C31",
   "status": "partial",
   "theorems": [
    "C31_table_partial",
    "C31_options_refuted",
    "C31_symlink_refuted"
   ],
   "note": "The whole table except: several existing-file options are accepted (refuted), and a destination that is a symlink to an existing file is refused with bad_file_descriptor instead of being overwritten."
  },
  {
   "property": "C32",
   "status": "partial",
   "theorems": [
    "C32_checked_partial",
    "C32_swapped_refuted",
    "C32_appears_refuted"
   ],
   "note": "False as stated: the name can be given to a victim for the open and back for the second check, and a symlink that appears after the check of a missing destination is followed. Proved for every interleaving in which the name is not given back to the checked file: only the checked file is changed."
  },
  {
   "property": "C33",
   "status": "partial",
   "theorems": [
    "C33_rejected",
    "C33_nothing_done",
    "C33_symlink_copied",
    "C33_symlink_created",
    "C33_hard_link_created",
    "C33_file_copied",
    "C33_contradictory_refuted",
    "C33_followed_refuted"
   ],
   "note": "Every branch is proved for every option set and state, with the state unchanged on rejection. False as stated in two points: contradictory options are accepted, and a symlink to a regular file that is to be followed is refused with not_supported instead of being copied."
  },
  {
   "property": "C34",
   "status": "partial",
   "theorems": [
    "C34_copy_tree_partial",
    "C34_symlink_refuted",
    "C34_read_error_refuted"
   ],
   "note": "Proved for every tree of directories and regular files (and symlinks with copy_symlinks), any depth and size, with permissions, when no write is cut short. False as stated: a symlink to a file in the source stops the copy with not_supported unless copy_symlinks is given, and a readdir error ends the copy early without an error."
  },
  {
   "property": "C35",
   "status": "partial",
   "theorems": [
    "C35_create_symlink",
    "C35_create_directory_symlink",
    "C35_copy_symlink_partial",
    "C35_symlink_round_trip_partial",
    "C35_long_target_refuted",
    "C35_create_hard_link",
    "C35_hard_link_counts"
   ],
   "note": "read_symlink cuts a target longer than pathconf allows without an error"
  },
  {
   "property": "C36",
   "status": "proved",
   "theorems": [
    "C36_rename",
    "C36_renames"
   ],
   "note": "on the file system of FS.v"
  },
  {
   "property": "C37",
   "status": "proved",
   "theorems": [
    "C37_file_size",
    "C37_hard_link_count",
    "C37_resize_file",
    "C37_is_empty"
   ],
   "note": "on the file system of FS.v"
  },
  {
   "property": "C38",
   "status": "proved",
   "theorems": [
    "C38_equivalent",
    "C38_relation"
   ],
   "note": "on the file system of FS.v"
  },
  {
   "property": "C39",
   "status": "partial",
   "theorems": [
    "C39_permissions",
    "C39_option_count_partial",
    "C39_option_count_refuted"
   ],
   "note": "none or several actions is an assertion in debug builds and not detected in release builds"
  },
  {
   "property": "C40",
   "status": "proved",
   "theorems": [
    "C40_round_trip",
    "C40_before_epoch"
   ],
   "note": "on the file system of FS.v"
  },
  {
   "property": "C41",
   "status": "partial",
   "theorems": [
    "C41_exact_partial",
    "C41_exact_before_epoch_partial",
    "C41_before_epoch_refuted",
    "C41_overflow_refuted",
    "C41_wrong_value_refuted"
   ],
   "note": "exact for representable non-negative times; with strict signed arithmetic times before 1970 and out of range times overflow, and value_too_large is never reported"
  },
  {
   "property": "C42",
   "status": "partial",
   "theorems": [
    "C42_space_partial",
    "C42_full_disk_refuted"
   ],
   "note": "a block count of 0 is reported as the maximum"
  },
  {
   "property": "C43",
   "status": "proved",
   "theorems": [
    "C43_temp_directory_path"
   ],
   "note": ""
  },
  {
   "property": "C44",
   "status": "proved",
   "theorems": [
    "C44_absolute",
    "C44_no_directory",
    "C44_change_directory"
   ],
   "note": "on the file system of FS.v"
  },
  {
   "property": "C45",
   "status": "partial",
   "theorems": [
    "C45_canonical_partial",
    "C45_empty_refuted",
    "C45_weakly_canonical_partial"
   ],
   "note": "canonical of the empty path gives the current directory"
  },
  {
   "property": "C46",
   "status": "partial",
   "theorems": [
    "C46_relative_partial",
    "C46_error_swallowed_refuted"
   ],
   "note": "errors found inside weakly_canonical are swallowed"
  },
  {
   "property": "C47",
   "status": "proved",
   "theorems": [
    "C47_iterates",
    "C47_directory"
   ],
   "note": "C47_iterates is over every kernel with read errors at any position, C47_directory on the file system of FS.v"
  },
  {
   "property": "C48",
   "status": "partial",
   "theorems": [
    "C48_visits_partial",
    "C48_whole_tree_partial",
    "C48_follow_enters_nothing_refuted",
    "C48_follow_flat_refuted",
    "C48_untyped_ends_refuted",
    "C48_hidden_refuted",
    "C48_after_symlink_refuted",
    "C48_follow_refuted",
    "C48_untyped_refuted"
   ],
   "note": "On the file system model, with entry types told by the system and follow_directory_symlink not set, the loop ends on every tree and visits exactly the places not below a directory that comes after a symlink in its parent, once each, parents first, with depth; so the whole tree if no symlink precedes a directory. False in general: a symlink hides later directories, follow_directory_symlink never enters a directory (for every system; on the file system model every walk with it shows just the entries of the directory itself), and DT_UNKNOWN entries end the walk of every directory that is not empty with ENOENT."
  },
  {
   "property": "C49",
   "status": "partial",
   "theorems": [
    "C49_pop_partial",
    "C49_disable_partial",
    "C49_pop_next",
    "C49_pop_top",
    "C49_disable_next"
   ],
   "note": "pop and disable_recursion_pending on every system move to the next entry delivered by the parent or the same stream. On the file system model, what remains after them is what remained less what is in the directory left (below the entry not entered); partial because the order of visits is that of C48, under the conditions of C48."
  },
  {
   "property": "C50",
   "status": "partial",
   "theorems": [
    "C50_constructors",
    "C50_increment",
    "C50_tree_partial",
    "C50_not_tried_refuted"
   ],
   "note": "On every system: the constructors and the increment from a directory entry treat EACCES as an empty directory with the option, and otherwise report it and become the end iterator with all streams closed. On the file system model with unreadable directories the whole walk visits what is not below them. Missing: directories the iterator does not try at all (after a symlink, or with follow_directory_symlink), for which no error is reported."
  },
  {
   "property": "C51",
   "status": "partial",
   "theorems": [
    "C51_cached_partial",
    "C51_live_partial",
    "C51_hard_link_count_refuted",
    "C51_status_refuted",
    "C51_is_symlink_refuted",
    "C51_directory_size_refuted",
    "C51_status_asserts_refuted",
    "C51_second_query_refuted",
    "C51_missing_exists_refuted",
    "C51_before_epoch_refuted"
   ],
   "note": "For every system and every history of queries and changes: exists(), is_x(), file_size of a regular file and last_write_time after a refresh are the answers of the free functions at the refresh, and without a cached value those at the query. False for the rest: hard_link_count is always 2^64-1, status has no permissions, is_symlink() is false, the size of a directory is 2^64-1 without an error, an entry that was not refreshed stops the program on status() or a second query in debug builds, exists() of a missing file throws, a time before 1970 is undefined behaviour."
  },
  {
   "property": "C52",
   "status": "partial",
   "theorems": [
    "C52_returned_partial",
    "C52_codes_partial",
    "C52_is_x_refuted",
    "C52_missing_refuted"
   ],
   "note": "For every entry, cache state and system: file_size, hard_link_count, last_write_time, status, symlink_status, is_symlink agree in value whenever the throwing overload returns, and in the code when something is cached or the object exists. False for the rest: exists(ec) and is_x(ec) never answer true, and for an entry with nothing cached whose object is missing the error_code overloads clear the code (or fail an assertion)."
  },
  {
   "property": "C53",
   "status": "proved",
   "theorems": [
    "C53_exactly_one"
   ],
   "note": "any interleaving of any number of callers; other processes do nothing else"
  },
  {
   "property": "C54",
   "status": "partial",
   "theorems": [
    "C54_bitwise",
    "C54_options_seen",
    "C54_perms_seen_partial",
    "C54_perms_refuted"
   ],
   "note": "perms::set_gid and perms::sticky_bit are both 0"
  },
  {
   "property": "C55",
   "status": "partial",
   "theorems": [
    "C55_error_partial",
    "C55_first_path_refuted"
   ],
   "note": "the two-path constructor leaves path1 out of what()"
  },
  {
   "property": "C56",
   "status": "proved",
   "theorems": [
    "C56_mapping",
    "C56_other_trustees"
   ],
   "note": "the two trustees beyond owner/group/others read the table out of bounds"
  },
  {
   "property": "C57",
   "status": "proved",
   "theorems": [
    "C57_round_trip",
    "C57_monotone",
    "C57_fraction_lost",
    "C57_before_epoch"
   ],
   "note": ""
  },
  {
   "property": "C58",
   "status": "partial",
   "theorems": [
    "C58_elements_partial",
    "C58_elements_any_drive",
    "C58_drive_letter_refuted",
    "C58_parts",
    "C58_recompose",
    "C58_recompose_partial",
    "C58_recompose_refuted",
    "C58_relocation_texts",
    "C58_relocation_types_refuted"
   ],
   "note": "For every text: the elements and the reported text are those of the grammar when the drive, if any, is a letter (and for every text if any character but a separator may be a drive); the text is the root name, a run of separators and the relative path, and the three parts put together always have the same elements. False for the rest: characters other than letters are taken for drives; the text itself is not recomposed with several separators after the root name, and the root name is rewritten with backslashes."
  },
  {
   "property": "C59",
   "status": "partial",
   "theorems": [
    "C59_attributes_partial",
    "C59_readonly_refuted"
   ],
   "note": "right for every access mask without the read-only attribute; with it the code clears the read bits instead of the write bits"
  },
  {
   "property": "C60",
   "status": "proved",
   "theorems": [
    "C60_no_leak",
    "C60_directory_iterator",
    "C60_recursive_directory_iterator",
    "C60_iterators_open"
   ],
   "note": "exceptions thrown by the standard library (bad_alloc) are not modelled"
  },
  {
   "property": "C61",
   "status": "partial",
   "theorems": [
    "C61_types_partial",
    "C61_directory_partial",
    "C61_asserts_refuted",
    "C61_unset_refuted",
    "C61_untyped_refuted",
    "C61_second_symlink_refuted",
    "C61_stale_size_refuted",
    "C61_is_symlink_refuted",
    "C61_later_symlink_refuted",
    "C61_later_size_refuted",
    "C61_links_partial",
    "C61_symlink_status_refuted"
   ],
   "note": "is_x() and exists() of delivered entries are right for every directory as long as entries are not queried through the iterator before. False for the rest: file_size, times, link counts and status fail an assertion in every debug build and are unset in release builds; a query through the iterator leaves values in the cache that the following entries show as theirs, and every entry after a symlink says it is one (universal forms: C61_is_symlink_refuted, C61_later_symlink_refuted, C61_later_size_refuted). In release builds size, time and status of links are right."
  },
  {
   "property": "C62",
   "status": "partial",
   "theorems": [
    "C62_others",
    "C62_members",
    "C62_members_full",
    "C62_owner_exact",
    "C62_owner_partial",
    "C62_owner_outside_refuted",
    "C62_owner_member_refuted",
    "C62_same_identifier_refuted",
    "C62_read_back_partial",
    "C62_read_back_refuted"
   ],
   "note": "Others and group members have what is asked, for every value. The owner has it for values decreasing from owner to group to others when they belong to the group (and the dual case outside). False for the rest: the owner loses what they share with the group only (outside it) or with others only (inside it); with one identifier for owner and group 0770 leaves no right to anybody; the full rights of a member fail when another operation is refused. The access check of Windows is part of the trusted base."
  },
  {
   "property": "C63",
   "status": "partial",
   "theorems": [
    "C63_types",
    "C63_link_types",
    "C63_same_status",
    "C63_codes_partial",
    "C63_never_throws_refuted",
    "C63_silent_refuted",
    "C63_inherited_refusal_refuted"
   ],
   "note": "Types and permissions are right and failures to reach the file are told in the error_code, for all answers of the system. False for the rest: status(p) never throws, failures come back as type none, and an access control list with an inherited refusal makes an existing file have no status."
  },
  {
   "property": "C64",
   "status": "partial",
   "theorems": [
    "C64_iterates",
    "C64_types_partial",
    "C64_open_fails",
    "C64_directory_link_refuted",
    "C64_hidden_refuted"
   ],
   "note": "Entries, order and errors are right for every directory. Links to directories and junctions are delivered as directories and entered without follow_directory_symlink (refuted), and after a link to a file no directory is entered (refuted)."
  },
  {
   "property": "C65",
   "status": "partial",
   "theorems": [
    "C65_directory_partial",
    "C65_regular_refuted",
    "C65_size_refuted",
    "C65_link_refuted",
    "C65_directory_link_refuted"
   ],
   "note": "Right for directories. A missing break makes the refresh of every regular file fail an assertion, report a stale error or leave type unknown; file_size is 2^64-1 for every file that is no link; links have type reparse_file or cannot be refreshed."
  },
  {
   "property": "C66",
   "status": "proved",
   "theorems": [
    "C66_operations_never_throw",
    "C66_entries_never_throw"
   ],
   "note": "On POSIX, for every noexcept overload with an error_code of fs_ops.h and every noexcept member of directory_entry, against every system. Exceptions from memory allocation are outside the model."
  },
  {
   "property": "C67",
   "status": "partial",
   "theorems": [
    "C67_only_p",
    "C67_there",
    "C67_missing_partial",
    "C67_missing_refuted",
    "C67_true_means_deleted_refuted"
   ],
   "note": "Nothing but the path is deleted, with the right call, against every system. False: a path in a missing directory is an error (code 3); true is returned when somebody else deleted the object in between."
  },
  {
   "property": "C68",
   "status": "partial",
   "theorems": [
    "C68_create_directory",
    "C68_like_partial",
    "C68_like_refuted"
   ],
   "note": "Right without a pattern directory. With one the value is true even when the directory existed or an error was reported."
  },
  {
   "property": "C69",
   "status": "partial",
   "theorems": [
    "C69_rule_partial",
    "C69_source",
    "C69_update_refuted"
   ],
   "note": "The rule is followed for every combination of kinds, options, identities, times and failures, on a system that is changed by nobody else; times are compared in whole seconds and equal ones count as newer, so update_existing can replace a file by an older one (refuted)."
  },
  {
   "property": "C70",
   "status": "partial",
   "theorems": [
    "C70_equivalent_partial",
    "C70_equivalent_refuted",
    "C70_equivalent_missing",
    "C70_file_size_partial",
    "C70_link_refuted",
    "C70_is_empty_partial",
    "C70_hard_link_count"
   ],
   "note": "Right for files that are no links and do not change. False: a file written to between the two questions is not equivalent to itself; file_size and is_empty do not follow links."
  },
  {
   "property": "C72",
   "status": "partial",
   "theorems": [
    "C72_only_below",
    "C72_links_not_entered",
    "C72_count_partial",
    "C72_volume",
    "C72_missing_partial",
    "C72_missing_refuted",
    "C72_vanishing_refuted",
    "C72_emptied_refuted"
   ],
   "note": "Right on every well-formed volume nobody else changes; against every system, only what is below the path is deleted and only directories that are no reparse points are listed. False: a path in a missing directory is an error (code 3); an object that vanishes meanwhile makes it return 2^64 - 1 without error, or 0 without error with the directory left."
  },
  {
   "property": "C73",
   "status": "partial",
   "theorems": [
    "C73_operations_never_throw",
    "C73_permissions_never_throws",
    "C73_space_refuted"
   ],
   "note": "For the operations with an error_code, against every system. space(p, ec) is declared noexcept and throws when the current directory cannot be read (refuted)."
  },
  {
   "property": "C74",
   "status": "partial",
   "theorems": [
    "C74_space_partial",
    "C74_full_disk_refuted",
    "C74_temp_partial",
    "C74_temp_long_refuted"
   ],
   "note": "The numbers and the directory are passed on, failures told. A full disk is reported with 2^64 - 1 free bytes; a temporary directory longer than MAX_PATH gives an empty path without error."
  },
  {
   "property": "C75",
   "status": "partial",
   "theorems": [
    "C75_append",
    "C75_operator_slash",
    "C75_parent_partial",
    "C75_parent_text_partial",
    "C75_host_parent_refuted",
    "C75_colon_parent_refuted",
    "C75_filename"
   ],
   "note": "Joining and filename right for every pair of texts. parent_path gives the right elements if the return is elided or no name ends in a colon. False: the text of the parent of a UNC path has a doubled separator, and a name ending in a colon loses the separator after it."
  },
  {
   "property": "C76",
   "status": "proved",
   "theorems": [
    "C76_generic",
    "C76_no_backslash",
    "C76_same_path"
   ],
   "note": ""
  },
  {
   "property": "C77",
   "status": "partial",
   "theorems": [
    "C77_normal_form_partial",
    "C77_meaning_partial",
    "C77_idempotent_partial",
    "C77_canonical_partial",
    "C77_always_a_result",
    "C77_hidden_drive_refuted"
   ],
   "note": "A result for every text. The rest holds for texts with a drive, host or root directory, and for relative texts none of whose names has a colon as second character. False without that: x\\..\\c:y, a name in the current directory, normalises to a path on drive c."
  },
  {
   "property": "C78",
   "status": "partial",
   "theorems": [
    "C78_always_a_result",
    "C78_unrelated",
    "C78_same",
    "C78_text_partial",
    "C78_meaning_partial",
    "C78_hidden_drive_refuted"
   ],
   "note": "Totality, the empty and the dot result, and lexically_proximate for all pairs. The meaning of the result needs a base whose extra elements are ordinary names (as on POSIX) and a first name that does not look like a drive. False without that: c:y in \\d, relative to \\d, is a path on drive c."
  },
  {
   "property": "C71",
   "status": "partial",
   "theorems": [
    "C71_sound_partial",
    "C71_complete_partial",
    "C71_one_place",
    "C71_idempotent_partial",
    "C71_codes_refuted",
    "C71_empty_on_error_refuted",
    "C71_ends_refuted",
    "C71_links_refuted",
    "C71_drive_refuted"
   ],
   "note": "Result and success for paths and links with a drive and a root directory, or relative, without colons in names; current directory on a drive. Of a missing place Windows gives any code but 32. False: every failure is told as 2; a file followed by a dot gives a code and a path; so does the 40th link; C:\\z\\..\\z with a link z to itself never ends; a link whose text is \\f gives a result without drive. Hosts, C:a and names with colons are left out."
  },
  {
   "property": "C79",
   "status": "partial",
   "theorems": [
    "C79_as_it_is",
    "C79_after_current",
    "C79_failure",
    "C79_qualified_partial",
    "C79_qualified_refuted",
    "C79_place_partial"
   ],
   "note": "All of it but one case: a path with a drive other than the current one, or the same in another case, and no separator after it, is returned on its own and is not fully qualified."
  },
  {
   "property": "C80",
   "status": "partial",
   "theorems": [
    "C80_read",
    "C80_read_failure",
    "C80_junction_refuted",
    "C80_create_symlink",
    "C80_create_directory_symlink",
    "C80_create_hard_link",
    "C80_copy_symlink_partial",
    "C80_copy_symlink_refuted"
   ],
   "note": "Symbolic links are read right; junctions, also called symbolic links by is_symlink, are read two characters too late. copy_symlink looks for the target from the current directory: the kind of the new link is that of what is there, and with nothing there it fails."
  },
  {
   "property": "C81",
   "status": "partial",
   "theorems": [
    "C81_rename",
    "C81_set_current_path",
    "C81_resize_unopened",
    "C81_resize_partial",
    "C81_resize_refuted",
    "C81_time_partial",
    "C81_set_time_partial",
    "C81_old_time_refuted",
    "C81_time_round_trip_partial"
   ],
   "note": "Sizes below 2^63; above, a negative size is asked for. Times from 1970 on whose nanoseconds fit in 64 bits; fractions of a second are lost, earlier times refused. SetFilePointerEx and SetEndOfFile are one step."
  },
  {
   "property": "C82",
   "status": "partial",
   "theorems": [
    "C82_tree_partial",
    "C82_only_prefixes_partial",
    "C82_trailing_refuted",
    "C82_file_refuted",
    "C82_race_refuted",
    "C82_empty"
   ],
   "note": "Paths with no root name or a drive, single backslashes, no colon in a name; \".\" and \"..\" included. A trailing separator makes the call do nothing, a file in the place of the directory is no error, and ERROR_ALREADY_EXISTS counts as created. Links in the path and hosts are left out."
  },
  {
   "property": "C83",
   "status": "partial",
   "theorems": [
    "C83_only_below",
    "C83_reports",
    "C83_source",
    "C83_target",
    "C83_table_partial",
    "C83_create_symlinks_refuted"
   ],
   "note": "Where a copy may change something and what it reports hold on any system whose listings give entry names. The table is for a system that answers the same throughout; what a tree copy does inside is C84. A link copied with create_symlinks alone becomes a link, where an error was called for."
  },
  {
   "property": "C84",
   "status": "partial",
   "theorems": [
    "C84_tree_partial",
    "C84_none_refuted",
    "C84_into_itself_refuted",
    "C84_listing_refuted"
   ],
   "note": "Into a new or empty directory that is not inside the source, on a disk without links; create_symlinks and create_hard_links are left out. The options none copy the whole tree, not one level; a copy into the source itself never ends; a read error half-way in a directory is dropped."
  },
  {
   "property": "C85",
   "status": "partial",
   "theorems": [
    "C85_direct_partial",
    "C85_prefix_partial",
    "C85_nothing_partial",
    "C85_prefix_error_refuted",
    "C85_relative_runs",
    "C85_relative_partial",
    "C85_relative_drives_refuted",
    "C85_current_directory_refuted"
   ],
   "note": "For a system that answers the same throughout, and texts without a host and without colons in names; relative of paths that do not exist only as one run of weakly_canonical for each. A prefix that cannot be examined or made canonical gives an empty path without an error; drive letters that differ in case count as different drives; relative(p, ec) throws without a current directory."
  },
  {
   "property": "C86",
   "status": "partial",
   "theorems": [
    "C86_filename_stem_extension",
    "C86_cut_unique",
    "C86_queries",
    "C86_remove_filename",
    "C86_replace_filename",
    "C86_replace_own_filename",
    "C86_replace_extension",
    "C86_replace_extension_reads_back",
    "C86_replace_own_extension",
    "C86_make_preferred",
    "C86_make_preferred_path_partial",
    "C86_make_preferred_refuted"
   ],
   "note": "All of it for every text, except that make_preferred of a text that starts with two different separators and a name shows the text of a host path while keeping the elements of a rooted one (refuted)."
  },
  {
   "property": "C87",
   "status": "partial",
   "theorems": [
    "C87_compare_lexicographic",
    "C87_compare_order",
    "C87_equal_texts",
    "C87_hash_consistent",
    "C87_standard_order_partial",
    "C87_standard_order_refuted",
    "C87_standard_drive_refuted",
    "C87_posix_order_refuted"
   ],
   "note": "Order, equality and hash hold for every path. The order is not the one of the C++ standard: the root directory and the root name are compared with names as characters, so a lower-case name comes after every rooted path (refuted on Windows and on POSIX); between paths with the same kind of root it is the standard one. Paths returned by lexically_normal under the condition of C77."
  },
  {
   "property": "C88",
   "status": "proved",
   "theorems": [
    "C88_streams",
    "C88_all_closed",
    "C88_copies",
    "C88_recursive_copies",
    "C88_after_the_end",
    "C88_recursive_after_the_end",
    "C88_recursive_after_error",
    "C88_separate",
    "C88_pending"
   ],
   "note": "For the POSIX streams. A program is cut where its behaviour is undefined."
  },
  {
   "property": "C89",
   "status": "proved",
   "theorems": [
    "C89_self",
    "C89_self_move_refuted",
    "C89_elements",
    "C89_append_element",
    "C89_append_root_refuted",
    "C89_replace_filename_self",
    "C89_replace_filename_self_refuted",
    "C89_replace_filename_element",
    "C89_replace_extension_self",
    "C89_replace_extension_self_refuted"
   ],
   "note": "The exceptions are the theorems ending in _refuted and C89_replace_filename_element."
  },
  {
   "property": "C90",
   "status": "proved",
   "theorems": [
    "C90_parallel",
    "C90_finish",
    "C90_alone",
    "C90_true",
    "C90_who_made_it_refuted"
   ],
   "note": "paths without \".\" and \"..\" and without trailing separator; the calls have one current directory; the exception is C90_who_made_it_refuted"
  },
  {
   "property": "C91",
   "status": "proved",
   "theorems": [
    "C91_text_before_nul",
    "C91_wrong_file_refuted",
    "C91_remove_all_refuted",
    "C91_entries_refuted",
    "C91_create_directories_refuted"
   ],
   "note": "POSIX; copy, weakly_canonical, relative and recursive iterators on such paths not treated; create_directories by one case"
  },
  {
   "property": "C92",
   "status": "partial",
   "theorems": [
    "C92_reading_partial",
    "C92_alone",
    "C92_outside",
    "ends_once",
    "bounds_do_not_matter",
    "C92_shortened_refuted",
    "C92_into_itself_refuted"
   ],
   "note": "POSIX. False as stated: a source shortened during the transfer with sendfile, and a directory copied into itself, are endless. The termination of a recursive copy is proved for the trees of C34."
  },
  {
   "property": "C93",
   "status": "partial",
   "theorems": [
    "C93_no_leak_partial",
    "C93_directory_iterator_partial",
    "C93_recursive_directory_iterator_partial",
    "C93_iterators_valid",
    "C93_conversion_refuted",
    "C93_same_results",
    "C93_transfer"
   ],
   "note": "Assumes that nowide can convert every file name; without that the iterator constructors lose the search handle (refuted, for every system). C93_same_results: the models with calls taken together allow every result of the models with single calls, for the operations on single files."
  },
  {
   "property": "C94",
   "status": "partial",
   "theorems": [
    "C94_permissions",
    "C94_in_effect",
    "C94_add_takes_away_refuted",
    "C94_option_count_refuted"
   ],
   "note": "False as stated: add on a read-only file (for every system that refuses nothing) and the number of options in builds without assertions. What Windows makes of the entries is the reading of WinAclModel.v."
  },
  {
   "property": "C95",
   "status": "partial",
   "theorems": [
    "C95_any_source",
    "C95_any_range",
    "C95_unterminated",
    "C95_no_nul",
    "C95_nul",
    "C95_wide",
    "C95_wide_round_trip",
    "C95_wide_round_trip_path",
    "C95_wide_kept",
    "C95_generic",
    "C95_in_pieces",
    "C95_halves_refuted",
    "C95_host_in_pieces_refuted"
   ],
   "note": "False as stated: adding in pieces, for every character outside the basic plane and every host name. The conversion library (nowide, not in the repository) is a parameter with the promises narrows, widens and replaces."
  },
  {
   "property": "C96",
   "status": "partial",
   "theorems": [
    "C96_histories_partial",
    "C96_parts",
    "C96_windows",
    "C96_both_systems_partial",
    "C96_elided_parent_refuted"
   ],
   "note": "Histories on both systems, also with arguments that are the modified path or its elements, in builds without the two elisions of return values that C14 shows to damage paths. With the elision of parent_path it is false: the relative part of such a parent can start inside a character."
  },
  {
   "property": "C97",
   "status": "partial",
   "theorems": [
    "C97_histories_partial",
    "C97_queries_partial",
    "C97_elided_parent_refuted"
   ],
   "note": "Both systems, arguments may alias the path. Missing: histories that keep an elided result of parent_path (refuted) or lexically_normal (refuted by C14_normal_then_remove_filename_refuted). Appending the first element of a path to that path is undefined (C89)."
  },
  {
   "property": "C98",
   "status": "proved",
   "theorems": [
    "C98_directory",
    "C98_tree",
    "C98_compare",
    "C98_distinct",
    "C98_once",
    "C98_at_end"
   ],
   "note": ""
  },
  {
   "property": "C99",
   "status": "proved",
   "theorems": [
    "C99_merge"
   ],
   "note": ""
  },
  {
   "property": "C100",
   "status": "proved",
   "theorems": [
    "C100_queries",
    "C100_creators",
    "C100_removers",
    "C100_setters"
   ],
   "note": ""
  },
  {
   "property": "C101",
   "status": "partial",
   "theorems": [
    "C101_create_directory",
    "C101_create_symlink",
    "C101_copy_symlink",
    "C101_create_hard_link",
    "C101_copy_file",
    "C101_copy_tree_partial",
    "C101_rename",
    "C101_dangling_refuted"
   ],
   "note": "Missing: copies of trees that C34 excludes, and rename by paths that are not the absolute text of a place. copy_file to a symlink that leads nowhere makes a file that remove does not take away (C101_dangling_refuted)."
  },
  {
   "property": "C102",
   "status": "partial",
   "theorems": [
    "C102_bounds",
    "C102_honest",
    "C102_calls_partial",
    "C102_stays_partial",
    "C102_link_refuted"
   ],
   "note": "The texts of the calls keep within p on every system (C102_bounds). That nothing outside p changes holds while other processes bring no symlink to p, above or below it (C102_calls_partial, C102_stays_partial, for the absolute text of a place). In general it is false: a symlink put in the place of a directory between lstat and opendir is followed, and what it leads to is emptied (C102_link_refuted)."
  },
  {
   "property": "C103",
   "status": "proved",
   "theorems": [
    "C103_copy"
   ],
   "note": "Any system that answers readdir with names without slashes (C102_honest shows the file system with other processes is one). It is about the texts and descriptors named in the calls: what a symlink in the target leads to is not bounded by it."
  },
  {
   "property": "C104",
   "status": "proved",
   "theorems": [
    "C104_queries",
    "C104_changes"
   ],
   "note": "The calls with their handles of WinHandleModel.v. What copy looks at is not bounded by name (it asks about the text of a symlink too); what it changes is."
  },
  {
   "property": "C105",
   "status": "proved",
   "theorems": [
    "C105_told",
    "C105_code",
    "C105_first"
   ],
   "note": "Any system. The answers of close and closedir are not looked at by the library and have no code in the model; short writes are C30. weakly_canonical, relative and proximate are left out: they do not report what fails after the first status (C46)."
  },
  {
   "property": "C106",
   "status": "proved",
   "theorems": [
    "C106_told",
    "C106_code",
    "C106_how",
    "C106_status",
    "C106_listing"
   ],
   "note": "Any system, at the level of single Windows calls. A call that fails without an error (GetLastError 0) counts as not having failed, since the library cannot tell; C106_status and C106_listing state the two places where failures are lost. canonical, weakly_canonical, create_directories, temp_directory_path and the iterators are left out."
  },
  {
   "property": "C107",
   "status": "partial",
   "theorems": [
    "C107_agree_partial",
    "C107_canonical_partial",
    "C107_directory_refuted",
    "C107_canonical_refuted",
    "C107_temp_refuted"
   ],
   "note": "Any system, at the level of single Windows calls. Missing from full agreement: status and symlink_status (the throwing forms never throw, C106_status), the codes of canonical and what is built on it (C107_canonical_refuted), systems without a current directory for space, relative(p) and proximate(p) (C107_directory_refuted), and temp_directory_path in a release build when the name is too long (C107_temp_refuted)."
  },
  {
   "property": "C108",
   "status": "proved",
   "theorems": [
    "C108_single",
    "C108_files",
    "C108_several_refuted",
    "C108_windows",
    "C108_windows_refuted"
   ],
   "note": "C108_single and C108_windows for any system; C108_files on the file system model. That single system calls are themselves atomic is the business of the system (CopyFileW in particular)."
  },
  {
   "property": "C109",
   "status": "proved",
   "theorems": [
    "C109_create_directory",
    "C109_remove",
    "C109_remove_all",
    "C109_resize_file",
    "C109_last_write_time",
    "C109_permissions",
    "C109_current_path",
    "C109_current_path_refuted",
    "C109_copy_file",
    "C109_links_refuted",
    "C109_rename_refuted"
   ],
   "note": "POSIX, on the file system model. remove_all for the paths of C28, copy_file for regular files; create_directories asked for again is in C26_create_directories_partial. Times that system calls change by themselves (reading, writing, truncating) are not in the model."
  },
  {
   "property": "C110",
   "status": "proved",
   "theorems": [
    "C110_answers",
    "C110_is_empty",
    "C110_canonical",
    "C110_absolute",
    "C110_relative"
   ],
   "note": "POSIX, on the file system model. read_symlink and is_symlink for systems without symlinks of empty text (symlink(2) makes none). relative of paths that do not exist is in C45 and C46."
  },
  {
   "property": "C111",
   "status": "proved",
   "theorems": [
    "C111_absolute",
    "C111_create_directories",
    "C111_create_directories_elided",
    "C111_relative",
    "C111_effect"
   ],
   "note": "POSIX, on the file system model. The converse of C111_relative fails only for paths that follow more symlinks than the system allows when p is put in front. C111_effect is for operations that make one change; in copies and removals of trees the current directory itself may disappear on the way."
  }
 ]
}