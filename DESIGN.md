# Formal model of abdes/asap_filesystem

The code under study is the C++14 filesystem library in `/repo`. The model and the proofs are in
Rocq (Coq 8.16.1) under `rocq/theories/`. Nothing in `/repo` was built, run or changed: the model was written by
reading the source. `properties.jsonl` states the properties in English, `MANIFEST.json` names the theorems,
`seeded/LOG.jsonl` records the wrong programs the theorems were tried on.

## Layers of the model

1. **Paths** (`Str.v`, `PathModel.v`). A path value is the record the class has: text (`pathname_`), element
   cache (`components_`, each with text, type and byte offset) and representation tag (`type_`). Every member function
   is transcribed as a total function. Exceptions, failed assertions and undefined behaviour (for example `std::prev` of
   `begin()`) are separate outcomes of the type `out`, never defaults. The platform (`ASAP_WINDOWS` or not) is a parameter.
   Whether the compiler elides the copy in `return ret;` is a parameter too, because the move constructor re-splits the
   text and a copy-elided return does not.
2. **Arithmetic and flags** (`FlagsModel.v`, `TimeModel.v`, `ErrorModel.v`, `WinPermsModel.v`). 64-bit arithmetic is
   written out over `Z`/`N` with explicit range checks; signed overflow is an outcome of its own, or wraps (a parameter).
3. **Programs over system calls** (`Prog.v`, `DirModel.v`, `OpsModel.v`). A library function is a program: a tree whose
   nodes are system calls and whose branches are the possible answers. `DirModel.v` has status, `directory_entry` and
   the iterators; `OpsModel.v` everything in `fs_ops.cpp`. A program can be run against any kernel (any state machine
   that answers calls), so that claims hold for every behaviour of the system and of other processes; or against the file
   system of layer 4. Whether assertions are compiled in, whether sendfile is used and whether returns are elided are parameters.
4. **A POSIX file system** (`FS.v`). Directories, symlinks, regular files with contents, times, modes and link counts;
   name resolution with symlink following and a loop limit; short reads, writes and transfers chosen by an oracle. This is
   part of the trusted base: it is our reading of POSIX, not of the repository. `FSSpec.v` has the vocabulary of the statements.
5. **Windows** (`WinAclModel.v`, `WinStatModel.v`, `WinOpsModel.v`). The branches under `ASAP_WINDOWS` that ask the system,
   as functions of records of the system's answers, or as programs over the calls. `WinHandleModel.v` has the same branches with
   every single call on handles and memory blocks; the conversion of names by nowide is a parameter of it.

Specifications (`PathSpec.v`, `FSSpec.v`, the first sections of the `*Props.v` files) are written independently of the model
functions, in terms of strings, lists and file system contents. Final statements are in the files named below, each with a
concrete instance beside it and its `Print Assumptions`.

Where the code does not satisfy the property, there is a theorem `..._refuted` with a concrete counterexample (or for
every state), and what does hold is proved as `..._partial`; the English property is kept as it is in `properties.jsonl`.

## Properties

### C01 Constructing a path keeps the text — proved

*Modelled:* `SplitComponents`, `Trim`, constructors, assignment. *Proof:* structural induction on the scan loop; the element cache is characterised for every text. *Theorems* (`PathProps.v`): `C01_text_kept`.

### C02 Root decomposition — proved

*Modelled:* `root_name`, `root_directory`, `root_path`, `relative_path`. *Proof:* from the characterisation of the cache; for either choice of copy elision. *Theorems* (`PathProps.v`): `C02_root_decomposition`. *Note:* any return-value elision.

### C03 Iteration yields the grammar's elements — proved

*Modelled:* `path::iterator`, `begin`, `end`, increment, decrement. *Proof:* simulation of the iterator by an index into the list of elements. *Theorems* (`PathProps.v`): `C03_iteration`, `C03_steps_inverse`.

### C04 filename and parent_path — proved

*Modelled:* `filename`, `parent_path`. *Proof:* element characterisation; position of the last separator. *Theorems* (`PathProps.v`): `C04_filename_parent`, `C04_recompose`. *Note:* any return-value elision.

### C05 stem and extension — proved

*Modelled:* `stem`, `extension`, `FindExtension`. *Proof:* string lemmas on the last dot. *Theorems* (`PathProps.v`): `C05_stem_extension`.

### C06 has_* queries agree with the decomposition — proved

*Modelled:* `has_*`, `empty`, `is_absolute`. *Proof:* each query against the decomposition it is about. *Theorems* (`PathProps.v`): `C06_queries`.

### C07 compare is a total order on element sequences — proved

*Modelled:* `compare`, comparison operators. *Proof:* compare is lexicographic comparison of elements; order laws of that. *Theorems* (`PathProps.v`): `C07_compare_lexicographic`, `C07_compare_order`. *Note:* representations: built from text, default, and results of parent_path/lexically_normal under any elision.

### C08 hash_value is consistent with equality — proved

*Modelled:* `hash_value`. *Proof:* equal element lists give equal hash input; the hash of a string is an arbitrary function. *Theorems* (`PathProps.v`): `C08_hash_consistent`.

### C09 operator/= semantics — proved

*Modelled:* `operator/=` with every capacity branch. *Proof:* element characterisation of the result; capacities universally quantified. *Theorems* (`PathProps.v`): `C09_append_text`, `C09_append_elements`, `C09_capacity_independent`, `C09_division`.

### C10 append is associative and has a left identity — proved

*Modelled:* `operator/=`. *Proof:* from C09 on texts. *Theorems* (`PathProps.v`): `C10_associative`, `C10_left_identity`, `C10_empty_middle_differs`.

### C11 operator+= is text concatenation — proved

*Modelled:* `operator+=`, `concat`. *Proof:* re-splitting of the concatenated text. *Theorems* (`PathProps.v`): `C11_concat`.

### C12 remove_filename and replace_filename — proved

*Modelled:* `remove_filename`, `replace_filename`. *Proof:* offsets in the cache are exact positions. *Theorems* (`PathProps.v`): `C12_remove_filename`, `C12_replace_filename`, `C12_replace_own`.

### C13 replace_extension — proved

*Modelled:* `replace_extension`. *Proof:* text of the result, then C05 on it. *Theorems* (`PathProps.v`): `C13_replace_extension_text`, `C13_replace_extension_reads_back`, `C13_replace_own`.

### C14 A path's behaviour is determined by its text — partial

*Modelled:* all mutating operations as a command language over path variables. *Proof:* invariant over command sequences of any length. *Theorems* (`PathProps.v`, `AliasReach.v`): `C14_text_determines_partial`, `C14_aliased_partial`, `C14_aliased_plain`, `C14_text_determines_refuted`, `C14_normal_then_remove_filename_refuted`, `C14_parent_then_remove_filename_refuted`. *Note:* C14_aliased_partial: whatever is copy-elided, for histories that keep no elided result of parent_path or lexically_normal; those results refute it; arguments may alias the path (what that does: C89).

### C15 lexically_normal yields a normal form — proved

*Modelled:* `lexically_normal`. *Proof:* loop invariant relating the growing path to a stack of elements. *Theorems* (`PathProps.v`): `C15_normal_form`.

### C16 lexically_normal preserves meaning — proved

*Modelled:* `lexically_normal`. *Proof:* the same invariant read as a walk of names. *Theorems* (`PathProps.v`): `C16_normal_meaning`.

### C17 lexically_normal is idempotent and canonical — proved

*Modelled:* `lexically_normal`. *Proof:* the normal form is a function of the meaning. *Theorems* (`PathProps.v`): `C17_idempotent`, `C17_canonical`.

### C18 lexically_relative and lexically_proximate — proved

*Modelled:* `lexically_relative`, `lexically_proximate`. *Proof:* element lists, then appending the result to the base and C16. *Theorems* (`PathProps.v`): `C18_lexically_relative`, `C18_lexically_proximate`, `C18_trailing_slash_refuted`. *Note:* the refutation shows why the remaining base elements must be names or ".".

### C19 generic_string on POSIX — proved

*Modelled:* `generic_string`, `make_generic`. *Proof:* induction on the text. *Theorems* (`PathProps.v`): `C19_generic`.

### C20 Stream insertion and extraction round-trip — proved

*Modelled:* `operator<<`, `operator>>` with `std::quoted`. *Proof:* induction on the text. *Theorems* (`PathProps.v`): `C20_stream_round_trip`.

### C21 Move, swap, clear and assign — proved

*Modelled:* move, swap, clear, assign. *Proof:* field by field. *Theorems* (`PathProps.v`): `C21_moves`.

### C22 error_code and throwing overloads agree — partial

*Modelled:* every operation with and without `error_code`, `ErrorHandler`. *Proof:* simulation relation between the programs of the two overloads, for every kernel. *Theorems* (`OpsProps.v`, `FSCreate.v`): `C22_overloads_agree_partial`, `C22_getcwd_succeeds_partial`, `C22_create_directories_partial`, `C22_status_partial`, `C22_status_missing_refuted`, `C22_create_directories_throws_refuted`, `C22_canonical_code_refuted`, `C22_relative_throws_refuted`. *Note:* 31 operations agree for every kernel; canonical, weakly_canonical, relative, proximate when getcwd succeeds; create_directories when stat fails only for missing files; the four refutations show the remaining cases are false of the code.

### C23 status classification — proved

*Modelled:* `CreateFileStatus`, `status`, `symlink_status`. *Proof:* case analysis over every answer of stat. *Theorems* (`OpsProps.v`): `C23_status`.

### C24 file type predicates partition — proved

*Modelled:* type predicates. *Proof:* case analysis over file types. *Theorems* (`OpsProps.v`): `C24_partition`.

### C25 create_directory — partial

*Modelled:* `create_directory`. *Proof:* run on the file system of `FS.v`. *Theorems* (`FSProps.v`, `FSLike.v`): `C25_create_directory_partial`, `C25_creates_partial`, `C25_mode_partial`, `C25_like_partial`, `C25_like_creates_partial`, `C25_existing_file_refuted`. *Note:* an existing file that is no directory gives false without an error.

### C26 create_directories — partial

*Modelled:* `create_directories`. *Proof:* induction on the number of missing directories. *Theorems* (`FSCreate.v`, `FSCreateFail.v`): `C26_create_directories_partial`, `C26_succeeds_partial`, `C26_existing_file_refuted`, `C26_dangling_refuted`, `C26_trailing_refuted`, `C26_many_slashes_refuted`, `C26_empty`, `C26_blocked`. *Note:* proved for every state and depth for paths of names without trailing separator that do not name a file or a dangling symlink; refuted for all paths that do, for all with a trailing separator, and, when the return of parent_path is elided, for all with several names and more leading slashes than the first has letters (endless loop or std::out_of_range).

### C27 remove — proved

*Modelled:* `remove`. *Proof:* run on the file system. *Theorems* (`FSProps.v`): `C27_remove`, `C27_removes`. *Note:* on the file system of FS.v.

### C28 remove_all deletes exactly the subtree and counts it — partial

*Modelled:* `remove_all`. *Proof:* induction on the subtree; the count is its number of names. *Theorems* (`FSRemove.v`): `C28_remove_all_partial`, `C28_any_entry`, `C28_missing`, `C28_symlink_slash_refuted`, `C28_dot_refuted`, `C28_through_itself_refuted`, `C28_below_file_refuted`. *Note:* proved for every tree and every path whose last component is a name and that does not lead through the subtree itself; the refuted theorems show the remaining paths: symlink with trailing slash, final dot, path through itself, path through a file.

### C29 remove_all under interference — partial

*Modelled:* `remove_all` with interference. *Proof:* any kernel that answers any call anyhow; the count bounds the successful remove calls; schedules as counterexamples. *Theorems* (`RaceProps.v`): `C29_count_partial`, `C29_count_refuted`, `C29_zero_refuted`, `C29_left_refuted`. *Note:* false as stated: a concurrent deletion makes remove_all return 2^64-1 or 0 without error; proved over every kernel when no remove call loses the race.

### C30 copy_file copies the bytes — partial

*Modelled:* `copy_file`, read/write and sendfile loops. *Proof:* loop invariant over all lengths of transfers. *Theorems* (`FSCopy.v`, `CopyEnds.v`): `C30_copies_bytes_partial`, `C30_short_write_refuted`, `C30_unsized_refuted`. *Note:* Proved for every state, options and sequence of reads and sendfile transfers: true implies a regular source, a destination with its permissions, everything else unchanged, and equal content when sendfile is used or writes are not cut short. Short writes lose bytes silently, and with sendfile a source whose reported size is 0 (as below /proc) is copied as an empty file (refuted).

### C31 copy_file decision table — partial

*Modelled:* `copy_file`, its checks. *Proof:* case analysis on state and options. *Theorems* (`FSCopy.v`): `C31_table_partial`, `C31_options_refuted`, `C31_symlink_refuted`. *Note:* The whole table except: several existing-file options are accepted (refuted), and a destination that is a symlink to an existing file is refused with bad_file_descriptor instead of being overwritten.

### C32 copy_file acts on the file it checked — partial

*Modelled:* `copy_file` with interference between any two calls. *Proof:* rely/guarantee: invariant over all interference; counterexample schedules. *Theorems* (`RaceCopy.v`): `C32_checked_partial`, `C32_swapped_refuted`, `C32_appears_refuted`. *Note:* False as stated: the name can be given to a victim for the open and back for the second check, and a symlink that appears after the check of a missing destination is followed. Proved for every interleaving in which the name is not given back to the checked file: only the checked file is changed.

### C33 copy option dispatch — partial

*Modelled:* `copy`, dispatch. *Proof:* case analysis on state and options, with the state unchanged on rejection. *Theorems* (`FSDispatch.v`): `C33_rejected`, `C33_nothing_done`, `C33_symlink_copied`, `C33_symlink_created`, `C33_hard_link_created`, `C33_file_copied`, `C33_contradictory_refuted`, `C33_followed_refuted`. *Note:* Every branch is proved for every option set and state, with the state unchanged on rejection. False as stated in two points: contradictory options are accepted, and a symlink to a regular file that is to be followed is refused with not_supported instead of being copied.

### C34 recursive copy reproduces the tree — partial

*Modelled:* `copy` with the directory loop. *Proof:* induction on the tree. *Theorems* (`FSCopyTree.v`): `C34_copy_tree_partial`, `C34_symlink_refuted`, `C34_read_error_refuted`. *Note:* Proved for every tree of directories and regular files (and symlinks with copy_symlinks), any depth and size, with permissions, when no write is cut short. False as stated: a symlink to a file in the source stops the copy with not_supported unless copy_symlinks is given, and a readdir error ends the copy early without an error.

### C35 symlink and hard link operations — partial

*Modelled:* `create_symlink`, `create_hard_link`, `read_symlink`, `copy_symlink`. *Proof:* run on the file system. *Theorems* (`FSProps2.v`, `FSLike.v`): `C35_create_symlink`, `C35_create_directory_symlink`, `C35_copy_symlink_partial`, `C35_symlink_round_trip_partial`, `C35_long_target_refuted`, `C35_create_hard_link`, `C35_hard_link_counts`. *Note:* read_symlink cuts a target longer than pathconf allows without an error.

### C36 rename — proved

*Modelled:* `rename`. *Proof:* run on the file system. *Theorems* (`FSProps3.v`): `C36_rename`, `C36_renames`. *Note:* on the file system of FS.v.

### C37 file_size, resize_file, is_empty, hard_link_count — proved

*Modelled:* `file_size`, `resize_file`, `is_empty`, `hard_link_count`. *Proof:* run on the file system. *Theorems* (`FSProps3.v`, `FSIter.v`): `C37_file_size`, `C37_hard_link_count`, `C37_resize_file`, `C37_is_empty`. *Note:* on the file system of FS.v.

### C38 equivalent is an equivalence relation — proved

*Modelled:* `equivalent`. *Proof:* run on the file system; identity of objects is an equivalence. *Theorems* (`FSProps2.v`): `C38_equivalent`, `C38_relation`. *Note:* on the file system of FS.v.

### C39 permissions algebra — partial

*Modelled:* `permissions` and its options. *Proof:* bit algebra on N and the file system. *Theorems* (`FSProps3.v`): `C39_permissions`, `C39_option_count_partial`, `C39_option_count_refuted`. *Note:* none or several actions is an assertion in debug builds and not detected in release builds.

### C40 last_write_time round-trip — proved

*Modelled:* `last_write_time`, both overload pairs. *Proof:* C41 and the file system. *Theorems* (`FSProps3.v`): `C40_round_trip`, `C40_before_epoch`. *Note:* on the file system of FS.v.

### C41 time conversion never overflows silently — partial

*Modelled:* `ToFileTime`, `FromFileTime`-style conversions. *Proof:* integer arithmetic with overflow as an outcome. *Theorems* (`ArithProps.v`): `C41_exact_partial`, `C41_exact_before_epoch_partial`, `C41_before_epoch_refuted`, `C41_overflow_refuted`, `C41_wrong_value_refuted`. *Note:* exact for representable non-negative times; with strict signed arithmetic times before 1970 and out of range times overflow, and value_too_large is never reported.

### C42 space reports exact products — partial

*Modelled:* `space`. *Proof:* arithmetic modulo 2^64. *Theorems* (`OpsProps.v`): `C42_space_partial`, `C42_full_disk_refuted`. *Note:* a block count of 0 is reported as the maximum.

### C43 temp_directory_path — proved

*Modelled:* `temp_directory_path`. *Proof:* every environment and kernel. *Theorems* (`OpsProps.v`): `C43_temp_directory_path`.

### C44 absolute and current_path — proved

*Modelled:* `absolute`, `current_path`. *Proof:* run on the file system; the text of a place leads to the place. *Theorems* (`FSProps4.v`): `C44_absolute`, `C44_no_directory`, `C44_change_directory`. *Note:* on the file system of FS.v.

### C45 canonical and weakly_canonical — partial

*Modelled:* `canonical`, `weakly_canonical`. *Proof:* realpath of the file system; induction on the elements. *Theorems* (`FSProps4.v`): `C45_canonical_partial`, `C45_empty_refuted`, `C45_weakly_canonical_partial`. *Note:* canonical of the empty path gives the current directory.

### C46 relative and proximate — partial

*Modelled:* `relative`, `proximate`. *Proof:* every kernel; C18. *Theorems* (`OpsProps.v`): `C46_relative_partial`, `C46_error_swallowed_refuted`. *Note:* errors found inside weakly_canonical are swallowed.

### C47 directory_iterator enumerates the directory — proved

*Modelled:* `directory_iterator`, `DirectoryStream`. *Proof:* induction on the remaining entries, read errors at any position. *Theorems* (`IterProps.v`, `FSIter.v`): `C47_iterates`, `C47_directory`. *Note:* C47_iterates is over every kernel with read errors at any position, C47_directory on the file system of FS.v.

### C48 recursive iteration is a complete preorder walk — partial

*Modelled:* `recursive_directory_iterator`. *Proof:* induction on the tree with the stack of streams. *Theorems* (`FSWalk.v`, `FSFollow.v`): `C48_visits_partial`, `C48_whole_tree_partial`, `C48_follow_enters_nothing_refuted`, `C48_follow_flat_refuted`, `C48_untyped_ends_refuted`, `C48_hidden_refuted`, `C48_after_symlink_refuted`, `C48_follow_refuted`, `C48_untyped_refuted`. *Note:* On the file system model, with entry types told by the system and follow_directory_symlink not set, the loop ends on every tree and visits exactly the places not below a directory that comes after a symlink in its parent, once each, parents first, with depth; so the whole tree if no symlink precedes a directory. False in general: a symlink hides later directories, follow_directory_symlink never enters a directory (for every system; on the file system model every walk with it shows just the entries of the directory itself), and DT_UNKNOWN entries end the walk of every directory that is not empty with ENOENT.

### C49 pop and disable_recursion_pending — partial

*Modelled:* `pop`, `disable_recursion_pending`. *Proof:* the same invariant, stopped at an entry. *Theorems* (`FSWalk.v`): `C49_pop_partial`, `C49_disable_partial`, `C49_pop_next`, `C49_pop_top`, `C49_disable_next`. *Note:* pop and disable_recursion_pending on every system move to the next entry delivered by the parent or the same stream. On the file system model, what remains after them is what remained less what is in the directory left (below the entry not entered); partial because the order of visits is that of C48, under the conditions of C48.

### C50 skip_permission_denied — partial

*Modelled:* `skip_permission_denied`. *Proof:* file system with a set of unreadable directories. *Theorems* (`FSWalk.v`): `C50_constructors`, `C50_increment`, `C50_tree_partial`, `C50_not_tried_refuted`. *Note:* On every system: the constructors and the increment from a directory entry treat EACCES as an empty directory with the option, and otherwise report it and become the end iterator with all streams closed. On the file system model with unreadable directories the whole walk visits what is not below them. Missing: directories the iterator does not try at all (after a symlink, or with follow_directory_symlink), for which no error is reported.

### C51 directory_entry answers from its cache consistently — partial

*Modelled:* `directory_entry`, its cache, `refresh`. *Proof:* invariant over histories of queries and changes. *Theorems* (`EntryProps.v`): `C51_cached_partial`, `C51_live_partial`, `C51_hard_link_count_refuted`, `C51_status_refuted`, `C51_is_symlink_refuted`, `C51_directory_size_refuted`, `C51_status_asserts_refuted`, `C51_second_query_refuted`, `C51_missing_exists_refuted`, `C51_before_epoch_refuted`. *Note:* For every system and every history of queries and changes: exists(), is_x(), file_size of a regular file and last_write_time after a refresh are the answers of the free functions at the refresh, and without a cached value those at the query. False for the rest: hard_link_count is always 2^64-1, status has no permissions, is_symlink() is false, the size of a directory is 2^64-1 without an error, an entry that was not refreshed stops the program on status() or a second query in debug builds, exists() of a missing file throws, a time before 1970 is undefined behaviour.

### C52 directory_entry error_code overloads agree with throwing ones — partial

*Modelled:* `directory_entry`, overload pairs. *Proof:* case analysis over cache states, for every kernel. *Theorems* (`EntryProps.v`): `C52_returned_partial`, `C52_codes_partial`, `C52_is_x_refuted`, `C52_missing_refuted`. *Note:* For every entry, cache state and system: file_size, hard_link_count, last_write_time, status, symlink_status, is_symlink agree in value whenever the throwing overload returns, and in the code when something is cached or the object exists. False for the rest: exists(ec) and is_x(ec) never answer true, and for an entry with nothing cached whose object is missing the error_code overloads clear the code (or fail an assertion).

### C53 create_directory under races — proved

*Modelled:* `create_directory` run by any number of callers. *Proof:* induction on the schedule. *Theorems* (`FSProps.v`): `C53_exactly_one`. *Note:* any interleaving of any number of callers; other processes do nothing else.

### C54 bitmask operators — partial

*Modelled:* bitmask operators and enumerators. *Proof:* bit algebra. *Theorems* (`ArithProps.v`): `C54_bitwise`, `C54_options_seen`, `C54_perms_seen_partial`, `C54_perms_refuted`. *Note:* perms::set_gid and perms::sticky_bit are both 0.

### C55 filesystem_error carries its arguments — partial

*Modelled:* `filesystem_error`. *Proof:* text of what(). *Theorems* (`ArithProps.v`): `C55_error_partial`, `C55_first_path_refuted`. *Note:* the two-path constructor leaves path1 out of what().

### C56 Windows permission mapping — proved

*Modelled:* `MapAccessMaskToPerms`-part of Windows permissions. *Proof:* bit by bit, for every access mask. *Theorems* (`ArithProps.v`): `C56_mapping`, `C56_other_trustees`. *Note:* the two trustees beyond owner/group/others read the table out of bounds.

### C57 Windows file time conversion — proved

*Modelled:* Windows FILETIME conversions. *Proof:* integer division. *Theorems* (`ArithProps.v`): `C57_round_trip`, `C57_monotone`, `C57_fraction_lost`, `C57_before_epoch`.

### C58 Windows path splitting — partial

*Modelled:* Windows branch of `SplitComponents` and the decomposition functions. *Proof:* scan loop against a separate grammar. *Theorems* (`WinPathProps.v`): `C58_elements_partial`, `C58_elements_any_drive`, `C58_drive_letter_refuted`, `C58_parts`, `C58_recompose`, `C58_recompose_partial`, `C58_recompose_refuted`, `C58_relocation_texts`, `C58_relocation_types_refuted`. *Note:* For every text: the elements and the reported text are those of the grammar when the drive, if any, is a letter (and for every text if any character but a separator may be a drive); the text is the root name, a run of separators and the relative path, and the three parts put together always have the same elements. False for the rest: characters other than letters are taken for drives; the text itself is not recomposed with several separators after the root name, and the root name is rewritten with backslashes.

### C59 Windows read-only attribute — partial

*Modelled:* Windows read-only attribute in permissions. *Proof:* for every access mask. *Theorems* (`ArithProps.v`): `C59_attributes_partial`, `C59_readonly_refuted`. *Note:* right for every access mask without the read-only attribute; with it the code clears the read bits instead of the write bits.

### C60 no descriptor or directory stream is leaked — proved

*Modelled:* descriptors and streams in every operation. *Proof:* balance relation on programs, for every kernel and every exit. *Theorems* (`OpsHandles.v`): `C60_no_leak`, `C60_directory_iterator`, `C60_recursive_directory_iterator`, `C60_iterators_open`. *Note:* exceptions thrown by the standard library (bad_alloc) are not modelled.

### C61 entries delivered by iterators — partial

*Modelled:* entries as delivered by the iterators. *Proof:* invariant over loops with queries of copies. *Theorems* (`EntryProps.v`, `EntryLater.v`): `C61_types_partial`, `C61_directory_partial`, `C61_asserts_refuted`, `C61_unset_refuted`, `C61_untyped_refuted`, `C61_second_symlink_refuted`, `C61_stale_size_refuted`, `C61_is_symlink_refuted`, `C61_later_symlink_refuted`, `C61_later_size_refuted`, `C61_links_partial`, `C61_symlink_status_refuted`. *Note:* is_x() and exists() of delivered entries are right for every directory as long as entries are not queried through the iterator before. False for the rest: file_size, times, link counts and status fail an assertion in every debug build and are unset in release builds; a query through the iterator leaves values in the cache that the following entries show as theirs, and every entry after a symlink says it is one (universal forms: C61_is_symlink_refuted, C61_later_symlink_refuted, C61_later_size_refuted). In release builds size, time and status of links are right.

### C62 Windows permissions set are those in effect — partial

*Modelled:* `SetPermissions`, `GetPermissions` and the access check. *Proof:* exhaustion over all values of the nine bits inside Coq, rights universally. *Theorems* (`WinAclProps.v`): `C62_others`, `C62_members`, `C62_members_full`, `C62_owner_exact`, `C62_owner_partial`, `C62_owner_outside_refuted`, `C62_owner_member_refuted`, `C62_same_identifier_refuted`, `C62_read_back_partial`, `C62_read_back_refuted`. *Note:* Others and group members have what is asked, for every value. The owner has it for values decreasing from owner to group to others when they belong to the group (and the dual case outside). False for the rest: the owner loses what they share with the group only (outside it) or with others only (inside it); with one identifier for owner and group 0770 leaves no right to anybody; the full rights of a member fail when another operation is refused. The access check of Windows is part of the trusted base.

### C63 status on Windows — partial

*Modelled:* Windows `status`, `symlink_status`. *Proof:* for every record of answers of the system. *Theorems* (`WinStatProps.v`): `C63_types`, `C63_link_types`, `C63_same_status`, `C63_codes_partial`, `C63_never_throws_refuted`, `C63_silent_refuted`, `C63_inherited_refusal_refuted`. *Note:* Types and permissions are right and failures to reach the file are told in the error_code, for all answers of the system. False for the rest: status(p) never throws, failures come back as type none, and an access control list with an inherited refusal makes an existing file have no status.

### C64 directory streams on Windows — partial

*Modelled:* Windows directory stream. *Proof:* induction on the entries. *Theorems* (`WinStatProps.v`): `C64_iterates`, `C64_types_partial`, `C64_open_fails`, `C64_directory_link_refuted`, `C64_hidden_refuted`. *Note:* Entries, order and errors are right for every directory. Links to directories and junctions are delivered as directories and entered without follow_directory_symlink (refuted), and after a link to a file no directory is entered (refuted).

### C65 refreshed directory entries on Windows — partial

*Modelled:* Windows `refresh` and queries. *Proof:* for every record of answers of the system. *Theorems* (`WinStatProps.v`): `C65_directory_partial`, `C65_regular_refuted`, `C65_size_refuted`, `C65_link_refuted`, `C65_directory_link_refuted`. *Note:* Right for directories. A missing break makes the refresh of every regular file fail an assertion, report a stale error or leave type unknown; file_size is 2^64-1 for every file that is no link; links have type reparse_file or cannot be refreshed.

### C66 functions declared noexcept let no exception out — proved

*Modelled:* every noexcept function of `fs_ops.h` and `directory_entry`, against any system. *Proof:* no branch of the tree of calls ends with an exception; by the structure of the programs. *Theorems* (`NoThrow.v`): `C66_operations_never_throw`, `C66_entries_never_throw`. *Note:* On POSIX, for every noexcept overload with an error_code of fs_ops.h and every noexcept member of directory_entry, against every system. Exceptions from memory allocation are outside the model.

### C67 remove on Windows — partial

*Modelled:* Windows `remove`. *Proof:* all runs of the program, against any system. *Theorems* (`WinOpsProps.v`): `C67_only_p`, `C67_there`, `C67_missing_partial`, `C67_missing_refuted`, `C67_true_means_deleted_refuted`. *Note:* Nothing but the path is deleted, with the right call, against every system. False: a path in a missing directory is an error (code 3); true is returned when somebody else deleted the object in between.

### C68 create_directory on Windows — partial

*Modelled:* Windows `create_directory`. *Proof:* all runs of the program, against any system. *Theorems* (`WinOpsProps.v`): `C68_create_directory`, `C68_like_partial`, `C68_like_refuted`. *Note:* Right without a pattern directory. With one the value is true even when the directory existed or an error was reported.

### C69 copy_file on Windows — partial

*Modelled:* Windows `copy_file`. *Proof:* case analysis on a decision rule written from the documentation, for any steady system. *Theorems* (`WinOpsProps.v`): `C69_rule_partial`, `C69_source`, `C69_update_refuted`. *Note:* The rule is followed for every combination of kinds, options, identities, times and failures, on a system that is changed by nobody else; times are compared in whole seconds and equal ones count as newer, so update_existing can replace a file by an older one (refuted).

### C70 queries on Windows — partial

*Modelled:* Windows `equivalent`, `file_size`, `hard_link_count`, `is_empty`. *Proof:* for any system; induction on the listing of a directory. *Theorems* (`WinOpsProps.v`): `C70_equivalent_partial`, `C70_equivalent_refuted`, `C70_equivalent_missing`, `C70_file_size_partial`, `C70_link_refuted`, `C70_is_empty_partial`, `C70_hard_link_count`. *Note:* Right for files that are no links and do not change. False: a file written to between the two questions is not equivalent to itself; file_size and is_empty do not follow links.

### C72 remove_all on Windows — partial

*Modelled:* Windows `remove_all`, with the directory stream. *Proof:* an invariant over all runs against any system (texts of paths, calls made so far); induction on depth for a volume as a finite map from texts to objects. *Theorems* (`WinRemoveAll.v`, `WinRemoveTree.v`): `C72_only_below`, `C72_links_not_entered`, `C72_count_partial`, `C72_volume`, `C72_missing_partial`, `C72_missing_refuted`, `C72_vanishing_refuted`, `C72_emptied_refuted`. *Note:* Right on every well-formed volume nobody else changes; against every system, only what is below the path is deleted and only directories that are no reparse points are listed. False: a path in a missing directory is an error (code 3); an object that vanishes meanwhile makes it return 2^64 - 1 without error, or 0 without error with the directory left.

### C73 noexcept on Windows — partial

*Modelled:* Windows branches of the noexcept operations. *Proof:* no branch of the tree of calls ends with an exception. *Theorems* (`WinOpsProps2.v`, `WinHandles.v`): `C73_operations_never_throw`, `C73_permissions_never_throws`, `C73_space_refuted`. *Note:* For the operations with an error_code, against every system. space(p, ec) is declared noexcept and throws when the current directory cannot be read (refuted).

### C74 space and temp_directory_path on Windows — partial

*Modelled:* Windows `space`, `temp_directory_path`. *Proof:* for any system. *Theorems* (`WinOpsProps2.v`): `C74_space_partial`, `C74_full_disk_refuted`, `C74_temp_partial`, `C74_temp_long_refuted`. *Note:* The numbers and the directory are passed on, failures told. A full disk is reported with 2^64 - 1 free bytes; a temporary directory longer than MAX_PATH gives an empty path without error.

### C75 Joining and taking apart on Windows — partial

*Modelled:* Windows `operator/=`, `operator/`, `parent_path`, `filename`. *Proof:* texts split into root, root directory and names; the result text is computed and split again. *Theorems* (`WinAppend.v`): `C75_append`, `C75_operator_slash`, `C75_parent_partial`, `C75_parent_text_partial`, `C75_host_parent_refuted`, `C75_colon_parent_refuted`, `C75_filename`. *Note:* Joining and filename right for every pair of texts. parent_path gives the right elements if the return is elided or no name ends in a colon. False: the text of the parent of a UNC path has a doubled separator, and a name ending in a colon loses the separator after it.

### C76 generic_string on Windows — proved

*Modelled:* `generic_string` with the Windows separator. *Proof:* the loop over elements, by induction; then the text is split again. *Theorems* (`WinGeneric.v`): `C76_generic`, `C76_no_backslash`, `C76_same_path`.

### C77 lexically_normal on Windows — partial

*Modelled:* Windows `lexically_normal` with the text and components of every intermediate path. *Proof:* invariant of the loop: the path holds a root and a reduced list of names; totality by a second, weaker invariant. *Theorems* (`WinNormalProps.v`): `C77_normal_form_partial`, `C77_meaning_partial`, `C77_idempotent_partial`, `C77_canonical_partial`, `C77_always_a_result`, `C77_hidden_drive_refuted`. *Note:* A result for every text. The rest holds for texts with a drive, host or root directory, and for relative texts none of whose names has a colon as second character. False without that: x\..\c:y, a name in the current directory, normalises to a path on drive c.

### C78 lexically_relative and lexically_proximate on Windows — partial

*Modelled:* Windows `lexically_relative`, `lexically_proximate`. *Proof:* common elements stripped, then the invariant of C77 for the joined names. *Theorems* (`WinRelative.v`): `C78_always_a_result`, `C78_unrelated`, `C78_same`, `C78_text_partial`, `C78_meaning_partial`, `C78_hidden_drive_refuted`. *Note:* Totality, the empty and the dot result, and lexically_proximate for all pairs. The meaning of the result needs a base whose extra elements are ordinary names (as on POSIX) and a first name that does not look like a drive. False without that: c:y in \d, relative to \d, is a path on drive c.

### C71 canonical on Windows — partial

*Modelled:* Windows `canonical`, `absolute`, `read_symlink`, `is_symlink`, `is_directory`, `exists` over any kernel that shows a tree of folders, files and links. *Proof:* invariant of the loop: the path built so far is a place without links; the specification is an inductive relation on trees, compared with the loop in both directions. *Theorems* (`WinCanonProps.v`): `C71_sound_partial`, `C71_complete_partial`, `C71_one_place`, `C71_idempotent_partial`, `C71_codes_refuted`, `C71_empty_on_error_refuted`, `C71_ends_refuted`, `C71_links_refuted`, `C71_drive_refuted`. *Note:* Result and success for paths and links with a drive and a root directory, or relative, without colons in names; current directory on a drive. Of a missing place Windows gives any code but 32. False: every failure is told as 2; a file followed by a dot gives a code and a path; so does the 40th link; C:\z\..\z with a link z to itself never ends; a link whose text is \f gives a result without drive. Hosts, C:a and names with colons are left out.

### C79 absolute on Windows — partial

*Modelled:* Windows `absolute` and `current_path` over any system. *Proof:* the cases of the root name; appended elements from C75, and an inversion of elements to the root they come from. *Theorems* (`WinAbsoluteProps.v`): `C79_as_it_is`, `C79_after_current`, `C79_failure`, `C79_qualified_partial`, `C79_qualified_refuted`, `C79_place_partial`. *Note:* All of it but one case: a path with a drive other than the current one, or the same in another case, and no separator after it, is returned on its own and is not fully qualified.

### C80 links on Windows — partial

*Modelled:* Windows `read_symlink` with the layouts of the reparse buffer, `create_*link`, `copy_symlink`. *Proof:* one-call programs: calls and outcome for every answer; offsets computed on word lists. *Theorems* (`WinLinksProps.v`): `C80_read`, `C80_read_failure`, `C80_junction_refuted`, `C80_create_symlink`, `C80_create_directory_symlink`, `C80_create_hard_link`, `C80_copy_symlink_partial`, `C80_copy_symlink_refuted`. *Note:* Symbolic links are read right; junctions, also called symbolic links by is_symlink, are read two characters too late. copy_symlink looks for the target from the current directory: the kind of the new link is that of what is there, and with nothing there it fails.

### C81 rename, current_path, resize_file and last_write_time on Windows — partial

*Modelled:* Windows `rename`, `current_path(p)`, `resize_file`, `last_write_time`. *Proof:* one-call programs; arithmetic of the conversions from C57. *Theorems* (`WinLinksProps.v`): `C81_rename`, `C81_set_current_path`, `C81_resize_unopened`, `C81_resize_partial`, `C81_resize_refuted`, `C81_time_partial`, `C81_set_time_partial`, `C81_old_time_refuted`, `C81_time_round_trip_partial`. *Note:* Sizes below 2^63; above, a negative size is asked for. Times from 1970 on whose nanoseconds fit in 64 bits; fractions of a second are lost, earlier times refused. SetFilePointerEx and SetEndOfFile are one step.

### C82 create_directories on Windows — partial

*Modelled:* Windows `create_directories` with its stack of prefixes, over any system and over systems with directories. *Proof:* the stack computed from the names (parents of texts with names, C75); induction on the names with the places above being directories as invariant. *Theorems* (`WinCreateDirsProps.v`): `C82_tree_partial`, `C82_only_prefixes_partial`, `C82_trailing_refuted`, `C82_file_refuted`, `C82_race_refuted`, `C82_empty`. *Note:* Paths with no root name or a drive, single backslashes, no colon in a name; "." and ".." included. A trailing separator makes the call do nothing, a file in the place of the directory is no error, and ERROR_ALREADY_EXISTS counts as created. Links in the path and hosts are left out.

### C83 copy on Windows — partial

*Modelled:* Windows `copy`: the choice by kinds and options, and the loop over the entries. *Proof:* any system: induction on the depth with a safety logic over the calls made; the table: case analysis on kinds and option bits, each status computed. *Theorems* (`WinCopyProps.v`): `C83_only_below`, `C83_reports`, `C83_source`, `C83_target`, `C83_table_partial`, `C83_create_symlinks_refuted`. *Note:* Where a copy may change something and what it reports hold on any system whose listings give entry names. The table is for a system that answers the same throughout; what a tree copy does inside is C84. A link copied with create_symlinks alone becomes a link, where an error was called for.

### C84 Copying a tree on Windows — partial

*Modelled:* Windows `copy` on a disk of files and directories, each text naming a thing of its own. *Proof:* induction on the depth, with the entries copied so far as invariant of the loop; a concrete disk shows that the assumptions can be met. *Theorems* (`WinCopyProps.v`): `C84_tree_partial`, `C84_none_refuted`, `C84_into_itself_refuted`, `C84_listing_refuted`. *Note:* Into a new or empty directory that is not inside the source, on a disk without links; create_symlinks and create_hard_links are left out. The options none copy the whole tree, not one level; a copy into the source itself never ends; a read error half-way in a directory is dropped.

### C85 weakly_canonical, relative and proximate on Windows — partial

*Modelled:* Windows `weakly_canonical`, `relative`, `proximate`, over the model of `canonical` (C71) and of the lexical operations (C75, C77, C78). *Proof:* induction on the elements for the search of the existing prefix, with the text built so far as invariant; then the theorems on canonical, appending, normal form and lexically_relative. *Theorems* (`WinWeakProps.v`): `C85_direct_partial`, `C85_prefix_partial`, `C85_nothing_partial`, `C85_prefix_error_refuted`, `C85_relative_runs`, `C85_relative_partial`, `C85_relative_drives_refuted`, `C85_current_directory_refuted`. *Note:* For a system that answers the same throughout, and texts without a host and without colons in names; relative of paths that do not exist only as one run of weakly_canonical for each. A prefix that cannot be examined or made canonical gives an empty path without an error; drive letters that differ in case count as different drives; relative(p, ec) throws without a current directory.

### C86 file names, stems, extensions and modifiers on Windows — partial

*Modelled:* `filename`, `FindExtension`, `stem`, `extension`, the `has_*` queries, `remove_filename`, `replace_filename`, `replace_extension`, `make_preferred` with the Windows separators. *Proof:* the text is cut into root name, directories and last name; the recorded components are computed from the cut, and each operation is followed on them. *Theorems* (`WinParts.v`): `C86_filename_stem_extension`, `C86_cut_unique`, `C86_queries`, `C86_remove_filename`, `C86_replace_filename`, `C86_replace_own_filename`, `C86_replace_extension`, `C86_replace_extension_reads_back`, `C86_replace_own_extension`, `C86_make_preferred`, `C86_make_preferred_path_partial`, `C86_make_preferred_refuted`. *Note:* All of it for every text, except that make_preferred of a text that starts with two different separators and a name shows the text of a host path while keeping the elements of a rooted one (refuted).

### C87 comparison and hashing on Windows, and the standard's order — partial

*Modelled:* `compare`, the operators and `hash_value` on the Windows splitting. *Proof:* every path that can be held has a non-empty first element exactly when its text is not empty; then the order lemmas of C07. The order of the standard is a separate function on the parts of the text. *Theorems* (`WinCompare.v`): `C87_compare_lexicographic`, `C87_compare_order`, `C87_equal_texts`, `C87_hash_consistent`, `C87_standard_order_partial`, `C87_standard_order_refuted`, `C87_standard_drive_refuted`, `C87_posix_order_refuted`. *Note:* Order, equality and hash hold for every path. The order is not the one of the C++ standard: the root directory and the root name are compared with names as characters, so a lower-case name comes after every rooted path (refuted on Windows and on POSIX); between paths with the same kind of root it is the standard one. Paths returned by lexically_normal under the condition of C77.

### C88 copies, moves and assignments of directory iterators — proved

*Modelled:* the `shared_ptr` of both iterators: objects, pointers, use counts; every operation of the two classes as a command on numbered iterators. *Proof:* invariant: an object exists exactly if an iterator refers to it, and the handles held are those of the objects; kept by every command for any answers. Runs with copies are compared with runs of one iterator. *Theorems* (`ShareProps.v`): `C88_streams`, `C88_all_closed`, `C88_copies`, `C88_recursive_copies`, `C88_after_the_end`, `C88_recursive_after_the_end`, `C88_recursive_after_error`, `C88_separate`, `C88_pending`. *Note:* For the POSIX streams. A program is cut where its behaviour is undefined.

### C89 modifying a path with itself or with one of its elements — proved

*Modelled:* the argument as a reference: another object, the object, or the k-th component; it is read again after each change. *Proof:* the order of the types of components decides which branch of `/=` is taken; then compared with the functions of `PathModel.v`, where the argument is another object. *Theorems* (`AliasProps.v`): `C89_self`, `C89_self_move_refuted`, `C89_elements`, `C89_append_element`, `C89_append_root_refuted`, `C89_replace_filename_self`, `C89_replace_filename_self_refuted`, `C89_replace_filename_element`, `C89_replace_extension_self`, `C89_replace_extension_self_refuted`. *Note:* The exceptions are the theorems ending in _refuted and C89_replace_filename_element.

### C90 create_directories called by several threads or processes at once — proved

*Modelled:* the programs of `OpsModel.v` for create_directories, run turn by turn on `FS.v`, others adding directories in between. *Proof:* an invariant of each thread (what is made, what can still be made, how many calls are left) that survives directories being added; then induction over the turns. *Theorems* (`RaceCreate.v`): `C90_parallel`, `C90_finish`, `C90_alone`, `C90_true`, `C90_who_made_it_refuted`. *Note:* paths without "." and ".." and without trailing separator; the calls have one current directory; the exception is C90_who_made_it_refuted.

### C91 Operations on a path whose text contains a NUL character — proved

*Modelled:* `NulModel.v`: any system seen through C strings, each text argument cut at its first NUL; the programs of `OpsModel.v` and `DirModel.v` run on it. *Proof:* walking through both programs in step; for remove_all, induction on the fuel: each level opens the same directory again. *Theorems* (`NulProps.v`): `C91_text_before_nul`, `C91_wrong_file_refuted`, `C91_remove_all_refuted`, `C91_entries_refuted`, `C91_create_directories_refuted`. *Note:* POSIX; copy, weakly_canonical, relative and recursive iterators on such paths not treated; create_directories by one case.

### C92 copy_file and copy end — partial

*Modelled:* the step bounds of the programs of `OpsModel.v`: a call ends when some bound is enough. `Fuel.v` shows that a larger bound changes nothing else. *Proof:* a count of the bytes the system delivers, for any system; induction on the bound for the endless calls, in the case of a directory copied into itself with the invariant that the destination lies below the source. *Theorems* (`CopyEnds.v`, `Fuel.v`): `C92_reading_partial`, `C92_alone`, `C92_outside`, `ends_once`, `bounds_do_not_matter`, `C92_shortened_refuted`, `C92_into_itself_refuted`. *Note:* POSIX. False as stated: a source shortened during the transfer with sendfile, and a directory copied into itself, are endless. The termination of a recursive copy is proved for the trees of C34.

### C93 No handle or memory block is leaked on Windows — partial

*Modelled:* the Windows branches again, with every single call that takes or gives a handle or a block (`WinHandleModel.v`); destructors are run on return and on exceptions. *Proof:* a weakest precondition over the resources held, with rules for sequence and scope, for any system; the simulation by choosing answers. *Theorems* (`WinHandles.v`, `WinHandleSim.v`): `C93_no_leak_partial`, `C93_directory_iterator_partial`, `C93_recursive_directory_iterator_partial`, `C93_iterators_valid`, `C93_conversion_refuted`, `C93_same_results`, `C93_transfer`. *Note:* Assumes that nowide can convert every file name; without that the iterator constructors lose the search handle (refuted, for every system). C93_same_results: the models with calls taken together allow every result of the models with single calls, for the operations on single files.

### C94 permissions on Windows asks for the permissions wanted — partial

*Modelled:* permissions_impl, GetPermissions and SetPermissions on Windows call by call (`WinHandleModel.v`). *Proof:* a weakest precondition over the list of calls made, for any system; then C62 for the rights. *Theorems* (`WinPermissions.v`): `C94_permissions`, `C94_in_effect`, `C94_add_takes_away_refuted`, `C94_option_count_refuted`. *Note:* False as stated: add on a read-only file (for every system that refuses nothing) and the number of options in builds without assertions. What Windows makes of the entries is the reading of WinAclModel.v.

### C95 The same characters make the same path in whatever form they are given — partial

*Modelled:* the templates of path that take a source or a range, character by character, with the conversion as a parameter (`SourceModel.v`); UTF-8, UTF-16 and UTF-32 are specified in `Utf8.v`. *Proof:* the texts held by a source are an inductive relation; the rest by induction over the text. *Theorems* (`SourceProps.v`): `C95_any_source`, `C95_any_range`, `C95_unterminated`, `C95_no_nul`, `C95_nul`, `C95_wide`, `C95_wide_round_trip`, `C95_wide_round_trip_path`, `C95_wide_kept`, `C95_generic`, `C95_in_pieces`, `C95_halves_refuted`, `C95_host_in_pieces_refuted`. *Note:* False as stated: adding in pieces, for every character outside the basic plane and every host name. The conversion library (nowide, not in the repository) is a parameter with the promises narrows, widens and replaces.

### C96 No operation on paths cuts a character in two — partial

*Modelled:* nothing new: the operations of `PathModel.v` and the histories of C14; `well_formed` of `Utf8.v`. *Proof:* UTF-8 synchronises: a cut before a byte that is no continuation keeps both halves well formed. Every separator, dot, colon and quote is ASCII. Induction over histories; on both systems with the invariant that every element stands in the text at its position after an ASCII character. *Theorems* (`Utf8Props.v`, `Utf8Win.v`): `C96_histories_partial`, `C96_parts`, `C96_windows`, `C96_both_systems_partial`, `C96_elided_parent_refuted`. *Note:* Histories on both systems, also with arguments that are the modified path or its elements, in builds without the two elisions of return values that C14 shows to damage paths. With the elision of parent_path it is false: the relative part of such a parent can start inside a character.

### C97 No operation on paths throws, asserts or is undefined — partial

*Modelled:* nothing new: `PathModel.v`, `AliasModel.v` and the histories of C14, on both systems. *Proof:* an invariant on the elements (`sound`: names follow roots, offsets ascend and lie inside the text except for an empty last name), kept by every operation and enough for each to succeed; induction over histories. *Theorems* (`PathSafe.v`): `C97_histories_partial`, `C97_queries_partial`, `C97_elided_parent_refuted`. *Note:* Both systems, arguments may alias the path. Missing: histories that keep an elided result of parent_path (refuted) or lexically_normal (refuted by C14_normal_then_remove_filename_refuted). Appending the first element of a path to that path is undefined (C89).

### C98 Advancing iterators in postfix form, and comparing entries — proved

*Modelled:* `PostModel.v`: the moves of `directory_entry`, `DirectoryEntryProxy_`, `operator++(int)` of both iterators, the comparison operators of entries. *Proof:* an invariant (every path an iterator stands on was made from a text, so that moving it changes nothing), kept by every increment; equality of the runs by induction on the loop; distinctness from the visits of C48 and the elements of joined texts. *Theorems* (`PostProps.v`): `C98_directory`, `C98_tree`, `C98_compare`, `C98_distinct`, `C98_once`, `C98_at_end`.

### C99 Recursive copy into an existing directory merges — proved

*Modelled:* The model of `copy` of C34 on the file system of `FS.v`, with a destination that exists. *Proof:* induction on the source tree: an invariant (`merged`) says what each place of the destination already handled holds, kept by copying one more entry; new entries by C34, existing files by the cases of `copy_file` of C31. *Theorems* (`FSMerge.v`): `C99_merge`.

### C100 What operations leave alone — proved

*Modelled:* The POSIX operations on the file system of `FS.v`; times of access are not modelled, nor are the changes of times that writing or adding a name make. *Proof:* for each group, a predicate on the calls its functions can make (on every answer of any system) and a relation between states that each of these calls keeps; for copying a file, the invariant that the descriptor written to belongs to an object created by the call. *Theorems* (`FSKeep.v`): `C100_queries`, `C100_creators`, `C100_removers`, `C100_setters`.

### C101 Operations that undo each other — partial

*Modelled:* remove, remove_all and the creating operations on the file system of `FS.v`. *Proof:* the state after a creating operation is the old tree with one entry added; its path leads to the new entry; taking it away gives the old tree again. Counting the copy of a tree: two trees with the same places have the same number of entries. Refuted for a symlink that leads nowhere. *Theorems* (`FSUndo.v`): `C101_create_directory`, `C101_create_symlink`, `C101_copy_symlink`, `C101_create_hard_link`, `C101_copy_file`, `C101_copy_tree_partial`, `C101_rename`, `C101_dangling_refuted`. *Note:* Missing: copies of trees that C34 excludes, and rename by paths that are not the absolute text of a place. copy_file to a symlink that leads nowhere makes a file that remove does not take away (C101_dangling_refuted).

### C102 Where remove_all goes while others work — partial

*Modelled:* remove_all on any system (`Prog.v`), with a record of its calls; the file system of `FS.v` with arbitrary changes by other processes before each call. *Proof:* a predicate over programs that says of each call, given the calls before it, that it is in bounds; it holds by induction on the depth and the entries. With symlinks kept away the invariant that no directory seen has become a symlink makes every removal act at its own place. Refuted by the run with a symlink put in between. *Theorems* (`RaceRemove.v`): `C102_bounds`, `C102_honest`, `C102_calls_partial`, `C102_stays_partial`, `C102_link_refuted`. *Note:* The texts of the calls keep within p on every system (C102_bounds). That nothing outside p changes holds while other processes bring no symlink to p, above or below it (C102_calls_partial, C102_stays_partial, for the absolute text of a place). In general it is false: a symlink put in the place of a directory between lstat and opendir is followed, and what it leads to is emptied (C102_link_refuted).

### C103 Where copy goes — proved

*Modelled:* copy, copy_file, copy_symlink and create_directory(p, like) on any system (`Prog.v`), with a record of their calls (`Chronicle.v`). *Proof:* the same predicate over programs as for C102, with the descriptors traced back to the open call in the record; induction on the depth and on the entries of each directory. *Theorems* (`RaceTree.v`): `C103_copy`. *Note:* Any system that answers readdir with names without slashes (C102_honest shows the file system with other processes is one). It is about the texts and descriptors named in the calls: what a symlink in the target leads to is not bounded by it.

### C104 What operations touch on Windows — proved

*Modelled:* the Windows branches with every call about a handle or a block of memory (`WinHandleModel.v`), against any system. *Proof:* a predicate over programs that says of each call that it is allowed, with what holds of the result; induction on the fuel of the loops, with the entry an iterator stands at kept as an invariant. *Theorems* (`WinCalls.v`): `C104_queries`, `C104_changes`. *Note:* The calls with their handles of WinHandleModel.v. What copy looks at is not bounded by name (it asks about the text of a symlink too); what it changes is.

### C105 Failures are told — proved

*Modelled:* the POSIX operations (`OpsModel.v`) against any system, with a record of the calls and answers. *Proof:* a predicate over programs that says what holds of the record when the program returns or throws; induction on the fuel of the loops. *Theorems* (`Told.v`): `C105_told`, `C105_code`, `C105_first`. *Note:* Any system. The answers of close and closedir are not looked at by the library and have no code in the model; short writes are C30. weakly_canonical, relative and proximate are left out: they do not report what fails after the first status (C46).

### C106 Failures are told on Windows — proved

*Modelled:* the Windows operations call by call (`WinHandleModel.v`, `WinOpsModel.v`) against any system, with a record of the calls and answers. *Proof:* a predicate over programs that says what holds of the record at the end, with one rule for each way of composing programs; induction on the fuel of the loops. *Theorems* (`WinTold.v`): `C106_told`, `C106_code`, `C106_how`, `C106_status`, `C106_listing`. *Note:* Any system, at the level of single Windows calls. A call that fails without an error (GetLastError 0) counts as not having failed, since the library cannot tell; C106_status and C106_listing state the two places where failures are lost. canonical, weakly_canonical, create_directories, temp_directory_path and the iterators are left out.

### C107 The overloads agree on Windows — partial

*Modelled:* both overloads of the Windows operations and iterators call by call (`WinHandleModel.v`, `WinOpsModel.v`) against any system. *Proof:* a relation between programs that run in step, with one rule for each way of composing programs; induction on the fuel of the loops; a weaker relation for canonical, which goes on after a failure. *Theorems* (`WinAgree.v`): `C107_agree_partial`, `C107_canonical_partial`, `C107_directory_refuted`, `C107_canonical_refuted`, `C107_temp_refuted`. *Note:* Any system, at the level of single Windows calls. Missing from full agreement: status and symlink_status (the throwing forms never throw, C106_status), the codes of canonical and what is built on it (C107_canonical_refuted), systems without a current directory for space, relative(p) and proximate(p) (C107_directory_refuted), and temp_directory_path in a release build when the name is too long (C107_temp_refuted).

### C108 An operation that fails has changed nothing — proved

*Modelled:* the operations call by call on both platforms against any system, with a record of the calls and answers (`Told.v`, `WinTold.v`); the file system of `FS.v`. *Proof:* a predicate over programs that says that the first change ends them well, with one rule for each way of composing programs; refused calls leave the file system as it is. *Theorems* (`Atomic.v`, `WinAtomic.v`): `C108_single`, `C108_files`, `C108_several_refuted`, `C108_windows`, `C108_windows_refuted`. *Note:* C108_single and C108_windows for any system; C108_files on the file system model. That single system calls are themselves atomic is the business of the system (CopyFileW in particular).

### C109 Asking for the same thing again — proved

*Modelled:* the operations of `OpsModel.v` run twice on the file system of `FS.v`. *Proof:* the claims about single runs (C25, C27, C28, C30, C39) used for both runs; a path that led to a name leads nowhere after the name is taken away (`resolve_gone`), and to the new name after one is made. *Theorems* (`Again.v`): `C109_create_directory`, `C109_remove`, `C109_remove_all`, `C109_resize_file`, `C109_last_write_time`, `C109_permissions`, `C109_current_path`, `C109_current_path_refuted`, `C109_copy_file`, `C109_links_refuted`, `C109_rename_refuted`. *Note:* POSIX, on the file system model. remove_all for the paths of C28, copy_file for regular files; create_directories asked for again is in C26_create_directories_partial. Times that system calls change by themselves (reading, writing, truncating) are not in the model.

### C110 The queries fit together — proved

*Modelled:* the queries of `DirModel.v` and `OpsModel.v` run on one state of the file system of `FS.v`. *Proof:* each query in terms of the node the path is resolved to (C23, C37, C38, C44, C45); for relative, the text is split at the common part of the two canonical places and the resolution followed up and down again (`steps_up`, `steps_place`). *Theorems* (`Agree.v`): `C110_answers`, `C110_is_empty`, `C110_canonical`, `C110_absolute`, `C110_relative`. *Note:* POSIX, on the file system model. read_symlink and is_symlink for systems without symlinks of empty text (symlink(2) makes none). relative of paths that do not exist is in C45 and C46.

### C111 What depends on the current directory — proved

*Modelled:* the operations of `DirModel.v` and `OpsModel.v` run on two states of the file system of `FS.v` that differ in the current directory. *Proof:* a predicate on programs, that every call they make names only absolute paths or descriptors (`goes`), proved for each operation, for loops and recursion by induction; such programs preserve the relation of the two states (`goes_run`). For relative paths, the resolution of p / x is that of x from the place of p (`find_under`), with no fewer links left (`steps_more`). *Theorems* (`Cwd.v`): `C111_absolute`, `C111_create_directories`, `C111_create_directories_elided`, `C111_relative`, `C111_effect`. *Note:* POSIX, on the file system model. The converse of C111_relative fails only for paths that follow more symlinks than the system allows when p is put in front. C111_effect is for operations that make one change; in copies and removals of trees the current directory itself may disappear on the way.

## What the code does not do as expected

All of these are theorems named above.

* **Paths.** `p = std::move(p)` empties `p`; `p = *p.begin()` (and `/=` for a rooted path) reads a destroyed element; `replace_filename(p)` and
  `replace_extension(p)` use the path already changed. With elided returns the results of `parent_path` and `lexically_normal` behave differently from a path of the same text. Asking such a parent for its parent or relative part may throw out_of_range (C97) or give a text that starts inside a character (C96).
  `lexically_relative` with a base ending in a slash. `"//a/b"`: repeated `parent_path` does not end; `"///a/b"`: `out_of_range`.
* **Windows paths.** Any character but a separator before `:` is a drive. Several separators after the root name are not recomposed. `lexically_normal` of `x\..\c:y` is on drive c. So is `\d\c:y` relative to `\d`.
  `"/\host"` has no root name. Growth of the element vector changes the type of elements like `c:`.
  The parent of `\\host\a\b` is `\\host\\a`; the parent of `\x:\y\z` is `\x:y`.
* **Arithmetic.** Times before 1970 with a fraction of a second are wrong or undefined; `value_too_large` is never reported;
  `perms::set_gid` and `perms::sticky_bit` are 0; `what()` of a two-path error omits the first path; on Windows the read-only
  attribute clears the read bits; `space()` reports the maximum for 0 blocks.
* **Overloads.** `is_x(p, ec)` sets an error for a missing file where `is_x(p)` does not throw; `create_directories(p, ec)`, `relative(p, ec)`
  and `proximate(p, ec)` can throw; `canonical` reports another code when `getcwd` fails; `weakly_canonical` swallows errors.
  On Windows the throwing `status` never throws and loses every failure but a missing file; `space(p, ec)`, `relative(p, ec)` and `proximate(p, ec)` throw without a current directory;
  `is_empty`, `remove_all` and `copy` take an error while listing a directory for its end; `temp_directory_path` throws code 0 when the name is too long.
* **Operations.** `remove_all` follows a symlink that another process puts in the place of a directory between its lstat and its opendir, and empties what it leads to; `create_directory` on an existing file gives false without error; two `create_directories` at once can both return true for one new directory; `read_symlink` truncates; `permissions` accepts no
  or several actions in release builds; `canonical("")` succeeds; `remove_all` miscounts under races and through odd paths, and never ends on a directory whose path contains a NUL;
  `copy_file` loses bytes on short writes, refuses a symlink destination and checks the destination too early; contradictory copy
  options are accepted; a symlink stops a recursive copy; a read error of a directory ends a copy silently.
* **Iterators and entries.** A symlink hides later directories; after one copy of an iterator reached the end the others are not end iterators (incrementing them is undefined, the recursive one has depth -1), and after an error the entry they share has lost its path; `follow_directory_symlink` enters nothing; `DT_UNKNOWN` ends the iteration;
  `hard_link_count()` of an entry is 2^64-1; `status()` of an entry has no permissions; `exists(ec)` is never true; queries through an
  iterator leak into later entries; debug builds fail assertions.
* **Windows system calls.** The owner can lose rights they share with their group; one identifier for owner and group locks everybody out; `status(p)` never
  throws; junctions are entered by recursive iteration; a missing `break` spoils the refresh of every regular file;
  `remove` and `remove_all` in a missing directory fail; `remove_all` hides races; `create_directory` with a pattern always returns true; `update_existing` can overwrite a newer file; `file_size` and
  `is_empty` do not follow links; `create_directories` does nothing for a path with a trailing separator and takes a file for the directory; `copy` with the options none copies the whole tree, goes on for ever when the target is in the source, and reports success when a directory could not be read to its end; adding a permission to a file with the read-only attribute makes it unreadable for everybody; a character outside the basic plane added as two char16_t is lost; on Windows a host added in pieces is no host; a full disk has 2^64-1 bytes free; `space(p, ec)` can end the program; see C62 on.
  `canonical` tells every failure as 2, can return a path together with an error, drops the drive when it meets a link to `\f`, and follows `C:\z\..\z` with a link `z` to itself until its counter overflows. `make_preferred` of a text starting with two different separators shows a host path and iterates as a rooted one; `compare` orders a name after a rooted path when its first character is greater than the separator, against the standard's order (both systems); `weakly_canonical` with a prefix that cannot be examined gives an empty path and no error; `relative` takes `c:` and `C:` for two drives; `absolute("d:x")` from another drive is not absolute; `read_symlink` of a junction loses the drive; `copy_symlink` looks for the target from the current directory; `resize_file` beyond 2^63 asks for a negative size.

## Trusted base

* Coq 8.16.1's kernel (and `vm_compute`, which is part of it). `Print Assumptions` follows every theorem named above and prints
  *Closed under the global context* for each: no axioms at all. `coqchk` and the gate list seven axioms of `Coq.ssr.ssrunder`, which
  are declared in a library file loaded by the standard tactics; no theorem depends on them.
* The reading of the C++ source by hand: every definition of the model cites the lines it models and says where it simplifies.
* The file system of `FS.v`, for the theorems said to be about it. Its simplifications: one mounted file system; a process that passes
  every permission check (C50 adds unreadable directories); umask 0; no limits on sizes, lengths or numbers of objects; times change only
  by utimensat; the link count of a directory is constant; opendir takes a snapshot; the current directory is kept as a place; opening a socket succeeds.
* For Windows: the meaning of access control lists (`SetEntriesInAcl`, generic rights, the access check) and the shape of the answers
  of the calls, in `WinAclModel.v`, `WinStatModel.v`, `WinOpsModel.v` and `WinHandleModel.v`. Answers are otherwise arbitrary.
* The C++ library: `std::string`, `std::vector` (its growth is a parameter), `std::quoted`, `std::mismatch`, `std::chrono`, `std::error_code`; `asap/common`
  and `hedley` macros (`ASAP_ASSERT` active in debug builds only; `HEDLEY_UNREACHABLE` undefined behaviour; `FlagTest`, `FlagSet`, `FlagClear` as named).

## Modelled and not modelled

Modelled, function by function: `src/fs_path.cpp` and `fs_path.h` (both platforms), `src/fs_ops.cpp` and `fs_ops.h` (POSIX and Windows branches), `src/fs_dir_iterator.cpp` and `fs_dir.h`, `src/posix/*.cpp`, `src/windows/*.cpp`, `src/filesystem_error.cpp`, the
enumerations and their operators.

Not modelled:

* Locales; user-defined path source types. The conversion between UTF-8 and wide strings is nowide's, which is not in the repository: it is a parameter of `SourceModel.v` (C95).
* Exceptions from memory allocation.
* The macOS `copyfile` branch and the `utime` branch.
* Overflow of `int` counters in `compare` and of recursion depths.

## Wrong programs

`seeded/LOG.jsonl` has one line for each wrong program tried: the definition edited in a scratch copy, the edit, the property it breaks, the theorems
whose proofs failed, and the theorems that were tightened as a consequence. The scratch build replaces every proof that no longer checks by an
admission and then asks `Print Assumptions` of every theorem of `MANIFEST.json`; a theorem counts as failed if its own proof or that of a lemma it
depends on had to be admitted.
