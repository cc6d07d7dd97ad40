{"id": "C01", "title": "Constructing a path keeps the text", "statement": "On POSIX, for every string s, path(s).native() == s, with one exception: if s consists only of '/' characters (at least one) then native() is \"/\". empty() holds exactly when s is empty.", "quantifier": "all byte strings s", "why_tests_cant": "The text is rewritten when the splitter collapses to one element; only a proof over all strings shows that nothing but an all-slash string is ever altered.", "anchors": ["include/filesystem/fs_path.h: path(string_type&&), path::native, path::empty", "src/fs_path.cpp: path::SplitComponents, path::Trim"]}
{"id": "C02", "title": "Root decomposition", "statement": "On POSIX, for every path p: root_name() is empty; root_directory() is \"/\" if the text starts with '/', else empty; root_path() equals root_directory(); relative_path() is the text with its leading '/' characters removed; root_path().native() + relative_path().native() equals the text with leading slash runs collapsed to one slash; is_absolute() holds exactly when the text starts with '/'.", "quantifier": "all paths constructed from any string", "why_tests_cant": "Depends on byte positions recorded while splitting; off-by-one errors only show for particular separator runs.", "anchors": ["src/fs_path.cpp: path::root_name, path::root_directory, path::root_path, path::relative_path, path::is_absolute"]}
{"id": "C03", "title": "Iteration yields the grammar's elements", "statement": "On POSIX, iterating p from begin() to end() yields exactly: \"/\" if the text starts with '/', then every maximal non-empty run of non-slash characters in order, then one empty element if the text ends with '/' and contains a non-slash character. Iterating backwards yields the reverse. ++ and -- are inverse inside the range and no step within [begin,end) asserts.", "quantifier": "all paths, all positions of the iterator", "why_tests_cant": "The element list is unbounded and the behaviour depends on separator runs and on three internal representations.", "anchors": ["src/fs_path.cpp: path::begin, path::end, path::iterator::operator++, operator--, operator*, equals"]}
{"id": "C04", "title": "filename and parent_path", "statement": "On POSIX, filename() is the text after the last '/'. parent_path() of a path without relative part is the path itself; otherwise its elements are p's elements without the last one (and without the one before it when the last one is empty). If p has a filename and a relative path, p.parent_path()/p.filename() == p.", "quantifier": "all paths", "why_tests_cant": "Requires reasoning over all separator layouts; parent_path rebuilds the text from elements.", "anchors": ["src/fs_path.cpp: path::filename, path::parent_path, path::AppendSeparatorIfNeeded"]}
{"id": "C05", "title": "stem and extension", "statement": "For every path p: stem().native() + extension().native() == filename().native() (for a filename); extension() is empty or starts with '.', contains no other '.', and is non-empty exactly when filename() is not \".\" or \"..\" and has a '.' at a position other than the first. has_stem/has_extension agree with emptiness of stem()/extension().", "quantifier": "all paths", "why_tests_cant": "The last-dot search with its special cases (\".\", \"..\", \".x\", \"x.\") has to hold for every string.", "anchors": ["src/fs_path.cpp: path::stem, path::extension, path::FindExtension, path::has_stem, path::has_extension"]}
{"id": "C06", "title": "has_* queries agree with the decomposition", "statement": "For every path, has_root_name/has_root_directory/has_root_path/has_relative_path/has_parent_path/has_filename are true exactly when the corresponding decomposition function returns a non-empty path, and is_relative() is the negation of is_absolute().", "quantifier": "all paths", "why_tests_cant": "Universal claim over strings.", "anchors": ["src/fs_path.cpp: path::has_root_name, has_root_directory, has_root_path, has_relative_path, has_parent_path, has_filename, is_absolute"]}
{"id": "C07", "title": "compare is a total order on element sequences", "statement": "sign(p.compare(q)) is the lexicographic comparison of the element sequences (bytes compared unsigned); so compare()==0 iff both paths have the same elements, it is antisymmetric, transitive and total, and the six relational operators agree with it.", "quantifier": "all pairs and triples of paths, in every internal representation reachable through the API", "why_tests_cant": "Order axioms quantify over triples of unbounded strings; compare takes four code paths depending on representation.", "anchors": ["src/fs_path.cpp: path::compare, do_compare", "include/filesystem/fs_path.h: operator<, <=, >, >=, ==, !="]}
{"id": "C08", "title": "hash_value is consistent with equality", "statement": "If p == q then hash_value(p) == hash_value(q), whatever std::hash<std::string> is.", "quantifier": "all pairs of paths, all string hash functions", "why_tests_cant": "Equality is coarser than text equality, so every pair of different spellings matters.", "anchors": ["src/fs_path.cpp: hash_value"]}
{"id": "C09", "title": "operator/= semantics", "statement": "On POSIX, p / q is q when q is absolute; otherwise the text is p's text, then a '/' if p has a filename, then q's text (slash-only results collapse). The elements of p/q are p's elements (without a trailing empty one) followed by q's elements (or one trailing empty element when q is empty and p has a relative part). The result does not depend on string or vector capacities.", "quantifier": "all pairs of paths and all capacities", "why_tests_cant": "The branch taken depends on allocator-chosen capacities that a test cannot control, and the separator rule ranges over all texts.", "anchors": ["src/fs_path.cpp: path::operator/=", "include/filesystem/fs_path.h: operator/"]}
{"id": "C10", "title": "append is associative and has a left identity", "statement": "(a / b) / c == a / (b / c) for all paths with b non-empty, and path() / q == q.", "quantifier": "all triples of paths", "why_tests_cant": "Algebraic law over all triples.", "anchors": ["src/fs_path.cpp: path::operator/="]}
{"id": "C11", "title": "operator+= is text concatenation", "statement": "After p += q the text is the concatenation of both texts (collapsed only if it is all slashes) and p behaves in every respect like a path freshly constructed from that text.", "quantifier": "all paths and strings", "why_tests_cant": "The element cache must be recomputed for every concatenation.", "anchors": ["include/filesystem/fs_path.h: path::operator+=, path::concat"]}
{"id": "C12", "title": "remove_filename and replace_filename", "statement": "remove_filename() leaves exactly the text up to and including the last '/'; afterwards has_filename() is false; it is idempotent; replace_filename(p.filename()) leaves a path equal to p when p has a filename; replace_filename(r) equals remove_filename() / r.", "quantifier": "all paths and replacements", "why_tests_cant": "Uses recorded byte offsets; wrong only for particular separator layouts.", "anchors": ["src/fs_path.cpp: path::remove_filename, path::replace_filename"]}
{"id": "C13", "title": "replace_extension", "statement": "replace_extension(r) removes the current extension's text from the end and appends r (with a '.' in front when r is non-empty and has none); afterwards, when p has a filename whose stem is not \".\" and r is non-empty and has no '/' and no '.' other than a leading one, stem() is unchanged, extension() is r with its dot and the preceding elements are unchanged; replace_extension(p.extension()) is the identity.", "quantifier": "all paths and replacements", "why_tests_cant": "Universal over strings; uses recorded offsets of the last element.", "anchors": ["src/fs_path.cpp: path::replace_extension, path::FindExtension"]}
{"id": "C14", "title": "A path's behaviour is determined by its text", "statement": "After any sequence of API operations (construction, copy, move, assignment, append, concat, modifiers, decomposition, normalisation) every path in the program behaves like a path freshly constructed from its text: all observers agree and no operation throws, asserts or has undefined behaviour.", "quantifier": "all finite sequences of API calls and both choices of return-value copy elision the compiler may make", "why_tests_cant": "The state space of operation histories is unbounded and a compiler's copy-elision choice changes the internal state.", "anchors": ["src/fs_path.cpp: path::parent_path, path::lexically_normal, path::remove_filename", "include/filesystem/fs_path.h: path(path&&), path::Component"]}
{"id": "C15", "title": "lexically_normal yields a normal form", "statement": "On POSIX, for non-empty p the result has no \".\" element unless it is exactly \".\", no \"..\" after a non-\"..\" element, no \"..\" directly after the root directory, no doubled separators after the root, no trailing separator after \"..\", and is never empty; for empty p it is empty.", "quantifier": "all paths", "why_tests_cant": "Normal-form claims quantify over unbounded element sequences; the algorithm edits text and element cache in parallel.", "anchors": ["src/fs_path.cpp: path::lexically_normal"]}
{"id": "C16", "title": "lexically_normal preserves meaning", "statement": "Walking the elements of p.lexically_normal() from any starting directory by the rules '.' stays, '..' undoes the preceding name (or stays at the root), a name descends, reaches the same place as walking the elements of p; absolute stays absolute; a trailing separator (or final . / ..) is kept as a trailing separator except after '..' and for '.'.", "quantifier": "all paths, all starting places", "why_tests_cant": "Denotational equality over unbounded sequences.", "anchors": ["src/fs_path.cpp: path::lexically_normal"]}
{"id": "C17", "title": "lexically_normal is idempotent and canonical", "statement": "lexically_normal() of a normal path is that path; two paths with the same absolute/relative kind, same walk and the same directory-form flag have identical normal texts.", "quantifier": "all paths", "why_tests_cant": "Universal over pairs.", "anchors": ["src/fs_path.cpp: path::lexically_normal"]}
{"id": "C18", "title": "lexically_relative and lexically_proximate", "statement": "For p and base of the same kind where base's elements past the common prefix are plain names or \".\": p.lexically_relative(base) leads, from the place base leads to, to the place p leads to (walking elements lexically); its text is one \"..\" per plain remaining base element followed by p's remaining elements. Paths of different kind give the empty path; equal elements give \".\"; lexically_proximate returns p when lexically_relative is empty and that result otherwise.", "quantifier": "all pairs of paths", "why_tests_cant": "Round-trip law over all pairs of unbounded sequences.", "anchors": ["src/fs_path.cpp: path::lexically_relative", "include/filesystem/fs_path.h: path::lexically_proximate"]}
{"id": "C19", "title": "generic_string on POSIX", "statement": "generic_string() contains the same elements as the path: path(p.generic_string()) == p, with every separator run collapsed to one slash.", "quantifier": "all paths", "why_tests_cant": "Universal over strings.", "anchors": ["include/filesystem/fs_path.h: path::make_generic, path::generic_string"]}
{"id": "C20", "title": "Stream insertion and extraction round-trip", "statement": "For every path p, writing p to a stream and reading a path back yields a path with identical text, leaving the rest of the stream unread.", "quantifier": "all paths (texts with quotes, backslashes, blanks and newlines included) and all following stream content", "why_tests_cant": "Escaping must be right for every string.", "anchors": ["include/filesystem/fs_path.h: operator<<, operator>>"]}
{"id": "C21", "title": "Move, swap, clear and assign", "statement": "After moving from a path the source is empty and the target has the source's former text; swap exchanges two paths completely; clear gives the empty path; assignment from a string equals construction from it.", "quantifier": "all paths in every reachable representation", "why_tests_cant": "Must hold for every internal representation.", "anchors": ["include/filesystem/fs_path.h: path(path&&), path::swap, path::clear", "src/fs_path.cpp: path::operator=(path&&), path::assign"]}
{"id": "C22", "title": "error_code and throwing overloads agree", "statement": "For each operation: with an error_code the call never throws, clears the code on success and sets it on failure; without one it throws exactly when the other overload would set the code, with the same error value; both make the same system calls and leave the same filesystem. On failure the documented error value (false, uintmax max, -1, minimum time, empty path) is returned.", "quantifier": "all operations, all filesystem states and all system call results", "why_tests_cant": "Fault combinations at every system call cannot be enumerated by tests.", "anchors": ["src/fs_error.h: ErrorHandler, error_value", "src/fs_ops.cpp"]}
{"id": "C23", "title": "status classification", "statement": "status(p) and symlink_status(p) report not_found exactly for ENOENT/ENOTDIR, none with the error set for any other failure, and otherwise the type from the mode's format bits and the permission bits (mode & 07777); status follows symlinks and symlink_status does not. exists(p) is true iff the type is neither none nor not_found.", "quantifier": "all paths, all filesystem states, all stat results", "why_tests_cant": "Quantifies over every result the kernel may return.", "anchors": ["src/posix/stat.cpp: CreateFileStatus, GetFileStatus, GetLinkStatus", "src/fs_ops.cpp: status, symlink_status", "include/filesystem/fs_ops.h: exists, status_known"]}
{"id": "C24", "title": "file type predicates partition", "statement": "For every known status of an existing file exactly one of is_regular_file, is_directory, is_symlink, is_block_file, is_character_file, is_fifo, is_socket, and 'unknown' holds; is_other is true iff it exists and is none of regular, directory, symlink.", "quantifier": "all file_status values", "why_tests_cant": "Exhaustive case claim, and through it all files.", "anchors": ["include/filesystem/fs_ops.h: is_* predicates, is_other, exists", "include/filesystem/fs_file_status.h"]}
{"id": "C25", "title": "create_directory", "statement": "create_directory(p) returns true iff it created a directory; if p already names a directory it returns false without error and changes nothing; any other failure is reported and nothing is changed. A created directory is empty and no other object changes.", "quantifier": "all filesystem states and paths", "why_tests_cant": "Frame condition (nothing else changes) over every state.", "anchors": ["src/fs_ops.cpp: create_directory"]}
{"id": "C26", "title": "create_directories", "statement": "If create_directories(p) reports success for a path without trailing separator whose elements are names, then every prefix of p is a directory afterwards, directories existing before are untouched and nothing else changed; it returns true iff it created at least one directory. A second call returns false.", "quantifier": "all filesystem states and paths of any depth", "why_tests_cant": "Unbounded depth and state.", "anchors": ["src/fs_ops.cpp: create_directories"]}
{"id": "C27", "title": "remove", "statement": "remove(p) deletes exactly the directory entry p when it is a non-directory or empty directory, returning true; returns false without error when nothing exists at p; reports an error and changes nothing for a non-empty directory. Symlinks are removed, not followed.", "quantifier": "all filesystem states and paths", "why_tests_cant": "Frame condition over all states.", "anchors": ["src/fs_ops.cpp: remove, remove_impl"]}
{"id": "C28", "title": "remove_all deletes exactly the subtree and counts it", "statement": "Without interference and with permission, remove_all(p) removes the whole subtree at p and nothing outside it (symlink targets survive), and returns the number of entries removed, 0 if p does not exist.", "quantifier": "all trees of any shape and depth", "why_tests_cant": "Inductive claim over unbounded trees.", "anchors": ["src/fs_ops.cpp: do_remove_all, remove_all"]}
{"id": "C29", "title": "remove_all under interference", "statement": "If other processes delete entries concurrently, remove_all without error returns at most the number of entries it removed itself and never reports success with a wrong count.", "quantifier": "all interleavings with concurrent deletions", "why_tests_cant": "Schedules cannot be enumerated.", "anchors": ["src/fs_ops.cpp: do_remove_all"]}
{"id": "C30", "title": "copy_file copies the bytes", "statement": "When copy_file(from,to,...) returns true, from is a regular file and to's content equals from's content, byte for byte, however the kernel splits transfers; other files are unchanged.", "quantifier": "all contents, all sizes, all sequences of short transfers, all filesystem states", "why_tests_cant": "Short reads and writes occur nondeterministically.", "anchors": ["src/fs_ops.cpp: copy_file_impl, do_copy_file, do_copy_file_sendfile, do_copy_file_default"]}
{"id": "C31", "title": "copy_file decision table", "statement": "If to does not exist it is created. If it exists: without an existing-file option the call fails with file_exists; skip_existing returns false and changes nothing; overwrite_existing replaces the content; update_existing replaces exactly when from's modification time is strictly newer. More than one of these options, a non-regular from or to, or from and to being the same file is an error and changes nothing.", "quantifier": "all option combinations, all pairs of file states and times", "why_tests_cant": "Product of all option sets and states.", "anchors": ["src/fs_ops.cpp: copy_file_impl"]}
{"id": "C32", "title": "copy_file acts on the file it checked", "statement": "Between its checks and its writes copy_file cannot be made to overwrite a file other than the one whose type, identity and time it checked, whatever other processes do.", "quantifier": "all interleavings with other processes", "why_tests_cant": "A race; tests observe single schedules.", "anchors": ["src/fs_ops.cpp: copy_file_impl", "src/posix/file.cpp: FileDescriptor::RefreshStatus"]}
{"id": "C33", "title": "copy option dispatch", "statement": "copy(from,to,options) does nothing for a symlink with skip_symlinks, creates a symlink with copy_symlinks, for a regular file does nothing/creates symlink/creates hard link/copies according to directories_only/create_symlinks/create_hard_links, rejects contradictory options and invalid type combinations, and makes no change on rejection.", "quantifier": "all option sets, all source and destination types", "why_tests_cant": "The option space times state space.", "anchors": ["src/fs_ops.cpp: copy_impl"]}
{"id": "C34", "title": "recursive copy reproduces the tree", "statement": "copy(from,to,recursive) of a directory to a non-existing place outside from produces a tree with the same shape, names and file contents, leaves from unchanged and returns without error.", "quantifier": "all source trees of any shape and depth", "why_tests_cant": "Unbounded trees.", "anchors": ["src/fs_ops.cpp: copy_impl"]}
{"id": "C35", "title": "symlink and hard link operations", "statement": "create_symlink(t,l) followed by read_symlink(l) returns t's text; create_hard_link(t,l) makes t and l equivalent and increments hard_link_count by one; removing l restores it; neither overwrites an existing entry.", "quantifier": "all states, all target strings", "why_tests_cant": "Universal over states and strings.", "anchors": ["src/fs_ops.cpp: create_symlink, create_hard_link, read_symlink, hard_link_count, equivalent"]}
{"id": "C36", "title": "rename", "statement": "rename(a,b) moves the entry: afterwards b names the object a named and a is gone (unless both name the same object); failing renames change nothing.", "quantifier": "all states and paths", "why_tests_cant": "Universal over states.", "anchors": ["src/fs_ops.cpp: rename"]}
{"id": "C37", "title": "file_size, resize_file, is_empty, hard_link_count", "statement": "file_size of a regular file is the number of bytes; other types and missing files give uintmax max with an error (is_a_directory for directories, not_supported for others); after resize_file(p,n), file_size(p)==n and the common prefix is unchanged and new bytes are 0; is_empty is true for a directory iff it has no entries and for a regular file iff its size is 0.", "quantifier": "all states and sizes", "why_tests_cant": "Universal over contents and states.", "anchors": ["src/fs_ops.cpp: file_size, resize_file, is_empty, hard_link_count"]}
{"id": "C38", "title": "equivalent is an equivalence relation", "statement": "On existing objects equivalent() is reflexive, symmetric and transitive and true exactly when both names resolve to the same object; if neither exists, or one is missing, an error is reported and false returned.", "quantifier": "all states and triples of paths", "why_tests_cant": "Universal over states and spellings.", "anchors": ["src/fs_ops.cpp: equivalent, stat_equivalent"]}
{"id": "C39", "title": "permissions algebra", "statement": "permissions(p,b,replace) makes the mode bits (within 07777) exactly b; add makes them old|b; remove makes them old & ~b; nothing else changes; supplying none or several of replace/add/remove, is an error that changes nothing; nofollow on a symlink is handled as documented.", "quantifier": "all modes, all perms values, all option sets", "why_tests_cant": "4096x4096 combinations times states.", "anchors": ["src/fs_ops.cpp: permissions", "include/filesystem/fs_perms.h"]}
{"id": "C40", "title": "last_write_time round-trip", "statement": "For every representable non-negative time t, after last_write_time(p,t) succeeds last_write_time(p) == t exactly and the access time is unchanged; on failure nothing changes.", "quantifier": "all representable times and states", "why_tests_cant": "2^63 values and boundary arithmetic.", "anchors": ["src/fs_ops.cpp: last_write_time, set_file_times", "src/posix/time.cpp"]}
{"id": "C41", "title": "time conversion never overflows silently", "statement": "Converting a stat timestamp to file_time_type either yields exactly sec*10^9+nsec nanoseconds or reports value_too_large; there is no signed overflow.", "quantifier": "all 64-bit (sec, nsec) pairs", "why_tests_cant": "Boundary arithmetic over 2^64 values.", "anchors": ["src/posix/time.cpp: FileTimeIsRepresentable, FileTimeTypeFromPosixTimeSpec, ExtractLastWriteTime"]}
{"id": "C42", "title": "space reports exact products", "statement": "space(p) reports capacity/free/available = block count times fragment size when this fits in 64 bits and uintmax max when it does not; on failure all three are uintmax max.", "quantifier": "all 64-bit block counts and fragment sizes", "why_tests_cant": "2^128 combinations.", "anchors": ["src/fs_ops.cpp: space"]}
{"id": "C43", "title": "temp_directory_path", "statement": "temp_directory_path() is the value of the first set variable among TMPDIR, TMP, TEMP, TEMPDIR, or /tmp; it is returned only if it is a directory, otherwise an error is reported and the path is empty.", "quantifier": "all environments and filesystem states", "why_tests_cant": "Universal over environments.", "anchors": ["src/fs_ops.cpp: temp_directory_path"]}
{"id": "C44", "title": "absolute and current_path", "statement": "absolute(p) is p when p is absolute and the current directory joined with p otherwise; its result is absolute whenever it succeeds and p is non-empty; current_path(p) followed by current_path() names the same directory.", "quantifier": "all paths and states", "why_tests_cant": "Universal over paths.", "anchors": ["src/fs_ops.cpp: absolute, do_absolute_impl, current_path"]}
{"id": "C45", "title": "canonical and weakly_canonical", "statement": "canonical(p) succeeds exactly for existing p and returns an absolute path without '.', '..' or symlinks naming the same object; it is idempotent. weakly_canonical(p) equals canonical for existing p and in general canonical(longest existing prefix) joined to the rest, lexically normalised.", "quantifier": "all states and paths", "why_tests_cant": "Unbounded symlink structures.", "anchors": ["src/fs_ops.cpp: canonical, weakly_canonical"]}
{"id": "C46", "title": "relative and proximate", "statement": "relative(p,base) is weakly_canonical(p).lexically_relative(weakly_canonical(base)) and proximate the same with lexically_proximate; an error in either canonicalisation is reported and gives the empty path.", "quantifier": "all states, paths and faults", "why_tests_cant": "Fault positions and states.", "anchors": ["include/filesystem/fs_ops.h: relative, proximate"]}
{"id": "C47", "title": "directory_iterator enumerates the directory", "statement": "Iterating a directory visits every entry except . and .. exactly once, in the order the system delivers them, with path() equal to dir/name, then compares equal to the end iterator; an error in reading ends the iteration and is reported.", "quantifier": "all directories of any size, all read errors at any position", "why_tests_cant": "Unbounded directories and fault positions.", "anchors": ["src/fs_dir_iterator.cpp: DirectoryStream, directory_iterator, posix_readdir"]}
{"id": "C48", "title": "recursive iteration is a complete preorder walk", "statement": "recursive_directory_iterator visits each object in the tree exactly once, parents before children, with depth() equal to the number of directories between; it does not descend into symlinks unless asked, and terminates on every finite tree.", "quantifier": "all finite trees", "why_tests_cant": "Unbounded trees.", "anchors": ["src/fs_dir_iterator.cpp: recursive_directory_iterator::{ctor, do_increment, Advance, TryRecursion, depth}"]}
{"id": "C49", "title": "pop and disable_recursion_pending", "statement": "pop() continues with the entry after the current directory in its parent, or ends at depth 0; after disable_recursion_pending() the next increment does not enter the current directory and later ones do.", "quantifier": "all trees and positions", "why_tests_cant": "Unbounded positions and call histories.", "anchors": ["src/fs_dir_iterator.cpp: recursive_directory_iterator::pop_impl", "include/filesystem/fs_dir.h: disable_recursion_pending"]}
{"id": "C50", "title": "skip_permission_denied", "statement": "With skip_permission_denied an unreadable directory is treated as empty with no error; without it the error is reported and the iterator becomes the end iterator.", "quantifier": "all trees with any set of unreadable directories", "why_tests_cant": "Any subset of a tree may be unreadable.", "anchors": ["src/fs_dir_iterator.cpp: DirectoryStream ctor, directory_iterator ctor, TryRecursion"]}
{"id": "C51", "title": "directory_entry answers from its cache consistently", "statement": "After refresh() or assignment the queries of a directory_entry (file_size, last_write_time, hard_link_count, is_*, status) return what the free functions returned for that path at refresh time; queries that need no cached value return the live one.", "quantifier": "all histories of entry operations and filesystem changes", "why_tests_cant": "State machine over unbounded histories.", "anchors": ["src/fs_dir_iterator.cpp: DoRefresh_impl, GetFileType, GetSize, GetHardLinkCount, GetLastWriteTime, GetStatus, GetSymLinkStatus", "include/filesystem/fs_dir.h: directory_entry"]}
{"id": "C52", "title": "directory_entry error_code overloads agree with throwing ones", "statement": "entry.is_directory(ec), exists(ec), file_size(ec)... return the same value as the throwing overloads whenever these do not throw, and set ec exactly when these throw.", "quantifier": "all entries, cache states and filesystem states", "why_tests_cant": "Cache state times fault space.", "anchors": ["src/fs_dir_iterator.cpp: GetFileType, GetSize", "include/filesystem/fs_dir.h: directory_entry"]}
{"id": "C53", "title": "create_directory under races", "statement": "If several processes call create_directory on the same path concurrently and none fails with another error, exactly one call returns true and the directory exists afterwards.", "quantifier": "all interleavings of any number of callers", "why_tests_cant": "Schedules.", "anchors": ["src/fs_ops.cpp: create_directory"]}
{"id": "C54", "title": "bitmask operators", "statement": "For perms, perm_options, copy_options and directory_options, the operators |, &, ^, ~ and their assignment forms are the bitwise operations, so the option tests used by the operations see exactly the flags the caller combined; distinct enumerators denote disjoint bits.", "quantifier": "all pairs of values", "why_tests_cant": "All values of the type.", "anchors": ["include/filesystem/fs_perms.h", "include/filesystem/fs_copy_options.h", "include/filesystem/fs_directory_options.h"]}
{"id": "C55", "title": "filesystem_error carries its arguments", "statement": "A thrown filesystem_error returns exactly the paths and code it was built with, what() contains the message, and every path given to it appears in what().", "quantifier": "all messages and paths", "why_tests_cant": "Universal over strings.", "anchors": ["src/filesystem_error.cpp", "include/filesystem/filesystem_error.h"]}
{"id": "C56", "title": "Windows permission mapping", "statement": "On Windows, the perms computed from an access mask has read/write/execute exactly when the mask grants the corresponding file right, for owner, group and others alike.", "quantifier": "all 32-bit access masks", "why_tests_cant": "2^32 masks.", "anchors": ["src/windows/permissions.cpp: MapAccessMaskToPerms"]}
{"id": "C57", "title": "Windows file time conversion", "statement": "On Windows, converting a FILETIME to file_time_type and back gives the same second, differences below a second excepted; conversion is monotone.", "quantifier": "all 64-bit FILETIME values in range", "why_tests_cant": "2^64 values.", "anchors": ["src/windows/time.cpp"]}
{"id": "C58", "title": "Windows path splitting", "statement": "On Windows, a path's elements are: an optional root name (\\\\\\\\host or drive letter and colon), an optional root directory, then the names between separators of either kind, then an empty element for a trailing separator; root_name + root_directory + relative_path recompose the text.", "quantifier": "all byte strings", "why_tests_cant": "All combinations of the two separators and root forms.", "anchors": ["src/fs_path.cpp: path::SplitComponents (ASAP_WINDOWS)"]}
{"id": "C59", "title": "Windows read-only attribute", "statement": "On Windows, permissions reported for a file whose read-only attribute is set have the write bits of owner, group and others cleared and the read bits as the access rights grant them.", "quantifier": "for all access masks and attribute values", "why_tests_cant": "the combination of attributes and access masks is too large to enumerate and the tests only use directories and files created writable", "anchors": ["src/windows/permissions.cpp:327-377"]}
{"id": "C60", "title": "no descriptor or directory stream is leaked", "statement": "copy_file, copy, remove_all and is_empty close every descriptor and directory stream they open, whether they return or throw, never close one twice and never use one after closing it; an iterator holds exactly the streams it shows, and constructing, incrementing, popping or destroying iterators leaks none.", "quantifier": "all system call results at every position, all trees, both overloads", "why_tests_cant": "A leak shows only when a particular call fails at a particular point; the failure points multiply with the depth of the tree and cannot all be provoked.", "anchors": ["src/fs_ops.cpp:176-296", "src/fs_ops.cpp:491-595", "src/fs_ops.cpp:1292-1337", "src/fs_portability.h:270-317", "src/fs_dir_iterator.cpp:759-1031"]}
{"id": "C61", "title": "entries delivered by iterators", "statement": "The entries a directory_iterator delivers answer exists, is_*, file_size, last_write_time, hard_link_count and status as the free functions do for the path of the entry, whichever entries were queried before.", "quantifier": "all directories, orders of entries, interleavings of increments and queries, both build modes", "why_tests_cant": "The cache of an entry is left partly filled by the previous one, so the answer depends on the whole sequence of entries and queries.", "anchors": ["src/fs_dir_iterator.cpp:787-873", "src/fs_dir_iterator.cpp:208-516", "include/filesystem/fs_dir.h:91-361"]}
{"id": "C62", "title": "Windows permissions set are those in effect", "statement": "On Windows, after permissions() set a value, a process of the owner, a member of the group who is not the owner, and anyone else can read, write and execute the file exactly as the bits of that value for owner, group and others say, and reading the permissions back gives the same value.", "quantifier": "all 512 values, all owners, groups and memberships, files and directories", "why_tests_cant": "Needs accounts and groups in every relation to each other and an access check for each; the tests only use the account that runs them.", "anchors": ["src/windows/permissions.cpp:327-632"]}
{"id": "C63", "title": "status on Windows", "statement": "On Windows, status and symlink_status tell the type of an existing file from its attributes and those of the target of a link and exactly the permissions whose rights its access control list grants to owner, group and others (without read for read-only files, C59, and none for a group that is the owner), answer not_found when the system says there is no such file, and report every other failure: in the error_code, or by throwing in the overload without one.", "quantifier": "all attributes, all results of every system call, both overloads and build modes", "why_tests_cant": "Each failure of each of the calls would have to be provoked.", "anchors": ["src/fs_ops.cpp:1440-1517", "src/windows/stat.cpp:68-176", "src/windows/permissions.cpp:137-377"]}
{"id": "C64", "title": "directory streams on Windows", "statement": "On Windows, iterating a directory delivers every entry but \".\" and \"..\" once, in the order of the system, with the type symlink_status gives, and reports failures of the listing; recursive iteration enters directories and, without follow_directory_symlink, no links.", "quantifier": "all directories of any size, failures at any position", "why_tests_cant": "Unbounded directories, mixtures of links and directories in any order, failures in the middle of a listing.", "anchors": ["src/fs_dir_iterator.cpp:589-757", "src/fs_dir_iterator.cpp:834-868", "src/fs_dir_iterator.cpp:978-1031"]}
{"id": "C65", "title": "refreshed directory entries on Windows", "statement": "On Windows, refreshing a directory_entry of an existing file succeeds, and the entry then answers the type of the file (links followed) and file_size the size of a regular file.", "quantifier": "all files, attributes, values of GetLastError, sequences of queries, both build modes", "why_tests_cant": "The outcome depends on the value GetLastError happens to have from an earlier call.", "anchors": ["src/fs_dir_iterator.cpp:23-97", "src/fs_dir_iterator.cpp:143-379", "src/fs_dir_iterator.cpp:526-539"]}
{"id": "C66", "title": "functions declared noexcept let no exception out", "statement": "No exception ever leaves a function declared noexcept (the overloads of the operations that take an error_code, and the members of directory_entry that take one), whatever the system answers: the program is never ended by std::terminate.", "quantifier": "all paths, all systems and states, all sequences of answers and failures, all entries with any cache, all build modes", "why_tests_cant": "An exception appears only for particular failures at particular calls; tests reach a few of them.", "anchors": ["include/filesystem/fs_ops.h:117-529", "include/filesystem/fs_dir.h:76-229", "include/filesystem/fs_dir.h:310"]}
{"id": "C67", "title": "remove on Windows", "statement": "On Windows, remove deletes the object at the path and nothing else (links themselves, not their targets), returns true exactly when it deleted something, false without error when nothing is there, and reports every failure.", "quantifier": "all paths, all systems and states, all sequences of answers, both build modes, with and without an error_code", "why_tests_cant": "The answers of the system depend on other processes and on attributes; tests run on one platform and see a few of them.", "anchors": ["src/fs_ops.cpp:1240-1284"]}
{"id": "C68", "title": "create_directory on Windows", "statement": "On Windows, create_directory makes the directory and returns true exactly when it did; an existing directory gives false without error; every other failure is reported. The overload with a pattern directory does the same, with the attributes of the pattern.", "quantifier": "all paths, all systems and states", "why_tests_cant": "Failures of the system at the call itself are not in the tests.", "anchors": ["src/fs_ops.cpp:690-747"]}
{"id": "C69", "title": "copy_file on Windows", "statement": "On Windows, copy_file touches nothing but its destination: it copies when the destination is missing, skips, overwrites or updates (only by a newer source) as the option says, reports an error when the destination exists and no option is given or when the source is no regular file or both are one file, and tells in its result whether it copied.", "quantifier": "all pairs of paths and kinds of files, all options, all times a FILETIME can express, all failures", "why_tests_cant": "The combinations of kinds, options, times and failures are unbounded.", "anchors": ["src/fs_ops.cpp:418-489"]}
{"id": "C70", "title": "queries on Windows", "statement": "On Windows, equivalent says whether two paths name one file, file_size, hard_link_count and is_empty give what the system knows of the file the path leads to (links followed), and failures are reported with the documented value.", "quantifier": "all paths, all systems and states, directories of any size", "why_tests_cant": "They depend on what the system answers, in any sequence, while other processes work.", "anchors": ["src/fs_ops.cpp:852-1024"]}
{"id": "C72", "title": "remove_all on Windows", "statement": "On Windows, remove_all deletes the named object and everything below it and nothing else: links, junctions and other reparse points are deleted themselves and never entered. It returns the number of objects deleted; a path that leads nowhere gives 0 and no error; any failure is reported.", "quantifier": "all paths, all systems and states, trees of any depth and width, other processes acting in between", "why_tests_cant": "Trees are unbounded and races with other processes are not reproducible; the tests do not run against links on Windows.", "anchors": ["src/fs_ops.cpp:1292-1337"]}
{"id": "C73", "title": "noexcept on Windows", "statement": "On Windows, no exception leaves an operation declared noexcept, whatever the system answers.", "quantifier": "all paths, all systems and states, all sequences of answers and failures, both build modes", "why_tests_cant": "An exception appears only for particular failures at particular calls.", "anchors": ["include/filesystem/fs_ops.h:117-529", "src/fs_ops.cpp:1384-1411"]}
{"id": "C74", "title": "space and temp_directory_path on Windows", "statement": "On Windows, space reports the numbers of the system for the volume the path is on, and temp_directory_path returns the directory of the system if it exists and reports an error otherwise.", "quantifier": "all paths, all answers of the system", "why_tests_cant": "Full disks, missing or overlong temporary directories and failing calls do not occur on the machines of the tests.", "anchors": ["src/fs_ops.cpp:1384-1411", "src/fs_ops.cpp:1559-1596"]}
{"id": "C75", "title": "Joining and taking apart on Windows", "statement": "On Windows, p / q drops p if q names another drive or host, keeps only the drive or host of p if q has a root directory, and otherwise puts the names of q after those of p; parent_path drops the last name and gives a path with exactly the remaining elements, in both separators; filename is the last name, or empty after a separator.", "quantifier": "all pairs of texts, both separators, with and without copy elision", "why_tests_cant": "The rules depend on drives, hosts, root directories and separators in both operands; tests have a few dozen pairs.", "anchors": ["src/fs_path.cpp:266-316", "src/fs_path.cpp:522-597"]}
{"id": "C76", "title": "generic_string on Windows", "statement": "On Windows, generic_string contains no backslash, has single slashes between the elements, and read back as a path gives the same elements.", "quantifier": "all texts", "why_tests_cant": "All mixtures of the two separators, drives and hosts would have to be tried.", "anchors": ["include/filesystem/fs_path.h:595-629"]}
{"id": "C77", "title": "lexically_normal on Windows", "statement": "On Windows, lexically_normal always gives a result. It is in normal form (single backslashes, no '.', no '..' after a name), keeps the drive or host and the root directory, leads to the same place from every current directory, is idempotent, and is the same for all texts with the same meaning. In particular it never moves a path to another drive.", "quantifier": "all texts, all current places, all choices of copy elision", "why_tests_cant": "Every mixture of separators, drives, hosts, dots and names that look like drives would have to be tried.", "anchors": ["src/fs_path.cpp:702-790"]}
{"id": "C78", "title": "lexically_relative and lexically_proximate on Windows", "statement": "On Windows, lexically_relative always gives a result: the empty path for different drives or hosts or when only one of the two is absolute, '.' for paths with the same elements, and otherwise a path on no drive that, followed from where the base leads, ends where the path leads. lexically_proximate gives that result, or the path itself when it is empty.", "quantifier": "all pairs of texts, all current places, all choices of copy elision", "why_tests_cant": "Every pair of texts with any mixture of separators, drives, hosts and names that look like drives would have to be tried.", "anchors": ["src/fs_path.cpp:792-829", "include/filesystem/fs_path.h:233-239"]}
{"id": "C71", "title": "canonical on Windows", "statement": "On Windows, when canonical succeeds, the result is the drive-absolute path of the place to which the path leads (from its own drive or the current directory, through '.', '..' and symbolic links, fewer than 40): it exists, contains no '.', '..' or symbolic link, and canonical of it is the same. Whenever the path leads to an existing place in that way canonical succeeds. It always comes to an end, reports a failure with its cause, and returns no path with an error.", "quantifier": "all directory trees with links, all paths and current directories, all choices of copy elision, debug and release builds", "why_tests_cant": "Trees, link texts and chains of links are unbounded, and a run that never ends cannot be observed by a test.", "anchors": ["src/fs_ops.cpp:39-56", "src/fs_ops.cpp:84-162", "src/windows/stat.cpp:110-146"]}
{"id": "C79", "title": "absolute on Windows", "statement": "On Windows, absolute returns a path that begins with a host, or with a drive and a separator, as it is and without asking the system; any other path is put after the current directory as operator/ does. The result is fully qualified (host, or drive and separator). If the current directory cannot be had, its error is reported and no path is returned.", "quantifier": "all texts, all current directories, all systems, all choices of copy elision", "why_tests_cant": "Every combination of current directory and path text (drive, host, separators, none) would have to be tried.", "anchors": ["src/fs_ops.cpp:39-61", "src/fs_ops.cpp:811-821"]}
{"id": "C80", "title": "links on Windows", "statement": "On Windows, read_symlink returns the text of the link; create_symlink, create_directory_symlink and create_hard_link make one link, of the given name and target, and report the failure of exactly that; copy_symlink makes a link with the same text, to a directory exactly when the copied one leads to a directory.", "quantifier": "all paths, all link texts and layouts of the reparse data, all systems and failures", "why_tests_cant": "Offsets, lengths and contents of reparse data, and the answers of the system, are unbounded; tests see only those of one machine.", "anchors": ["src/windows/stat.cpp:16-45", "src/windows/stat.cpp:110-146", "src/fs_ops.cpp:597-620", "src/fs_ops.cpp:753-805", "src/fs_ops.cpp:1214-1216"]}
{"id": "C81", "title": "rename, current_path, resize_file and last_write_time on Windows", "statement": "On Windows, rename and current_path(p) make exactly the one change asked for and report its failure; resize_file sets the size wanted, and changes nothing when the file cannot be opened; last_write_time sets the time given and reads it back.", "quantifier": "all paths, sizes and times, all systems and failures", "why_tests_cant": "Sizes and times are 64 bit numbers, and every call can fail in every way.", "anchors": ["src/fs_ops.cpp:834-840", "src/fs_ops.cpp:1051-1103", "src/fs_ops.cpp:1343-1372", "src/windows/time.cpp:14-52"]}
{"id": "C82", "title": "create_directories on Windows", "statement": "On Windows, create_directories makes every directory along the path that is missing, returns true exactly if it created something, reports the failure to create one of them with its code, leaves alone what was there and creates nothing elsewhere; a path that cannot become a directory is reported.", "quantifier": "all paths with no root name or a drive, all depths, all states of the disk, all failures", "why_tests_cant": "The stack of prefixes is as deep as the path; any part of the path may be there, missing, a file or appear meanwhile, and \".\" and \"..\" may stand anywhere.", "anchors": ["src/fs_ops.cpp:630-688", "src/fs_ops.cpp:690-710"]}
{"id": "C83", "title": "copy on Windows", "statement": "On Windows, copy does what the kinds of the source and the target and the options call for, with one call to the system, and refuses the combinations the standard refuses without changing anything; whatever the system answers, everything it creates or writes is at the place in the target that corresponds to a place in the source; it reports success only if no call that changes something failed.", "quantifier": "all option sets, all kinds of source and target, all answers of the system, all depths", "why_tests_cant": "Nine option bits, six kinds of source and target and every pattern of failures, in directories of any depth and with any names.", "anchors": ["src/fs_ops.cpp:176-296", "src/fs_ops.cpp:418-490"]}
{"id": "C84", "title": "Copying a tree on Windows", "statement": "On Windows, a recursive copy of a directory to a new or empty directory comes to an end and gives the target the same files with the same contents and the same directories as the source, at every depth, leaves the source and everything else alone, copies one level only with the options none, and reports an error if a directory could not be read to its end.", "quantifier": "all trees, all names, all places", "why_tests_cant": "Trees have any depth and any number of entries; the result is a statement about every place of them.", "anchors": ["src/fs_ops.cpp:176-296", "src/fs_ops.cpp:283-292"]}
{"id": "C85", "title": "weakly_canonical, relative and proximate on Windows", "statement": "On Windows, weakly_canonical of a path that exists is its canonical path; otherwise it is the place the longest existing prefix leads to, followed by the remaining elements in normal form; a path of which nothing exists comes back in normal form. relative gives the names that lead from the place of the base to the place of the path, proximate the same or, between drives, the path itself. Every failure to examine a prefix is reported.", "quantifier": "all texts with or without a drive, all links, all numbers of elements, all answers of the system", "why_tests_cant": "Any split of any path into an existing part with links and a missing part, with dots and separators anywhere.", "anchors": ["src/fs_ops.cpp:1603-1652", "include/filesystem/fs_ops.h:410-459"]}
{"id": "C86", "title": "file names, stems, extensions and modifiers on Windows", "statement": "On Windows, filename() is the text after the last separator or the root name; stem() and extension() divide it at its last dot; the has_* queries agree with the parts and is_absolute() means a root directory or a host; remove_filename() keeps the text up to the last separator or the root name, replace_filename(r) appends r to that, replace_extension(r) exchanges the extension only; make_preferred() writes every separator as a backslash and is the path of the text it shows.", "quantifier": "all texts with any mix of separators, drives and hosts, all replacements", "why_tests_cant": "Offsets recorded when the text was split are used to cut it; drives, hosts, colons and mixed separators give unboundedly many layouts.", "anchors": ["src/fs_path.cpp: path::has_stem, has_extension, filename, stem, extension, FindExtension", "src/fs_path.cpp:631-686"]}
{"id": "C87", "title": "comparison and hashing on Windows, and the standard's order", "statement": "On Windows compare() is the lexicographic order of the elements, a total order with which the six operators agree; it does not depend on the kind or number of separators; equal paths have equal hashes. On both systems the order is that of the C++ standard: by root name, then paths without a root directory first, then by the elements of the relative path.", "quantifier": "all pairs and triples of paths, made from text or returned by parent_path, lexically_normal or make_preferred", "why_tests_cant": "Order axioms over triples of unbounded strings in several internal representations.", "anchors": ["src/fs_path.cpp:458-507", "src/fs_path.cpp:612-625", "include/filesystem/fs_path.h:454-476"]}
{"id": "C88", "title": "copies, moves and assignments of directory iterators", "statement": "Whatever a program does with its directory iterators (construct, copy, move, assign, destroy, increment, pop, catch errors and go on), no directory stream is used after it was closed, none is closed twice, and the streams open are exactly those of the iterators that are left. Copies stand at the same entry: incrementing one moves all. Iterators that share nothing do not affect each other. disable_recursion_pending concerns one copy only. When one copy reaches the end the others do not compare equal to the end iterator: a directory_iterator still shows the last entry and incrementing it is undefined; a recursive one has depth -1 and looking is undefined.", "quantifier": "all sequences of operations on any number of iterators, all answers of the system", "why_tests_cant": "Lifetimes depend on the order of unboundedly many copies, moves and failures.", "anchors": ["include/filesystem/fs_dir.h:413-488", "include/filesystem/fs_dir.h:531-633", "src/fs_dir_iterator.cpp:835-1031"]}
{"id": "C89", "title": "modifying a path with itself or with one of its elements", "statement": "`p /= p`, `p += p`, `p = p` and `swap` with itself behave as with a copy of p; so do `/=`, `+=` and `replace_extension` with a reference to an element of p. Exceptions: `p = std::move(p)` empties p; assigning an element of p to p, and appending the root directory that p starts with, is undefined; on POSIX `replace_filename(p)` and `replace_extension(p)` use what is left of p after the file name or extension was removed, and `replace_filename` with the last element of p loses the name, or is undefined when the file is directly below the root.", "quantifier": "all paths built from a text, all elements, both platforms, with and without copy elision", "why_tests_cant": "Which branch reads the argument after the object was changed depends on the text; reading a destroyed element often seems to work.", "anchors": ["src/fs_path.cpp:121-127", "src/fs_path.cpp:522-597", "src/fs_path.cpp:659-686", "include/filesystem/fs_path.h:482-490"]}
{"id": "C90", "title": "create_directories called by several threads or processes at once", "statement": "Any number of calls of create_directories run at once, for paths each of which is a directory already or could be made, while others add directories too. No call fails or throws, each has its directory when it returns, nothing that existed is changed or replaced, and what is new is directories on the way of the paths. The calls never wait for each other: each makes at most two system calls per name of its path. If nobody else is at work, some call returns true exactly if something is new; but a call may return true though another one made the directory, unlike create_directory.", "quantifier": "all file systems, all numbers of calls, all such paths, all interleavings of the system calls", "why_tests_cant": "The interesting interleavings put another call between the check and mkdir of each component; a test cannot drive the scheduler there for every component of every path.", "anchors": ["src/fs_ops.cpp:630-688", "src/fs_ops.cpp:690-710"]}
{"id": "C91", "title": "Operations on a path whose text contains a NUL character", "statement": "A path can hold a NUL character, but operations hand its text to the system as a C string, so to the system it is the text before the NUL. Each single operation (queries, create, remove, rename, copy_file, permissions, links, canonical) therefore does on such a path exactly what it does on the path that ends there: same changes, same result, same error. A caller can rely on that and on nothing else: an operation can succeed on, and remove deletes, a file other than the one the path's text spells; an iterator delivers entries which name the directory itself; remove_all of such a directory never ends and deletes nothing; create_directories can say it made a directory it did not make.", "quantifier": "all paths, all pairs of paths that agree up to the first NUL, all systems behind the C interface and all their states", "why_tests_cant": "That two calls act alike must hold on every file system state and for every answer of the system; non-termination of remove_all cannot be observed by a test.", "anchors": ["src/fs_portability.h:55-97", "src/fs_ops.cpp:1287-1335", "src/fs_dir_iterator.cpp:771-807"]}
{"id": "C92", "title": "copy_file and copy end", "statement": "A call of copy_file or copy ends, with a result or an error. Alone on the file system copy_file always ends, and so does a recursive copy to a missing place outside the source; with read and write, a copy_file that is disturbed by other processes ends unless the source delivers data for ever. Two cases fail: with sendfile (the Linux build), a source that is shortened by another process during the copy makes copy_file spin for ever; and copying a directory to a missing place inside itself never ends and fills the disk with ever deeper copies.", "quantifier": "all states, trees, file sizes, options, systems and choices of the system; for the copy with read and write, all kernels and all interference", "why_tests_cant": "A test can neither observe that a call never ends nor that all calls end; the window in which a source is shortened is a race.", "anchors": ["src/fs_ops.cpp:323-344", "src/fs_ops.cpp:370-394", "src/fs_ops.cpp:491-595", "src/fs_ops.cpp:176-296"]}
{"id": "C93", "title": "No handle or memory block is leaked on Windows", "statement": "On Windows every operation, every iterator and every refresh of a directory entry gives back each file handle, search handle and memory block that it obtained exactly once, whether the call returns or throws, and never uses or gives back one that it does not hold. A directory iterator holds the search handle of its directory, a recursive one those of the directories on its stack, and nothing else; at the end and after destruction they hold nothing. One case fails: a file name that nowide cannot convert makes the constructor of an iterator throw, and the search handle is lost.", "quantifier": "all paths, options, flags, builds and answers of Windows; all directory sizes and tree depths", "why_tests_cant": "A lost handle shows no effect until the process runs out of handles; most of the paths that could lose one need a call of the system to fail in the middle.", "anchors": ["src/fs_portability.h:250-317", "src/windows/stat.cpp:79-146", "src/windows/permissions.cpp:326-632", "src/fs_dir_iterator.cpp:23-285", "src/fs_dir_iterator.cpp:632-757", "src/fs_dir_iterator.cpp:835-1034", "src/fs_ops.cpp:852-1512"]}
{"id": "C94", "title": "permissions on Windows asks for the permissions wanted", "statement": "On Windows permissions(p, prms, option) that reports no error changed the access list of the file named by p once, to the entries for: prms with replace, what status (with nofollow: symlink_status) tells together with prms with add, and the same without prms with remove. A call that ends otherwise changed nothing, and some call of the system had failed. Adding permissions takes none away, and none or several of the options is an error. The last two are false: on a file with the read-only attribute, adding any permission makes the file unreadable for everybody; and without assertions a wrong number of options is taken for one of them.", "quantifier": "all paths, permissions, options, builds, states and answers of Windows in which a failure has an error code", "why_tests_cant": "The failures in the middle of the sequence of calls cannot be provoked by a test, and the combinations of file attributes, access lists and options are too many.", "anchors": ["src/fs_ops.cpp:1155-1192", "src/windows/permissions.cpp:326-377", "src/windows/permissions.cpp:420-632", "src/windows/permissions.cpp:207-324"]}
{"id": "C95", "title": "The same characters make the same path in whatever form they are given", "statement": "A path constructed, assigned, appended or concatenated from a string, a pointer, an iterator, a range or a single character, in char, wchar_t, char16_t or char32_t, depends only on the characters the argument holds: pointers and iterators stop at the first NUL, strings and ranges do not, and a pointer that is not terminated is undefined behaviour. generic_wstring() is the text in generic form, converted. wstring() and back gives the same path when its text is well formed. Adding characters one after the other gives the same path as adding them at once. The last is false: a character outside the basic plane added as two char16_t is lost, and on Windows a host name added after two separate backslashes is no host.", "quantifier": "all texts, character types, paths, platforms and conversions that convert well formed text correctly and never give nothing for something", "why_tests_cant": "The overloads multiplied by the character types and the texts are too many, and the conversion library is swapped by the build.", "anchors": ["include/filesystem/fs_path.h:61-65", "include/filesystem/fs_path.h:84-95", "include/filesystem/fs_path.h:108-122", "include/filesystem/fs_path.h:130-172", "include/filesystem/fs_path.h:267-346", "include/filesystem/fs_path.h:543-592", "include/filesystem/fs_path.h:620-633", "include/filesystem/fs_path_traits.h:19-57"]}
{"id": "C96", "title": "No operation on paths cuts a character in two", "statement": "A program that makes its paths from well formed UTF-8 text only ever sees well formed UTF-8 from them: the text, the generic text, every element, every part and every result of appending, concatenating, removing, replacing, normalising, making relative, writing to and reading from streams is well formed.", "quantifier": "all well formed texts, all histories of operations, every build", "why_tests_cant": "Tests use ASCII names; a cut through the middle of a character shows only with particular bytes at particular places.", "anchors": ["include/filesystem/fs_path.h:108-172", "src/fs_path.cpp:25-135", "src/fs_path.cpp:196-361", "src/fs_path.cpp:522-832"]}
{"id": "C97", "title": "No operation on paths throws, asserts or is undefined", "statement": "Whatever a program does with path values (making them from any text, copying, moving, swapping, appending, concatenating, replacing, normalising, making relative, taking parts and elements, reading from streams, also with arguments that are the modified path or its elements), no operation throws out_of_range, fails an assertion or is undefined behaviour, on POSIX and on Windows. False where the compiler elides the copy of the path parent_path returns: asking the parent of any path with three or more leading slashes and a short first name for its relative part throws out_of_range.", "quantifier": "all histories of operations, all texts, both systems, every choice of copy elision", "why_tests_cant": "The offsets an operation leaves behind are used by later operations; failures need particular sequences of operations and a particular compiler choice.", "anchors": ["src/fs_path.cpp:25-135", "src/fs_path.cpp:196-361", "src/fs_path.cpp:407-438", "src/fs_path.cpp:522-597", "src/fs_path.cpp:631-832", "include/filesystem/fs_path.h:60-250"]}
{"id": "C98", "title": "Advancing iterators in postfix form, and comparing entries", "statement": "On POSIX a loop that reads entries with *it++ sees the same entries in the same order with the same stored attributes, makes the same calls to the system and ends with the same exception as one that uses *it and ++it, for directory_iterator and recursive_directory_iterator. Directory entries compare as the elements of their paths do, whatever they have stored, with the six operators consistent. The entries one recursive walk delivers (where the system tells types and follow_directory_symlink is not set) are pairwise different. The value of it++ gives its entry only once.", "quantifier": "all systems, directories, trees and caches", "why_tests_cant": "The proxy moves the entry several times depending on elision; equality of whole loops on every system cannot be enumerated.", "anchors": ["include/filesystem/fs_dir.h:41-54", "include/filesystem/fs_dir.h:231-241", "include/filesystem/fs_dir.h:364-377", "include/filesystem/fs_dir.h:448-452", "include/filesystem/fs_dir.h:565-569"]}
{"id": "C99", "title": "Recursive copy into an existing directory merges", "statement": "On POSIX, when nothing else changes the file system, a recursive copy of a directory into an existing directory (neither inside the other, no file of the one being a file of the other, every readable file that both have being regular with skip_existing, update_existing or overwrite_existing set, and directories facing directories) fails with no error. What only the destination has stays as it is, what only the source has appears as a new copy with the same content and permissions, directories that both have stay, and a file that both have gets the content and permissions of the source exactly if the options say so (update_existing: only if the source is later), keeping its identity. Nothing outside the destination and no other object changes, and the source tree is unchanged.", "quantifier": "all file systems, all trees of any depth and width, all such paths and options", "why_tests_cant": "Trees can overlap in unboundedly many ways; the claim is about every place of both trees and everything outside them.", "anchors": ["src/fs_ops.cpp:176-296", "src/fs_ops.cpp:418-595"]}
{"id": "C100", "title": "What operations leave alone", "statement": "On POSIX, however an operation ends (result, error code, exception): functions that ask for something (status, the predicates, sizes, times, canonical forms, entries, iterators of both kinds) change no file, attribute, name or current directory. create_directory, create_directories, create_symlink, create_directory_symlink, create_hard_link, copy_symlink, and copy_file and copy with skip_existing or with neither update_existing nor overwrite_existing, leave everything that exists under its names with its content, permissions and times. remove and remove_all create nothing and change no content. permissions changes nothing but permissions, last_write_time nothing but modification times, resize_file nothing but contents of regular files, current_path nothing but the current directory, rename no content and no permissions or times.", "quantifier": "all file systems, paths, options and outcomes, every length of the run", "why_tests_cant": "An absence of effects on everything else in every state, including runs that stop half way, cannot be sampled.", "anchors": ["src/fs_ops.cpp:176-296", "src/fs_ops.cpp:418-595", "src/fs_ops.cpp:597-860", "src/fs_ops.cpp:1012-1380", "src/fs_dir_iterator.cpp:759-1031"]}
{"id": "C101", "title": "Operations that undo each other", "statement": "On POSIX, remove(p) after create_directory(p) returned true, or after create_symlink, create_directory_symlink, create_hard_link or copy_symlink made p, or after copy_file made a file at the missing name p, returns true and restores the tree of names and the contents and attributes (the link count too) of everything that existed. After a recursive copy to a missing place remove_all of that place restores the state in the same way and returns the number of entries of the source. An entry renamed to a free name and back leaves every place with the object it had.", "quantifier": "all file systems, paths, trees and contents", "why_tests_cant": "That nothing is left over or lost must hold at every place of every tree, not only in the trees of a test.", "anchors": ["src/fs_ops.cpp:224-296", "src/fs_ops.cpp:418-624", "src/fs_ops.cpp:760-1010", "src/fs_ops.cpp:1232-1345"]}
{"id": "C102", "title": "Where remove_all goes while others work", "statement": "On POSIX, whatever other processes do to the file system while remove_all(p) runs, it deletes nothing but p and what is below p: every call it makes names p or something reached from p by entry names alone through what lstat had said to be directories, it opens only what lstat had said to be a directory, it removes only what lstat had found, and no call changes a place outside p.", "quantifier": "all paths, systems, trees, and sequences of changes by other processes between any two calls", "why_tests_cant": "The interleavings of another process with the calls of a recursive removal are unbounded in number and cannot be provoked one by one.", "anchors": ["src/fs_ops.cpp:1232-1337", "src/fs_dir_iterator.cpp:33-190"]}
{"id": "C103", "title": "Where copy goes", "statement": "On POSIX, whatever the system answers and whatever other processes do while copy(from, to, options) runs, the source is only looked at, listed and opened for reading, under from or names below it; a file is opened for writing only at the place in the target that goes with a file of the source opened before (or, for a file whose target is a directory, there under its own name); what is written to it was read from that file, and only descriptors opened so are written, truncated and given permissions; a hard link is made to what goes with it, a symlink leads to what goes with it or has the text of the symlink that goes with it; nothing is removed, renamed or changed by name.", "quantifier": "all paths, options, systems whose directories hold no names with slashes, trees and sequences of changes by other processes", "why_tests_cant": "The trees, the option values, the failures and the interleavings are unbounded, and a stray call shows only in the case that provokes it.", "anchors": ["src/fs_ops.cpp:176-304", "src/fs_ops.cpp:418-595", "src/fs_dir_iterator.cpp:33-190"]}
{"id": "C104", "title": "What operations touch on Windows", "statement": "On Windows, whatever the system answers, the queries, directory_entry::refresh and the iterators make only calls that change nothing and open files without any right to change them, and name nothing but what they are asked about; permissions, last_write_time(p, t) and resize_file change only p; remove_all deletes only p and what it is led to from p by the names found in directories; copy_file copies from to to and nothing else; copy makes each file, directory and link at the place in the target that goes with its place in the source, and deletes nothing.", "quantifier": "all paths, options, states of iterators and answers of the system, and all ends of the operations", "why_tests_cant": "The answers of the system are unbounded in number, and a call made in a rare branch shows only in the run that takes it.", "anchors": ["src/fs_ops.cpp:176-620", "src/fs_ops.cpp:852-1512", "src/fs_dir_iterator.cpp:23-285", "src/fs_dir_iterator.cpp:632-1037", "src/windows/permissions.cpp:207-632", "src/windows/stat.cpp:79-146"]}
{"id": "C105", "title": "Failures are told", "statement": "On POSIX, whatever the system answers: an operation that returns without a code had no call refused, except for the refusals it may overlook (a directory that is already there for create_directory, a file that is not there for remove, remove_all and exists, a target that is not there and the fallback from sendfile for copies, a directory found after all by create_directories, and the readdir errors that copy ignores). The code it reports or throws is one with which the system refused a call, or one of the few of the library's own. The operations other than create_directories, create_directory(p, template), canonical, equivalent and temp_directory_path end with the first refusal they do not overlook.", "quantifier": "all operations, paths, options and answers of the system, with and without an error_code", "why_tests_cant": "It needs each system call of each operation to fail with each code at each moment, which no test set-up can arrange.", "anchors": ["src/fs_ops.cpp:39-97", "src/fs_ops.cpp:176-1597", "src/fs_error.h:86-147", "src/fs_dir_iterator.cpp:771-868", "src/posix/stat.cpp:20-76"]}
{"id": "C106", "title": "Failures are told on Windows", "statement": "On Windows, whatever the system answers: an operation that returns without a code had no call fail, except for the failures it may overlook (a directory that is already there for create_directory, a file that is not there for remove and remove_all, a target that is not there and a failed comparison of source and target for copy_file, the errors of FindNextFileW that remove_all, is_empty and copy do not pass on, and the rights of a file that is gone or in use). Otherwise the code it gives or throws is the reason of the first failure it does not overlook, or one of the few of the library's own, and after that failure it only closes handles and frees memory. With an error_code it does not throw filesystem_error, but for space when there is no current directory; the throwing form of status tells nothing.", "quantifier": "all operations listed, paths, options, answers of the system, with and without an error_code, debug or not", "why_tests_cant": "It needs each Windows call of each operation to fail with each code at each moment, which no test set-up can arrange; the project has no Windows test for failing calls.", "anchors": ["src/fs_ops.cpp:176-1512", "src/fs_error.h:34-147", "src/fs_portability.h:262-317", "src/windows/stat.cpp:68-176", "src/windows/permissions.cpp:137-632", "src/fs_dir_iterator.cpp:644-868"]}
{"id": "C107", "title": "The overloads agree on Windows", "statement": "On Windows, for every operation that has an overload with an error_code and a throwing one, on every system whose failing calls give a reason: the two make the same calls; if the throwing one returns, the other returns the same value and clears its code; if the throwing one throws filesystem_error, the other returns with that code and the value that marks failure (false, the greatest number, an empty path, an end iterator). canonical, weakly_canonical, relative and proximate may end with another code, but not with a clear one. space, relative(p) and proximate(p) need a current directory: without one the overload with an error_code throws.", "quantifier": "all operations listed, paths, options, iterators, systems that give reasons for failures, debug or not", "why_tests_cant": "It compares two overloads under every failure of every Windows call; tests call one overload with a handful of failures that can be arranged.", "anchors": ["src/fs_ops.cpp:39-1596", "src/fs_error.h:34-147", "src/fs_dir_iterator.cpp:90-868", "include/filesystem/fs_ops.h:234-456", "src/windows/permissions.cpp:137-632"]}
{"id": "C108", "title": "An operation that fails has changed nothing", "statement": "create_directory, create_symlink, create_directory_symlink, create_hard_link, copy_symlink, remove, rename, resize_file, permissions, last_write_time, current_path and the queries, on Windows copy_file too: whatever the system answers, at most one call made changes anything, nothing but closing handles and freeing memory comes after it, and the operation then succeeds. So if it gives a code, throws or fails an assertion, every file, name and attribute and the current directory are as before, and a process killed at any moment leaves the change done or not done. This does not hold for create_directories, remove_all, copy and (on POSIX) copy_file, which stop half way.", "quantifier": "all operations listed, paths, options, answers of the system, with and without an error_code, debug or not", "why_tests_cant": "It needs each call of each operation to fail at each moment, and then the absence of any effect anywhere.", "anchors": ["src/fs_ops.cpp:597-846", "src/fs_ops.cpp:1081-1284", "src/fs_ops.cpp:1343-1378", "src/windows/permissions.cpp:420-632"]}
{"id": "C109", "title": "Asking for the same thing again", "statement": "After create_directory (with or without a pattern), remove, remove_all, resize_file, last_write_time, permissions (replace, add or remove, with or without nofollow) or current_path with an absolute path has succeeded, the same call made again succeeds too and leaves all files, names, permissions and the current directory as they were (times set by the system itself aside); create_directory and remove then give false and remove_all gives 0. A copy_file to a place where there was nothing, made again, gives false and changes nothing with skip_existing, and is refused with file_exists without an option for existing files. It does not hold for create_symlink, create_directory_symlink and create_hard_link, which fail with file_exists the second time, nor for rename to a free name, which finds nothing to rename the second time, nor for current_path with a relative path, which is taken from the new directory the second time.", "quantifier": "all file systems, paths, sizes, times and permissions, with and without an error_code (permissions: with one)", "why_tests_cant": "Repeating must be harmless after every success, from every state of the file system, and that nothing else changed needs every other file to be looked at.", "anchors": ["src/fs_ops.cpp:690-747", "src/fs_ops.cpp:753-805", "src/fs_ops.cpp:834-846", "src/fs_ops.cpp:1081-1110", "src/fs_ops.cpp:1155-1208", "src/fs_ops.cpp:1240-1337", "src/fs_ops.cpp:1354-1378"]}
{"id": "C110", "title": "The queries fit together", "statement": "file_size answers exactly for the paths is_regular_file is true of, read_symlink for those is_symlink is true of, hard_link_count, canonical and equivalent(p, p) for those exists is true of; last_write_time for no others. is_empty of a regular file is true exactly when file_size is 0, and of a directory exactly when a new directory_iterator is the end iterator. canonical(p) is its own absolute and canonical path, is no symlink, is equivalent to p and has p's status, also from symlink_status; two paths with one canonical path are equivalent. absolute(p) answers every query as p does. For a p that exists and a directory base, base / relative(p, base) is equivalent to p and has p's canonical path, whatever symlinks lead to either.", "quantifier": "all file systems and paths (for canonical, absolute and relative: not empty, and absolute or with a current directory whose text fits PATH_MAX), with an error_code (relative: also without)", "why_tests_cant": "The queries are written separately, each with its own calls and checks; that their answers never contradict each other must hold for every tree of directories and symlinks and every spelling of a path.", "anchors": ["include/filesystem/fs_ops.h:242-375", "include/filesystem/fs_ops.h:439-459", "src/fs_ops.cpp:39-97", "src/fs_ops.cpp:852-1079", "src/fs_ops.cpp:1214-1234", "src/fs_ops.cpp:1603-1652"]}
{"id": "C111", "title": "What depends on the current directory", "statement": "Given absolute paths, an operation ends in the same way whatever the current directory is: the same value, error code or exception, and the same files afterwards. This holds for the status queries, file_size, hard_link_count, last_write_time, equivalent, is_empty, space, read_symlink, absolute, canonical, weakly_canonical, relative and proximate with a base, create_directory in both forms, create_directories, the link operations (the text of a symlink may be relative), copy_symlink, copy_file, copy, remove, remove_all, rename, resize_file, permissions, last_write_time to set and current_path to set. After current_path(p) has succeeded, a relative x leads where p / x led before, if that led anywhere, and status and symlink_status of x are those of p / x before. create_directory, the link operations, remove, rename, resize_file, permissions, last_write_time and current_path do to absolute(p) exactly what they do to p.", "quantifier": "all file systems, current directories and paths, with and without an error_code (create_directories, where the compiler elides the copy of what parent_path returns: paths without . and .., trailing slashes and repeated slashes)", "why_tests_cant": "Tests run in one current directory. That no step of a recursive copy or removal, and none of the paths an iterator builds, falls back on it must hold for every tree and every current directory.", "anchors": ["include/filesystem/fs_ops.h:111-122", "src/fs_ops.cpp:46-60", "src/fs_ops.cpp:811-850", "src/fs_ops.cpp:869-1079"]}
