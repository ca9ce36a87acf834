{
 "C01": "Holds for all versions whose subtractions do not overflow (wf_version). Refuted in general: numeric local segments are truncated to int32 and subtracted with wrap-around, and post number 2^63-1 minus the -1 for 'none' wraps. Equality with itself holds for all versions.",
 "C02": "As C01; additionally a numeric local segment >= 2^63 is treated as a string.",
 "C03": "Every version in normal form (letters a/b/rc, numbers in range, local segments canonical).",
 "C04": "Holds unless a numeric local segment in [2^31,2^63) was wrapped to a negative int32, in which case String() prints a version that does not parse (refutation: 1+2147483648).",
 "C05": "Acceptance is an equivalence for all byte strings without U+017F and U+212A; the value theorem is for local numbers below 2^31 (beyond: see C01/C04 refutations). Go's case folding takes these two letters for s and k, so that local labels with them are accepted (C05_letters_refuted). parse_version of the other theorems folds ASCII only; the two functions agree on all strings without the two letters (C05_same_value_partial). C05_wide says exactly which strings the function with Go's case folding accepts, C05_wide_value with which value.",
 "C06": "For all versions and any number of added zeros.",
 "C07": "Every operator/blank/version text is parsed as documented, except that < and > need at least one blank after the operator. Refuted without it: the code drops two characters for one-character operators ('<2.0' is rejected, '<12.0' means '< 2.0', '<' panics). White space of Unicode around clauses does not count (C07_blanks_partial). C07_exact_partial says exactly which clauses are accepted and with what meaning.",
 "C08": "All specifiers and versions.",
 "C09": "All comma-free texts and all versions the parser can return.",
 "C10": "Operator identity for all versions; the meaning for versions without integer overflow.",
 "C11": "All versions the parser can return.",
 "C12": ">= is exact. <= is exact for candidates without local label (refuted otherwise: <=1.0 rejects 1.0+local). < and > are exact except for candidates with the same release as V (refuted: <1.0 accepts 1.0rc1; >1.0 accepts 1.0.post1 and 1.0+local). C12_exact_partial says what all four do for all versions.",
 "C13": "Holds for ~=, ==, !=, <=, >= clauses. Refuted for prefix clauses (String drops '.*') and for < / > (the printed form is not accepted by the parser). C13_exact_partial says what becomes of every specifier that is printed and parsed again (versions without wrapped local numbers).",
 "C14": "Nil policy: exact. With a policy Select has allowed and excluded swapped (refuted with ExcludePreReleases); what it does compute is proved.",
 "C15": "Holds for all tags with numbers in [0,2^63), which includes every tag parsed from a file name. Refuted for BuildTag structs with negative numbers (a.Int-b.Int wraps).",
 "C16": "All data whose version is canonical and whose build tag and compatibility tag can be written (wf_name); plus exact characterisation of the accepted file names. Build numbers >= 2^63 in a file name saturate.",
 "C17": "All installers and tags.",
 "C18": "All tags and all strings.",
 "C19": "For every unstable sorting procedure. Preference is proved among wheels of the same version spelling; refuted across spellings (1.0 and 1.0.0 are grouped separately). C19_select_wheel says it of SelectWheel itself: the files listed by the server, the specifier given.",
 "C20": "Refuted: pre-releases are not avoided (the exclusion policy is inverted), yanked pre-releases and yanked files of mixed versions are chosen, and the lowest build tag wins (proved in general). Proved: newest candidate on pages without yanked files; on pages without pre-releases a yanked version is chosen only if all are yanked. C20_version_partial says which version is selected on all pages.",
 "C21": "Exact for candidates without suffix; a bare X never accepts suffixed candidates, so the documented range equivalence is refuted for e.g. 2.6.2.post1; '<X' excludes pre-releases of X only when X has no local label. White space of Unicode around clauses does not count (C21_blanks_partial).",
 "C22": "All names; the request theorem is for the path part of the URL. Refuted only for the empty name, which is not rejected.",
 "C23": "All pages, Python versions and requirement texts.",
 "C24": "Proved exactly, for all URLs (percent-encoding included): a download succeeds iff the response is 200 and, if the fragment is a well-formed list, every recognised checksum in it matches. Refuted for fragments that are not well-formed lists (a ';' or a stray '%'): ParseQuery fails and no checksum is verified.",
 "C25": "Refuted for every link and server: the code fetches the file itself, never its signature, and returns the content of the file as the signature (C25_url_refuted also for URLs with a fragment). Only the data-gpg-sig=\"false\" case is right.",
 "C26": "Proved for every stack of well-formed entries such that, when an entry is unpacked, none of the directories above it is a symbolic link, over an empty base; over any base if no directory entry follows a whiteout of the same path in an earlier layer. Refuted without that condition: squashing [.wh.foo],[foo/] drops the whiteout. Stacks that write through links: see C33.",
 "C27": "Proved up to whiteouts made redundant by an opaque marker in the same directory (the 'effective' part). Refuted literally: such a whiteout disappears when the result is squashed again. Scope: stacks not written through links, and stacks whose links are proper (not to '/', no whiteout names in their texts).",
 "C28": "All stacks without a symbolic link to '/' itself, and all stacks not written through links. Refuted for entries written through a link to '/'.",
 "C29": "All layers, including every combination of symbolic links, whatever the recursion depth.",
 "C30": "All stacks, all sorting procedures that sort, all map orders.",
 "C31": "Refuted: a link a -> a/b with an entry a/x recurses forever. Proved for stacks not written through links, and (C33) for stacks whose links lead to directories, to files or to directories that do not exist yet. The only failure of a stack that stays in its root is the loop error. Exactly when there is an output, for stacks without links to the root directory: when every entry has a place to which its path leads; it fails exactly when the path of an entry comes upon a circle of links; it never ends exactly when neither is so. An output is certain whenever no link names a path through a link and no link is put below a link (P26_Ends).",
 "C32": "Proved for stacks not written through links, and for entries at the places where their links lead. Refuted for links to the root directory itself: what is written or hidden through such a link later does not win (C32_root_refuted).",
 "C33": "Proved for entries written through chains of links to directories, to directories that do not exist yet and to files: the output is exactly that of the entries at the places the links lead to. Conversely every output of a stack of well-formed entries arises this way. Refuted for links to '/'. Missing: link texts that run through whiteout names; stacks on which squashing does not end (C31).",
 "C34": "Refuted: the target is replaced later, or the link sorts before its target. Proved when neither is overridden and the target sorts first.",
 "C35": "Proved for every schedule of goroutines on any open file with a regular body, with the content taken from the unpacked stack (no link to the root; layers that are written through links are unpacked where the links lead). Refuted for hard links: they read as empty.",
 "C36": "Proved for every schedule and page size; the listing is the sorted directory of the unpacked stack if every entry of it resolves. Refuted with a dangling link: the first call fails, the next returns a map-order-dependent part. C36_through_partial: the same for images whose layers are written through links. C36_dangling_partial: with dangling entries, for every map order, the first ReadDir fails with the reason of one of them and further calls page through some of the entries, none twice. C36_through_dangling_partial: the same for images written through links.",
 "C37": "Proved for distinct clean paths: same entries (or error) for every permutation and every sorting procedure, in path order, directories before what is below them. Refuted for the root of relative paths (\".\" sorts after \"-x\") and for names that differ in trailing slashes.",
 "C38": "What every time becomes, exactly: clamped, then rounded to the nearest second; not later than a clamp time on a whole second. Refuted: tar rounds after clamping, so a sub-second clamp can be exceeded; access and change times are dropped; the zero clamp resets every time. Layers from directories: the same.",
 "C39": "Exact for modification and access times, and errors are never passed over. Refuted for the change time, which the code compares.",
 "C40": "Proved for all readers, chunkings and lengths, including readers that fail.",
 "C41": "Refuted: the owner is set on the header after it has been written, so a request never changes the layer.",
 "C42": "Proved for relative prefixes (termination) and clean relative ones (entries). Refuted: an absolute prefix loops forever; a trailing slash gives two entries for one directory; an empty prefix gives an entry without a name.",
 "C43": "Proved for every tree, every pair of device and inode numbers and every prefix for which LayerFromDir returns.",
 "C44": "Proved for all 32-bit values and all triples.",
 "C45": "Proved for all 16-bit modes, in both directions.",
 "C46": "Proved for all 16-bit modes against a rendering bit by bit.",
 "C47": "The seven constants of the low byte are right. Refuted for all others: iota counts from the start of the block, so they are shifted by eight bits (and RecallOnDataAccess would be off by two bits even without that).",
 "C48": "Rendering is that of Python's RawConfigParser.write. Proved for every configuration it can express and every parser with the usual delimiters; the errors for duplicates, stray lines, lines before a section and read errors are proved for all texts. White space is that of Unicode, in UTF-8.",
 "C49": "Refuted: for 'a:b.c' the script says 'from a import b.c', which is no Python; 'mod : obj' (blanks) is refused; names containing '../' leave the scripts directory; an entry in both groups gives one script. Proved: every well-formed entry gets exactly its script, nothing else changes.",
 "C50": "Refuted: with two entries of the same name the check reads the first but the last is installed; an entry with the mode of a directory but without a trailing slash is not checked but installed as a file. Proved: with distinct, plain names and consistent directory modes every installed file is listed in RECORD with a strong digest of its bytes.",
 "C51": "Refuted: '../../etc/passwd' escapes; a file X.data/scripts takes the place of the scripts directory. Proved for plain names and data directories that are not nested: each entry of the layer has a stated origin, files of the archive are at the stated destinations, and none is lost.",
 "C52": "Proved for every script of an archive with plain names whose destination no other file shares, unless the compiler or the hook replaces it. Refuted otherwise: another file with the destination of a script can take its place, depending on the order of map iteration. For all archives: each installed regular file that neither compiler nor hook made has the bytes, size and mode that its last data directory asks for (C52_any_partial).",
 "C53": "Proved for plain names; the search for ancestors then ends. Refuted: a scheme directory starting with two slashes makes it loop forever; an ancestor can be a regular file of the archive.",
 "C54": "Proved for all archives, platforms, hooks and compilers.",
 "C55": "Proved (also for errors) for archives whose destinations do not clash, for all map orders and all orders of the archive. Refuted: for .data/purelib/a and .data/platlib/a with the same directory, for data directories nested in a data directory, and for duplicate names. C55_command_partial: the same for the whole command \"ocibuild layer wheel\", with entry points and RECORD.",
 "C56": "For every archive without odd names, the RECORD in the layer has exactly one row for each regular file, one for itself, sorted, with size and digest of the content; scripts whose first line was changed have those of the original instead (refuted). Refuted also for CR in names and for entry points that lead to RECORD. CSV is proved readable by an RFC 4180 reader. C56_hash and C56_succeeds: when the hook succeeds.",
 "C57": "Proved for every direct-URL record: members, order, separators, string literals (bytes from 128 on are taken to be valid UTF-8 without U+2028 and U+2029). The general JSON writer is proved for values without containers in arrays and refuted for nested arrays, which no record has.",
 "C58": "All documents. HTML parsing itself is an oracle.",
 "C64": "All document trees in which text has no children and links are not nested (HTML guarantees both).",
 "C65": "Proved for plain stacks without links to the root directory and without marker names in link texts: a name that leads somewhere opens what it leads to; a name that leads nowhere gives ErrNotExist, ErrNotDir or ErrLoop according to an independent account of why (missing name, file in the place of a directory, ring of links, through any number of links); conversely every success and every failure of Open has that reason, so Open returns exactly for the names that settle. Refuted: links to / are not followed; markers can be opened; a link that leads below itself makes Open recurse without end. C65_through_partial: layers written through links give what the entries at the places where the links lead give. C65_through_stat_partial: Stat in such images gives the description under the name of the path.",
 "C66": "Proved: one entry per path in path order, errors reported, success without errors. Refuted if the directory is named through a symbolic link: the layer is empty.",
 "C67": "Proved for all values.",
 "C68": "Proved for all platforms.",
 "C69": "Refuted for the serial number, which is ignored (3.11.0rc1 = 3.11.0rc2). Proved for the rest, for components below 2^62.",
 "C70": "Proved for all archives. Rounding is to the nearest second, one second is added.",
 "C71": "Proved for all archives and names: each installed regular file that neither compiler nor hook made has the time of the file of the archive whose name leads there (C71_times). For plain names also that the files are there (C71_kept).",
 "C59": "Proved: it ends, changes only white space, keeps the words, and keeps to the width if all words are at least seven characters shorter than a line. Refuted after a word as long as a line, from where on nothing is wrapped; widths below 24 (40 with indentation) are not wrapped at all.",
 "C61": "Proved for every command line: named fields are set to the arguments, others are unchanged, zero exactly if nothing changes. Refuted for an empty working directory, which is taken for an absent flag.",
 "C62": "Proved for all interleavings of any number of goroutines in sync.Once, with an environment and a clock that change at any time. Go's memory model is not modelled: steps are sequentially consistent.",
 "C63": "Proved: equal layers up to times leave the output untouched, success leaves the new layer, and a crash leaves the old file, none, or a beginning of the new one. Atomicity is refuted in general: each replacement passes through a missing and an empty file.",
 "C72": "Proved if the crash left nothing or a readable layer. Refuted in general if it left a tar stream that is cut off: the comparison fails, so the command never repairs the file.",
 "C60": "Proved, for images that the file system handles (see the definition of handled) and paths without names of deletion markers: the search goes through PATH in order, relative directories and names are taken from the working directory, the result is an absolute cleaned path, and the search returns if every path asked for settles (it leads somewhere, or nowhere because of a missing name, a file in the place of a directory or a ring of links), in particular in images without links. Refuted: an absolute name that is not cleaned is never found; an executable device is accepted; a link that leads below itself makes the search crash. Kinds of errors and errors of the image itself are not modelled. C60_through_partial: for layers written through links the same programs are found as among the entries at the places where the links lead.",
 "C73": "For images that the image file system handles, exactly as stated; on the host if the interpreter is found at an absolute cleaned path. Refuted for interpreters found through a relative path: path.Join drops './', so 'python' beside './pythonw' is searched in PATH instead.",
 "C74": "The choices are proved as stated, given what LookPath, Stat and the interpreter tell. For images, Stat is proved to tell the owner in the unpacked image for cleaned paths other than the root; directories that no layer describes may be passed over. Refuted: an existing directory given with a slash at the end (as in the scheme of the help text), or the root directory, is never accepted by Stat and is passed over. The same for layers written through links (C74_through_partial).",
 "C75": "Documents are trees; the YAML texts are not modelled. ASCII case only; several keys for one field, null values and base64 texts are not modelled.",
 "C76": "Writing to the output is taken to succeed. As C24, the checksums are checked only for well-formed fragments; refuted for a link with a ';' in its fragment.",
 "C77": "For files whose names stay below the root (inner) and programs that keep to the directory; refuted otherwise: a wheel with '../' in its names overwrites files of the user who builds. Links on the host are not followed in the model. Results: for distinct names.",
 "C78": "Refuted: a platform file without PyCompile (or an empty command line) panics with an index out of range. Holds for files written by python inspect.",
 "C79": "Refuted if the slice given to ExternalCompiler has room for five more elements; proved if it has not (as with a literal list of arguments), and for calls one after the other.",
 "C80": "Refuted for a cancelled context: 'docker image rm' runs under the same context, so the image stays. Given a daemon that loads and removes what it is told.",
 "C81": "Refuted for regular files that are replaced between two reads: they are opened anew each time.",
 "C85": "Proved for QuickCheckEqual, and for QuickCheck with one case of a function of one argument. Refuted otherwise: QuickCheck passes tc[i] instead of tc[j], so it panics from the second case of a one-argument function on and tests other values than given; what it does is proved exactly.",
 "C82": "The command-line library (cobra) is represented by its answers, over which the theorems quantify.",
 "C86": "Words: for all commands and widths. Columns: for commands, and for the first lines of help topics, if the width leaves 24 characters for the description (or is 0). Refuted for the further lines of help topics, which are indented by the width of the names, not of the paths.",
 "C87": "spew, tabwriter and difflib are parameters; the full dump of different layers is assumed different.",
 "C88": "Clean relative names without marker names, no files in the place of directories, clean prefixes; without these the claim is false (refuted: markers, file above another, absolute names, prefix with a trailing slash). Wheels under the conditions of C53.",
 "C89": "That nothing new comes out holds for every stack. The paths: for stacks not written through links, and through links that do not lead to the root directory itself. With a link to the root directory an entry can come out at a path where its links do not lead (C89_root_refuted).",
 "C90": "The network, the HTML parser and the hash functions are parameters; redirects are part of the network.",
 "C91": "Proved for documents as an HTML parser gives them (html_page).",
 "C92": "C92_overlay and C92_one_answer say for every base and every layer in tree form what is at each path. Squashing, Load/Open and the layers made from references, directories and wheels: for base images and layers that are not written through links (wheels and directories on disk bring all directories, so links in their place do no harm). Squashing, Load, Open and Read also through links of the base image (C92_through_partial, C92_through_reads_partial): the files are at the places to which the links lead, and are read under every name that leads there. Refuted: a layer with two paths that a link of the base image makes the same.",
 "C93": "Refuted: a file whose name climbs out of the root directory can have a second row of the same name. Proved for files with clean names inside the image (see C56). If the hooks are in the other order RECORD does not have the file.",
 "C94": "Letters: of the parts of a public version only pre-release and development numbers are spelled with one of a, b, c, d.",
 "C95": "Proved for clean relative prefixes, except for the owners of the files: the --chown flags have no effect (see C41). With an absolute prefix the command does not end (see C42).",
 "C96": "Proved except for the owners: the programs keep the owner of the build host (see C41).",
 "C97": "Proved for every result of opening the files: what is written, when, and what errors mean. Refuted that it never crashes: if the configuration of the base cannot be read and a configuration flag is given, the error is ignored and a nil pointer is used (C97_crash_partial tells exactly when). Opening files and writing the archive are parameters.",
 "C98": "The texts of pages are a parameter; which commands have a page is modelled from cobra/doc. The tree of commands of this program is data (its pages are the files of userdocs). Two commands next to each other have different names.",
 "C99": "Proved when neither step writes through symbolic links and no directory entry follows a whiteout of its path within the run; in terms of the stack alone, when nothing is put below a link and no link is replaced by a directory. Refuted: a link replaced by a file and then by a directory (the opaque marker added is followed through the link of the lower layers and deletes files elsewhere), a file added through a link that is then removed, a directory deleted and created again. The beginning of a stack may always be squashed first: C27.",
 "C100": "Proved for all archives without conditions on names; C100_files says which files of the archive they are and which have mode 0755.",
 "C101": "Proved for ASCII texts whose lines are of the kinds both know (agreed_line), without inline comment prefixes and with empty lines in values, as both parsers of the repository are set. Refuted for a header with text behind it, empty names, the section DEFAULT, the four ASCII separators that only Python takes for white space, and carriage returns inside lines.",
 "C102": "From C49 and C101: for ASCII texts whose lines are of the kinds that both readers know (agreed_text), names of scripts that do not collide, and objects without dots. Refuted for a section DEFAULT, whose entries Python has in every section, and for headers with text behind them.",
 "C103": "Proved for ASCII names whose fields are not empty, whose project name Python accepts and whose build number is below 2^63; normalization and expansion of tags agree for all texts. Refuted: ParseFilename takes project names with other characters or '__', refuses empty tags that Python takes, and maps all build numbers from 2^63 on to one.",
 "C104": "Proved for all texts of clauses whose local numbers did not wrap, with the exact list of deviations: '<= V' refuses local versions of V, '< V' admits pre-releases of V, '> V' admits post-releases and local versions of V; refuted for '<' here and for the others in C12. A blank is asked for after '<' and '>' (see C07).",
 "C105": "Proved for images, also written through links and with links to '/', that have no whiteout names in link texts, for names without whiteout names: Open gives the same result or error at every depth of recursion, Stat the same apart from the name, files have the same content (C105_any_partial), directories the same entries with the same descriptions if ReadDir meets no entry that leads nowhere (C105_list_any_partial), otherwise ReadDir fails at first in both (C105_dangling_any_partial). Without links to '/' also: Stat gives the same name, and all of this in terms of the unpacked stack. Refuted for a link to the name of a whiteout."
}