{"id": "C01", "title": "Version comparison is a total preorder", "statement": "For versions returned by pep440.ParseVersion, the sign of a.Cmp(b) is the opposite of the sign of b.Cmp(a), a.Cmp(a) is 0, and a<=b and b<=c imply a<=c; so sorting and maximum selection over versions is well defined.", "quantifier": "all triples of versions obtainable from ParseVersion (any epoch, any number of release/local segments, any numbers that fit)", "why_tests_cant": "Transitivity ranges over triples of unbounded structures; numeric wrap-around only shows at extreme segment values.", "anchors": ["pkg/python/pep440/01_version_scheme.go: LocalVersion.Cmp, PublicVersion.Cmp, cmpEpoch, cmpRelease, cmpPreRelease, cmpPostRelease, cmpDevRelease, cmpLocalSegment, cmpLocal"]}
{"id": "C02", "title": "Version comparison is the PEP 440 order", "statement": "The sign of a.Cmp(b) equals the lexicographic comparison of the PEP 440 sort keys of a and b (epoch; release without trailing zeros; pre-release with dev-only first and none last; post with none first; dev with none last; local with none first, numeric above alphanumeric).", "quantifier": "all pairs of parsed versions", "why_tests_cant": "The interaction of six optional parts gives infinitely many cases; tests sample a fixed sorted list.", "anchors": ["pkg/python/pep440/01_version_scheme.go: LocalVersion.Cmp, PublicVersion.Cmp"]}
{"id": "C03", "title": "Rendering a version and parsing it back is the identity", "statement": "ParseVersion(v.String()) succeeds and returns v, for every version v whose numbers are in range and whose pre-release letter is a, b or rc.", "quantifier": "all well-formed version values", "why_tests_cant": "Unbounded structure; ambiguity of the grammar is only excluded by considering all strings.", "anchors": ["pkg/python/pep440/01_version_scheme.go: LocalVersion.String, PublicVersion.String, writeTo", "pkg/python/pep440/03_tail.go: reVersion, parseVersion"]}
{"id": "C04", "title": "Version normalization is idempotent", "statement": "For every string s accepted by ParseVersion, parsing the String() of the result is accepted too and gives the same version (so Normalize is a projection and the printed form identifies the parsed version).", "quantifier": "all input strings", "why_tests_cant": "Quantifies over all accepted spellings (separators, aliases, implicit zeros, upper case, leading v, white space, huge numbers).", "anchors": ["pkg/python/pep440/03_tail.go: reVersion, parseVersion", "pkg/python/pep440/01_version_scheme.go: ParseVersion, Normalize"]}
{"id": "C05", "title": "ParseVersion accepts exactly the PEP 440 grammar", "statement": "ParseVersion(s) returns an error unless s, ignoring surrounding white space and ASCII case, is derivable from the PEP 440 version grammar with all its permitted alternate spellings, and it succeeds on every such s whose numbers fit a machine integer.", "quantifier": "all input strings (bytes)", "why_tests_cant": "Completeness and soundness of a parser range over all strings.", "anchors": ["pkg/python/pep440/03_tail.go: reVersion, parseVersion"]}
{"id": "C06", "title": "Trailing zero release segments are irrelevant", "statement": "Appending any number of zero components to the release segment of either operand does not change the result of Cmp, and two versions compare equal exactly when they agree after removing trailing zeros.", "quantifier": "all pairs of parsed versions and all paddings", "why_tests_cant": "Unbounded segment counts.", "anchors": ["pkg/python/pep440/01_version_scheme.go: cmpRelease, releaseSegment"]}
{"id": "C07", "title": "A specifier clause parses to its operator and its version", "statement": "For every comparison operator op, every optional run of white space and every version string v, ParseSpecifier(op+ws+v) yields the clause (op, ParseVersion(v)), with '.*' selecting the prefix variants of == and !=.", "quantifier": "all operators, all version strings, with and without white space", "why_tests_cant": "Tests only try operators with a space in front of the version.", "anchors": ["pkg/python/pep440/02_version_specifiers.go: ParseSpecifier, parseSpecifierClause"]}
{"id": "C08", "title": "A specifier set is the conjunction of its clauses and is order-insensitive", "statement": "Specifier.Match(v) is true exactly when each comma-separated clause matches v; the empty specifier matches everything; permuting or duplicating clauses does not change the result.", "quantifier": "all specifiers (any number of clauses) and all versions", "why_tests_cant": "Unbounded clause lists.", "anchors": ["pkg/python/pep440/02_version_specifiers.go: Specifier.Match, ParseSpecifier, SpecifierClause.Match"]}
{"id": "C09", "title": "Exclusion operators complement matching operators", "statement": "For every version, '!= V' matches exactly when '== V' does not and '!= V.*' exactly when '== V.*' does not; with '==' ignoring the candidate's local label exactly when V has none.", "quantifier": "all pairs of versions", "why_tests_cant": "Infinite domain.", "anchors": ["pkg/python/pep440/02_version_specifiers.go: matchStrictMatch, matchPrefixMatch, matchStrictExclude, matchPrefixExclude"]}
{"id": "C10", "title": "Compatible release equals lower bound plus prefix match", "statement": "'~= V.N' matches v exactly when both '>= V.N' and '== V.*' match v (V being the release segment without its last component, with the pre/post/dev suffix of V.N ignored for the prefix); one-component releases are rejected by the parser.", "quantifier": "all versions V.N with at least two release components and all candidates", "why_tests_cant": "Infinite domain of suffix combinations.", "anchors": ["pkg/python/pep440/02_version_specifiers.go: matchCompatible, parseSpecifierClause"]}
{"id": "C11", "title": "Prefix matching has the PEP 440 meaning", "statement": "'== P.*' matches v exactly when epochs agree and the last given part of P (release, pre or post) and everything before it agree with v, missing release components of v counting as zero.", "quantifier": "all prefixes and candidates", "why_tests_cant": "Infinite domain.", "anchors": ["pkg/python/pep440/02_version_specifiers.go: matchPrefixMatch, terminalPart, matchPrefix*"]}
{"id": "C12", "title": "Ordered comparison clauses follow PEP 440", "statement": "'<= V' and '>= V' ignore the candidate's local label; '> V' never matches a post-release or local version of V unless V is itself a post-release; '< V' never matches a pre-release of V unless V is itself a pre-release.", "quantifier": "all pairs of versions", "why_tests_cant": "The exclusion rules concern particular relations between operand and candidate that sampled tests miss.", "anchors": ["pkg/python/pep440/02_version_specifiers.go: matchLE, matchGE, matchLT, matchGT"]}
{"id": "C13", "title": "Rendering a specifier and parsing it back preserves its meaning", "statement": "ParseSpecifier(s.String()) succeeds and matches the same versions as s, for every parsed specifier s.", "quantifier": "all specifiers and all versions", "why_tests_cant": "Tests never print a specifier.", "anchors": ["pkg/python/pep440/02_version_specifiers.go: Specifier.String, SpecifierClause.String, CmpOp.String"]}
{"id": "C14", "title": "Select returns the newest admissible version", "statement": "Specifier.Select returns a matching choice that no matching, non-excluded choice exceeds; it falls back to excluded choices (pre-releases by default policy) only when no non-excluded choice matches, and returns nothing only when no choice matches.", "quantifier": "all specifiers, choice lists and exclusion policies", "why_tests_cant": "Unbounded lists and arbitrary policy functions.", "anchors": ["pkg/python/pep440/02_version_specifiers.go: Specifier.Select, ExcludePreReleases, MultiExcluder", "pkg/python/pep592/yank.go: ExcludeYanked"]}
{"id": "C15", "title": "Build tags are totally ordered", "statement": "BuildTag.Cmp orders an absent tag below every present one and otherwise by number then by string, and is a total order on tags.", "quantifier": "all pairs/triples of build tags", "why_tests_cant": "Infinite domain.", "anchors": ["pkg/python/pypa/bdist/binary_distribution_format.go: BuildTag.Cmp, BuildTag.String"]}
{"id": "C16", "title": "Wheel file names round-trip", "statement": "ParseFilename(GenerateFilename(d)) returns d's parts (distribution with runs of -_. replaced by _, version, build tag, compatibility tag), and two names with different parts are never produced from different wheels as the same file.", "quantifier": "all distribution names without dashes after normalization, versions, build tags, tag triples", "why_tests_cant": "The optional build-tag field makes the dash-separated grammar ambiguous in principle.", "anchors": ["pkg/python/pypa/bdist/binary_distribution_format.go: ParseFilename, GenerateFilename, reFilename"]}
{"id": "C17", "title": "Tag support is non-empty intersection of expanded tags", "statement": "Installer.Supports(t) holds exactly when some python/abi/platform combination in the dotted expansion of t is also in the expansion of one of the installer's tags; Preference(t) is the position of the first such installer tag, and is beyond the list exactly when t is unsupported.", "quantifier": "all installers (any length) and all compressed tag sets", "why_tests_cant": "Unbounded lists and expansions.", "anchors": ["pkg/python/pep425/tags.go: Tag.Decompress, Intersect, Installer.Supports, Installer.Preference"]}
{"id": "C18", "title": "Compatibility tags round-trip through text", "statement": "ParseTag(t.String()) = t for every tag whose parts contain no dash, and ParseTag rejects every string without exactly two dashes.", "quantifier": "all tags / all strings", "why_tests_cant": "Infinite domain.", "anchors": ["pkg/python/pep425/tags.go: ParseTag, Tag.String"]}
{"id": "C19", "title": "The selected wheel is admissible", "statement": "SelectWheel only returns a link from the index page whose file name is a valid wheel name, whose version satisfies the specifier and whose tag the platform supports; among the links of the selected version none has a more preferred tag, and it fails exactly when no link qualifies.", "quantifier": "all index pages, specifiers and platforms", "why_tests_cant": "Unbounded link lists; selection depends on all of them.", "anchors": ["pkg/python/pypa/simple_repo_api/pypa_repo_api.go: Client.SelectWheel"]}
{"id": "C20", "title": "The selected wheel is the newest usable one with the highest build", "statement": "By default SelectWheel does not choose a pre-release when a matching final release is available, does not choose a yanked file unless only yanked files match, and among wheels of equal version and tag preference picks the highest build tag.", "quantifier": "all index pages", "why_tests_cant": "Interaction of version order, pre-release, yank and build tag over arbitrary pages.", "anchors": ["pkg/python/pypa/simple_repo_api/pypa_repo_api.go: Client.SelectWheel", "pkg/python/pep592/yank.go: ExcludeYanked.Allow"]}
{"id": "C21", "title": "Requires-Python matching", "statement": "pep345.HaveRequiredPython(v, s): a bare 'X' or '==X' clause accepts exactly the versions in X's documented half-open range, '!=' is its complement, '<X' never accepts a pre-release of X, and a comma list is the conjunction.", "quantifier": "all Python versions and all requirement strings", "why_tests_cant": "Infinite domain; the repository's own quick-check equivalences are sampled only.", "anchors": ["pkg/python/pep345/metadata.go: ParseVersionSpecifier, VersionSpecifierClause.Match, HaveRequiredPython"]}
{"id": "C22", "title": "Project-name normalization", "statement": "The URL path element used for a project is canonical: normalization is idempotent, identifies exactly the names equal up to case and runs of '-', '_' and '.', contains no path separator, and an invalid name is rejected before any request.", "quantifier": "all project names", "why_tests_cant": "Infinite domain.", "anchors": ["pkg/python/pep503/simple_repo_api.go: normalize, ListPackageFiles"]}
{"id": "C23", "title": "Index listing filters only by Requires-Python", "statement": "ListPackageFiles returns, in page order, exactly the links whose data-requires-python is absent, empty, not a parseable requirement, or satisfied by the configured Python version (all links if no version is configured).", "quantifier": "all index pages and Python versions", "why_tests_cant": "Unbounded pages.", "anchors": ["pkg/python/pep503/simple_repo_api.go: Client.ListPackageFiles"]}
{"id": "C24", "title": "Downloaded content matches the URL checksums", "statement": "If a download through the simple-API client succeeds, then for every recognized hash key in the URL fragment every given value equals the digest of the returned content.", "quantifier": "all URLs, responses and fragments", "why_tests_cant": "Arbitrary adversarial content.", "anchors": ["pkg/python/pep503/simple_repo_api.go: Client.get"]}
{"id": "C25", "title": "A signature request fetches the signature", "statement": "FileLink.GetSignature requests the URL of the file with '.asc' appended.", "quantifier": "all file links", "why_tests_cant": "No test performs the request.", "anchors": ["pkg/python/pep503/simple_repo_api.go: FileLink.GetSignature"]}
{"id": "C26", "title": "Squashing preserves the meaning of a layer stack", "statement": "Unpacking the squashed layer over any base file system gives the same tree as unpacking the input layers over it one after the other.", "quantifier": "all base file systems and all layer sequences", "why_tests_cant": "Ranges over all base trees, all histories of creation, replacement, whiteout and opaque markers.", "anchors": ["pkg/squash/squash.go: Squash, loadLayers", "pkg/squash/vfs.go: fsfile.Set, fsfile.Get", "pkg/squash/readlayer.go: parseLayer"]}
{"id": "C27", "title": "Squashing is idempotent and compositional", "statement": "Squash of a single already squashed layer yields the same entries, and squashing a prefix of the layers first and then the rest gives the same result as squashing everything at once.", "quantifier": "all layer sequences and all split points", "why_tests_cant": "Arbitrary histories.", "anchors": ["pkg/squash/squash.go: Squash, loadLayers", "pkg/squash/vfs.go: fsfile.WriteTo, fsfile.Set, fsfile.Get"]}
{"id": "C28", "title": "A squashed layer is well formed", "statement": "In the output of Squash no path occurs twice, each directory entry precedes the entries below it, whiteouts of a directory precede its other children, and siblings are in byte order.", "quantifier": "all layer sequences", "why_tests_cant": "Any tree shape.", "anchors": ["pkg/squash/vfs.go: fsfile.WriteTo"]}
{"id": "C29", "title": "Layers cannot escape their root", "statement": "A layer with an entry whose cleaned name is absolute or climbs out of the root is rejected, and every name Squash writes stays inside the root, whatever symlinks the layers contain.", "quantifier": "all layers, including adversarial names and symlink targets", "why_tests_cant": "Adversarial inputs.", "anchors": ["pkg/squash/readlayer.go: parseLayer", "pkg/squash/vfs.go: fsfile.Get, fsGet"]}
{"id": "C30", "title": "Squash output does not depend on map iteration order", "statement": "For every iteration order the Go runtime may choose for the children maps, Squash writes the same bytes in the same order.", "quantifier": "all layer sequences and all iteration orders", "why_tests_cant": "The order is random at run time.", "anchors": ["pkg/squash/vfs.go: fsfile.WriteTo", "pkg/squash/vfs_fs.go: fsfileReader.ReadDir"]}
{"id": "C31", "title": "Loading a layer stack always terminates", "statement": "Squash and Load return (possibly with an error such as 'too many levels of symbolic links') on every layer stack.", "quantifier": "all layer sequences, including symlink cycles", "why_tests_cant": "Termination quantifies over all link graphs.", "anchors": ["pkg/squash/vfs.go: fsfile.Get, fsGet"]}
{"id": "C32", "title": "Later entries win and whiteouts hide", "statement": "After loading, a path holds the last entry written to it unless a later layer whites it out, replaces an ancestor by a non-directory or marks an ancestor opaque; a whiteout removes the named path and everything below it coming from earlier layers, but nothing from its own layer.", "quantifier": "all layer sequences", "why_tests_cant": "Arbitrary histories.", "anchors": ["pkg/squash/squash.go: loadLayers", "pkg/squash/vfs.go: fsfile.Set"]}
{"id": "C33", "title": "Squashing respects symlink resolution", "statement": "An entry whose parent path runs through a symlink from an earlier layer is written to the directory the link denotes, for relative and absolute targets including the root directory, and each real path occurs at most once in the output.", "quantifier": "all layer sequences with symlinks", "why_tests_cant": "Arbitrary link graphs.", "anchors": ["pkg/squash/vfs.go: fsfile.Get, fsGet"]}
{"id": "C34", "title": "Squashing preserves hard links", "statement": "A hard-linked path keeps the content it was linked to, and in the output a hard link's target precedes the link.", "quantifier": "all layer sequences with hard links", "why_tests_cant": "Arbitrary histories.", "anchors": ["pkg/squash/vfs.go: fsfile.WriteTo, fsfile.Set"]}
{"id": "C35", "title": "Reading a file from a loaded image returns its bytes exactly once", "statement": "Whatever buffer sizes are used and however concurrent Read calls interleave, the concatenation of the chunks, in the order the calls take effect, is the file content, followed only by EOF; after Close every call fails.", "quantifier": "all contents, buffer-size sequences and interleavings", "why_tests_cant": "All schedules.", "anchors": ["pkg/squash/vfs_fs.go: fsfileReader.Read, Close"]}
{"id": "C36", "title": "Directory listing pages cover the directory exactly once", "statement": "Any sequence of ReadDir(n) calls returns consecutive disjoint slices of the sorted listing without whiteouts and opaque markers; together they return each entry once, and io.EOF is returned only at the end for n>0.", "quantifier": "all directories and page-size sequences", "why_tests_cant": "Unbounded call sequences.", "anchors": ["pkg/squash/vfs_fs.go: fsfileReader.ReadDir"]}
{"id": "C37", "title": "Layers are written in a canonical order independent of input order", "statement": "LayerFromFileReferences writes the same tar for every permutation of its file references (distinct clean paths), parents before their contents.", "quantifier": "all finite sets of file references and all permutations", "why_tests_cant": "All permutations.", "anchors": ["pkg/fsutil/fileref.go: LayerFromFileReferences"]}
{"id": "C38", "title": "Layer timestamps are clamped", "statement": "No header written by LayerFromFileReferences or LayerFromDir carries a modification, access or change time later than the clamp time; earlier times are preserved, and with a zero clamp nothing changes.", "quantifier": "all file references, directories and clamp times", "why_tests_cant": "Infinite domain.", "anchors": ["pkg/fsutil/fileref.go: LayerFromFileReferences", "pkg/dir/dir.go: LayerFromDir"]}
{"id": "C39", "title": "Layer comparison ignores timestamps and nothing else", "statement": "LayersEqualExceptTimestamps(a,b) is true exactly when the two layers have the same sequence of entries with equal headers up to modification/access/change times, and equal contents.", "quantifier": "all pairs of layers", "why_tests_cant": "Arbitrary contents.", "anchors": ["pkg/fsutil/diff.go: LayersEqualExceptTimestamps, headersEqualExceptTimestamps"]}
{"id": "C40", "title": "Streaming content comparison is exact", "statement": "readersEqual-based comparison reports equality exactly when the two streams have the same bytes, whatever their length relative to the block size and however the readers chunk their data.", "quantifier": "all byte streams and chunkings", "why_tests_cant": "Unbounded lengths.", "anchors": ["pkg/fsutil/diff.go: readersEqual"]}
{"id": "C41", "title": "Directory layers carry the requested ownership", "statement": "With a chown request every entry LayerFromDir writes carries the requested user and group (names and ids).", "quantifier": "all directory trees and chown requests", "why_tests_cant": "All trees.", "anchors": ["pkg/dir/dir.go: LayerFromDir"]}
{"id": "C42", "title": "Directory layers terminate and include the prefix directories", "statement": "LayerFromDir returns for every prefix, and the layer contains one directory entry for each proper ancestor of the content up to the root, shallowest first.", "quantifier": "all prefixes", "why_tests_cant": "Infinite domain of prefixes.", "anchors": ["pkg/dir/dir.go: LayerFromDir"]}
{"id": "C43", "title": "Directory layers encode hard links once", "statement": "Of each group of hard-linked files in a directory tree LayerFromDir writes the content once, at the first path in walk order; each later path is a hard link to that first path.", "quantifier": "all directory trees", "why_tests_cant": "Arbitrary link structure.", "anchors": ["pkg/dir/dir.go: LayerFromDir"]}
{"id": "C44", "title": "ZIP external attributes round-trip", "statement": "ParseZIPExternalAttributes and Raw are mutually inverse on all 32-bit values / all UNIX-mode and DOS-attribute pairs.", "quantifier": "all 2^32 raw values", "why_tests_cant": "Bit-level claim over the whole word.", "anchors": ["pkg/python/zip.go: ZIPExternalAttributes.Raw, ParseZIPExternalAttributes", "pkg/python/stat.go: StatMode"]}
{"id": "C45", "title": "UNIX modes convert faithfully to and from Go modes", "statement": "ModeFromGo(m.ToGo()) = m for every 16-bit UNIX mode whose type is one of the seven POSIX types, and permission and setuid/setgid/sticky bits are always preserved.", "quantifier": "all 16-bit modes", "why_tests_cant": "Bit-level claim over the whole range.", "anchors": ["pkg/python/stat.go: StatMode.ToGo, ModeFromGo, IsDir, IsRegular"]}
{"id": "C46", "title": "Mode strings agree with ls -l", "statement": "StatMode.String() is the ten-character ls -l rendering of the mode: type letter, then rwx triples with s/S/t/T for setuid, setgid and sticky.", "quantifier": "all 16-bit modes", "why_tests_cant": "All combinations.", "anchors": ["pkg/python/stat.go: StatMode.String"]}
{"id": "C47", "title": "Windows file-attribute constants have their documented values", "statement": "The StatFileAttribute constants equal the values in the comments and the Windows API (e.g. Temporary is 1<<8).", "quantifier": "all constants", "why_tests_cant": "No test looks at the values.", "anchors": ["pkg/python/stat.go: FileAttributeReadOnly..FileAttributeRecallOnDataAccess"]}
{"id": "C48", "title": "Config parsing inverts rendering", "statement": "Parsing the rendering of any configuration the INI format can express (sections of key/value pairs; keys without separators, values without leading or trailing blanks or comment characters, multi-line values indented) returns the same sections, keys and values; duplicate sections or keys and stray lines are errors.", "quantifier": "all configurations", "why_tests_cant": "Unbounded text.", "anchors": ["pkg/python/configparser.go: ConfigParser.Parse"]}
{"id": "C49", "title": "Every entry point gets exactly one script", "statement": "CreateScripts adds, for each console_scripts/gui_scripts entry, one executable in the scripts directory named after it, whose text imports the referenced module/object and calls it.", "quantifier": "all entry_points.txt contents", "why_tests_cant": "Arbitrary names and object references.", "anchors": ["pkg/python/pypa/entry_points/entry_points.go: CreateScripts"]}
{"id": "C50", "title": "Installed wheel content is integrity-checked", "statement": "If InstallWheel accepts a wheel, every file it installs from the archive (other than RECORD and its signatures) is listed in RECORD with a sha256-or-stronger digest equal to the digest of the installed bytes.", "quantifier": "all ZIP archives, including adversarial ones", "why_tests_cant": "Adversarial archives.", "anchors": ["pkg/python/pypa/bdist/binary_distribution_format.go: wheel.integrityCheck, wheel.Open", "pkg/python/pypa/bdist/binary_distribution_format.go: installToVFS"]}
{"id": "C51", "title": "Installed files stay inside the target directories", "statement": "Each file from the wheel root is installed below purelib or platlib, and each file from a .data subdirectory below the directory of the matching scheme key.", "quantifier": "all ZIP archives", "why_tests_cant": "Adversarial names.", "anchors": ["pkg/python/pypa/bdist/binary_distribution_format.go: installToVFS, vfs"]}
{"id": "C52", "title": "Shebang rewriting changes only the interpreter", "statement": "A script starting with #!python (#!pythonw) is installed with that prefix replaced by the platform's console (graphical) interpreter line, the rest byte for byte, the size field equal to the new length and the execute bits set; every other script is installed unchanged.", "quantifier": "all script contents and interpreter strings", "why_tests_cant": "Arbitrary content.", "anchors": ["pkg/python/pypa/bdist/binary_distribution_format.go: rewritePython", "pkg/python/pypa/bdist/ioutil.go: skipReader"]}
{"id": "C53", "title": "Wheel layers contain all parent directories", "statement": "For every file in an installed wheel layer each ancestor directory (except the root) is in the layer, before the file.", "quantifier": "all wheels and schemes", "why_tests_cant": "Arbitrary depth.", "anchors": ["pkg/python/pypa/bdist/binary_distribution_format.go: InstallWheel"]}
{"id": "C54", "title": "Wheel layers have uniform ownership", "statement": "Every entry of an installed wheel layer has the platform's user and group ids and names.", "quantifier": "all wheels and platforms", "why_tests_cant": "All archives.", "anchors": ["pkg/python/pypa/bdist/binary_distribution_format.go: InstallWheel", "pkg/python/pypa/bdist/ioutil.go: newTarEntry, create, rename"]}
{"id": "C55", "title": "Wheel installation is reproducible", "statement": "The layer produced by InstallWheel is a function of the archive and the platform: it does not depend on Go map iteration order or on the order of entries in the archive.", "quantifier": "all archives, all iteration orders", "why_tests_cant": "Iteration order is random at run time.", "anchors": ["pkg/python/pypa/bdist/binary_distribution_format.go: InstallWheel, installToVFS", "pkg/fsutil/fileref.go: LayerFromFileReferences"]}
{"id": "C56", "title": "RECORD lists exactly the installed files", "statement": "The RECORD file written at installation has exactly one row for each installed non-directory file and one for itself, in name order, with size and digest of the installed content (none for byte-compiled files and for itself).", "quantifier": "all installations and iteration orders", "why_tests_cant": "All file sets.", "anchors": ["pkg/python/pypa/recording_installs/recording_installs.go: Record, recordFile"]}
{"id": "C57", "title": "direct_url.json is valid and Python-formatted", "statement": "The text written for a direct-URL record is the JSON object with the same members, in Python's separator style.", "quantifier": "all records / all JSON values", "why_tests_cant": "Arbitrary nesting.", "anchors": ["pkg/python/pypa/direct_url/json.go: jsonDumps"]}
{"id": "C58", "title": "Yanked and API-version metadata are read faithfully", "statement": "A link is yanked exactly when it carries a data-yanked attribute (whatever its value); the repository version is the declared one (1.0 if none), and the check rejects exactly the pages whose declared version is unparseable or has a newer major version than supported, and warns on newer minors.", "quantifier": "all pages", "why_tests_cant": "Arbitrary documents.", "anchors": ["pkg/python/pep592/yank.go", "pkg/python/pep629/simple_api_versions.go: GetVersion, HTMLVersionCheck"]}
{"id": "C59", "title": "Text wrapping preserves the words", "statement": "cliutil.Wrap terminates, keeps all words in order, and no output line of more than one word exceeds the width.", "quantifier": "all texts and widths", "why_tests_cant": "Infinite domain.", "anchors": ["pkg/cliutil/borrowed_pflag.go: wrapN, wrap; pkg/cliutil/wordwrap.go: Wrap, WrapIndent"]}
{"id": "C60", "title": "Executable lookup follows PATH order", "statement": "LookPath in an image returns the first PATH directory containing an executable regular file of the given name, or the given path itself when it contains a slash, and fails otherwise.", "quantifier": "all images, PATH values and names", "why_tests_cant": "Arbitrary file systems.", "anchors": ["pkg/python/pyinspect/fs_image.go: LookPath, checkExecutable, Stat"]}
{"id": "C61", "title": "Image configuration flags change only what they name", "statement": "Applying configuration flags leaves every image configuration field that no flag names unchanged, sets exactly the named ones, and flags are reported zero exactly when applying them changes nothing.", "quantifier": "all configurations and flag sets", "why_tests_cant": "All combinations of flags.", "anchors": ["cmd_image_build.go: configFlags.IsZero, configFlags.ApplyTo"]}
{"id": "C62", "title": "The reproducible clock is constant", "statement": "All calls of reproducible.Now in a process, from any goroutine, return the same time, the one given by SOURCE_DATE_EPOCH when set.", "quantifier": "all environments, call histories and interleavings", "why_tests_cant": "All schedules.", "anchors": ["pkg/reproducible/source_date_epoch.go: Now"]}
{"id": "C63", "title": "Output layers are replaced only when they change, and atomically", "statement": "The go-build layer command leaves the existing output untouched when the new layer is equal up to timestamps, and at every crash point the output path holds the complete old or the complete new layer.", "quantifier": "all old/new layers and all crash points", "why_tests_cant": "All crash points.", "anchors": ["cmd_layer_gobuild.go", "pkg/fsutil/write.go: WriteLayer"]}
{"id": "C64", "title": "Index pages are read faithfully", "statement": "The links returned for an index page are exactly its <a> elements in document order, each with its text content, its resolved href and all its data-* attributes; reading fails only if some href cannot be resolved.", "quantifier": "every HTML document tree with non-nested links", "why_tests_cant": "document trees are unbounded in depth and width", "anchors": ["pkg/python/pep503/simple_repo_api.go:visitHTML", "pkg/python/pep503/simple_repo_api.go:getHTML5Index"]}
{"id": "C65", "title": "The loaded file system shows the image", "statement": "Open on the file system returned by Load succeeds for exactly the names that lead, through symbolic links, to a file or directory of the unpacked stack, and opens that one; a name missing from an existing directory gives ErrNotExist, a name below something that is not a directory gives ErrNotDir, links that lead to one another give ErrLoop, a malformed name ErrInvalid. Stat describes the target under the name of the path.", "quantifier": "all layer stacks and all names", "why_tests_cant": "Arbitrary stacks and link structures.", "anchors": ["pkg/squash/vfs_fs.go: fsfile.Open, fsfileReader.Stat", "pkg/squash/squash.go: Load", "pkg/squash/vfs.go: fsGet, fsfile.Get"]}
{"id": "C66", "title": "Directory layers contain every file once", "statement": "When LayerFromDir succeeds the layer contains exactly one entry for each path below the directory, in path order, with the name below the prefix; an unreadable directory or file is an error, and without errors there is a layer.", "quantifier": "all directory trees, directory names and prefixes", "why_tests_cant": "All trees and error positions.", "anchors": ["pkg/dir/dir.go: LayerFromDir"]}
{"id": "C67", "title": "ToDOS keeps exactly the DOS attributes", "statement": "StatFileAttribute.ToDOS keeps exactly the read-only, hidden, system, directory and archive bits.", "quantifier": "all 32-bit attribute words", "why_tests_cant": "Bit-level claim over the whole word.", "anchors": ["pkg/python/stat.go: StatFileAttribute.ToDOS"]}
{"id": "C68", "title": "Platform.Init completes a platform", "statement": "Platform.Init succeeds exactly if at least one of the two shebangs is given and all install directories are absolute; afterwards both shebangs are set, everything given is unchanged, and calling it again changes nothing.", "quantifier": "all platforms", "why_tests_cant": "Every combination of fields and paths.", "anchors": ["pkg/python/platform.go: Platform.Init"]}
{"id": "C69", "title": "VersionInfo.PEP440 preserves the order of interpreters", "statement": "VersionInfo.PEP440 accepts exactly the release levels of sys.version_info, and comparing the resulting versions agrees with comparing the version_info tuples (major, minor, micro, releaselevel, serial).", "quantifier": "all pairs of version_info tuples", "why_tests_cant": "Infinite set of pairs.", "anchors": ["pkg/python/platform.go: VersionInfo.PEP440"]}
{"id": "C70", "title": "Generated files are later than the archive", "statement": "If no maximum time is given to InstallWheel, the time it gives to files it generates (a whole number of seconds) is strictly later than the modification time of every file in the archive, and no entry of the layer is later than the given or chosen maximum.", "quantifier": "all archives, platforms, maximum times (whole seconds), hooks, compilers and map orders", "why_tests_cant": "All combinations of times, in particular around half seconds, where rounding is involved.", "anchors": ["pkg/python/pypa/bdist/binary_distribution_format.go: InstallWheel"]}
{"id": "C71", "title": "Installed files keep their modification times", "statement": "If neither a minimum nor a maximum time is given, each installed file of the archive has the modification time from the archive, rounded to seconds.", "quantifier": "all archives and platforms", "why_tests_cant": "All combinations of times and of the maximum derived from them.", "anchors": ["pkg/python/pypa/bdist/binary_distribution_format.go: InstallWheel, unpack", "pkg/python/pypa/bdist/ioutil.go: vfs.create"]}
{"id": "C72", "title": "An interrupted build can be repeated", "statement": "After the go-build layer command was interrupted while it wrote its output, running it again with the same output file succeeds and leaves the complete layer.", "quantifier": "all layers, all crash points and all ways in which the output is written piece by piece", "why_tests_cant": "All crash points.", "anchors": ["cmd_layer_gobuild.go", "pkg/fsutil/diff.go: LayersEqualExceptTimestamps", "pkg/fsutil/open.go: OpenLayer"]}
{"id": "C73", "title": "Interpreters for shebangs", "statement": "Given an interpreter name, pyinspect.Shebangs fails exactly if LookPath does not find it. Otherwise, for a program pythonwX found in a directory, the graphical interpreter is that program and the console interpreter is pythonX in the same directory if that is executable, else the same program; for pythonX it is the other way round; any other program is both.", "quantifier": "all images and hosts, all interpreter names", "why_tests_cant": "All contents of the file system, links included, and all forms of the name.", "anchors": ["pkg/python/pyinspect/pyinspect.go Shebangs", "pkg/python/pyinspect/fs_image.go ImageFS", "pkg/python/pyinspect/fs_native.go NativeFS"]}
{"id": "C74", "title": "What python inspect writes into a platform file", "statement": "The platform written by 'ocibuild python inspect' has the interpreters of C73, the scheme, version, magic number and tags that the interpreter tells, the owner of the first existing installation directory (purelib, platlib, headers, scripts, data), and as compiler the first of pythonX.Y, pythonX and python on the host with the same magic number (the interpreter itself if no image is inspected); otherwise the command fails.", "quantifier": "all images, interpreters and hosts", "why_tests_cant": "All combinations of existing directories and host programs; ownership must agree with the unpacked image for every stack of layers.", "anchors": ["cmd_python_inspect.go", "pkg/python/pyinspect/fs_image.go Stat"]}
{"id": "C75", "title": "The platform file is read as it was written", "statement": "The platform file that 'ocibuild python inspect' writes is read by 'ocibuild layer wheel' as the same platform; the order and the case of keys do not matter; unknown keys are refused.", "quantifier": "all platforms, all documents", "why_tests_cant": "Two different YAML libraries with different rules for names must agree for every platform.", "anchors": ["cmd_python_inspect.go", "cmd_layer_wheel.go", "pkg/python/platform.go Platform", "pkg/python/pep425/tags.go MarshalText"]}
{"id": "C76", "title": "getwheel writes the verified file", "statement": "'ocibuild python getwheel' writes to its output exactly what the first link with the given file name on the page of the project leads to, verified against the checksums in the link, and asks for nothing else; if anything fails it writes nothing.", "quantifier": "all file names, pages and server responses", "why_tests_cant": "All pages and responses.", "anchors": ["cmd_python_getwheel.go", "pkg/python/pep503/simple_repo_api.go"]}
{"id": "C77", "title": "Compiling Python files leaves the build host as it was", "statement": "A Compiler from ExternalCompiler changes nothing on the build host outside its own temporary directory at any time, removes that directory in the end also if something fails (or reports that it cannot), runs the program on exactly the given files with their contents and times, and returns each .pyc file that the program leaves, once. The environment of the program has a fixed hash seed, the clamping time, and the directories of the target before the user's own PYTHONPATH. So installing a wheel does not change the host.", "quantifier": "all lists of files, hosts, programs that keep to the directory, failures of system calls, and moments at which the process is stopped", "why_tests_cant": "Every failing system call and every moment; all file names in wheels.", "anchors": ["pkg/python/py_compile.go ExternalCompiler", "pkg/python/pypa/bdist/binary_distribution_format.go"]}
{"id": "C78", "title": "A missing compiler is reported", "statement": "For each command line given to ExternalCompiler, and so for each platform file, the result is a Compiler for an absolute path to the program with the given arguments, or an error.", "quantifier": "all command lines, platform files and hosts", "why_tests_cant": "All platform files, including those that leave keys out.", "anchors": ["pkg/python/py_compile.go ExternalCompiler", "cmd_layer_wheel.go", "cmd_python_inspect.go"]}
{"id": "C79", "title": "Concurrent compilations do not disturb one another", "statement": "Calls of one Compiler that run at the same time each run the program with the arguments for their own directory, and do not write to memory of the caller.", "quantifier": "all schedules, any number of calls, all command lines", "why_tests_cant": "All interleavings; depends on the capacity of a slice.", "anchors": ["pkg/python/py_compile.go ExternalCompiler"]}
{"id": "C80", "title": "An image is in the daemon only while it is used", "statement": "WithImage calls its function at most once, after the complete image was loaded under a tag of its own and while it is there; it removes the image in the end, also after an error or a panic; other images are not touched; the first error is reported.", "quantifier": "all failures of commands and of the function, all images in the daemon, all actions of other clients", "why_tests_cant": "Every failing step and every interference with a shared daemon.", "anchors": ["pkg/dockerutil/docker.go WithImage"]}
{"id": "C81", "title": "Layer files can be read again and are written completely", "statement": "A layer opened from a file or a pipe gives the same bytes each time it is read; a missing file is an error each time. Writing a layer without an error writes all of it; with an error at most a first part. So 'layer squash' succeeds exactly if all inputs were read and the whole result was written.", "quantifier": "all files and pipes, any number of reads, failures after any number of bytes", "why_tests_cant": "Any number of reads and any point of failure.", "anchors": ["pkg/fsutil/open.go PathOpener", "pkg/fsutil/write.go WriteLayer", "cmd_layer_squash.go"]}
{"id": "C82", "title": "The exit status tells what happened", "statement": "A wrong command line (unknown flag, wrong number of arguments, missing or unknown subcommand) ends with status 2, a message on the error output that names the command and how to get help, an empty output and no command run; a request for help prints to the output with status 0; every other command line runs its command, and the status is 1 with a message exactly if the command returned an error, and 0 otherwise.", "quantifier": "all command lines, all behaviours of the command-line library and of the commands", "why_tests_cant": "Scripts rely on it for every command line.", "anchors": ["main.go main", "pkg/cliutil/cobra.go OnlySubcommands, WrapPositionalArgs, RunSubcommands, FlagErrorFunc"]}
{"id": "C83", "title": "Documents are visited node by node", "statement": "VisitHTML calls the callbacks for every node once, in document order, the first before and the second after its children, up to the first error, which it returns; GetAttr returns the first attribute with the given name and name space.", "quantifier": "all documents, all callbacks, errors at any node", "why_tests_cant": "All shapes of documents and all points of failure.", "anchors": ["pkg/htmlutil/htmlutil.go VisitHTML, GetAttr", "pkg/python/pep503/simple_repo_api.go visitHTML, getHTML5Index"]}
{"id": "C84", "title": "Random versions are valid versions", "statement": "The generator for property tests returns, for every source of randomness and every size, a version in normal form with small numbers, without panicking; every such version and every comparison operator can come out.", "quantifier": "all sources of randomness, all sizes", "why_tests_cant": "The tests themselves rely on it.", "anchors": ["pkg/python/pep440/generate.go Generate"]}
{"id": "C85", "title": "Property tests check the given cases", "statement": "A test with QuickCheck or QuickCheckEqual passes exactly if the random check passes, every given case has the right number of arguments and the function holds (the functions agree) for every given case.", "quantifier": "all functions, all lists of cases, all results of the random check", "why_tests_cant": "A helper that passes wrongly makes the tests built on it meaningless.", "anchors": ["pkg/testutil/quick.go QuickCheck, QuickCheckEqual"]}
{"id": "C86", "title": "Help texts tell everything, in columns", "statement": "For every command and width, --help prints, without a panic, exactly the words of the usage line, the descriptions, the aliases and examples, the available commands (and 'help') with their descriptions, the flags and the help topics, in this order; descriptions of commands and topics are aligned in one column and keep to the width of the terminal, which is COLUMNS if that is a number, else what the terminal tells, else 80 on a terminal, else unlimited.", "quantifier": "all commands and subcommands, all texts, all widths, all values of COLUMNS", "why_tests_cant": "All lengths of names and texts and all widths.", "anchors": ["pkg/cliutil/cobra_tmpl.go HelpTemplate", "pkg/cliutil/term.go GetTerminalWidth", "pkg/cliutil/wordwrap.go Wrap, WrapIndent"]}
{"id": "C87", "title": "Tests compare layers completely", "statement": "AssertEqualLayers returns true exactly if both layers can be read to their end and have the same entries (headers and contents) and the same bytes after the archive; otherwise it reports a failure of the test. Of layers that can be read it reports a difference of the listings, and a difference of the contents if the listings are the same or their diff changes exactly one line.", "quantifier": "all layers, all failures of reading and closing them", "why_tests_cant": "A helper that passes wrongly makes the tests built on it meaningless.", "anchors": ["pkg/testutil/diff.go DumpLayerFull, DumpLayerListing, AssertEqualLayers"]}
{"id": "C88", "title": "Squashing does not change layers made by this program", "statement": "Squashing a single layer that the program made from file references, from a directory on disk or from a wheel succeeds and gives the same entries with the same metadata and contents in the same order; only the names of directories get a slash at the end, so that the layer unpacks to the same files on top of any layers.", "quantifier": "all sets of files, directory trees and wheels, all prefixes, all iteration orders of maps", "why_tests_cant": "Two independent writers (with two sort orders) must agree for every set of names.", "anchors": ["pkg/squash/squash.go: Squash", "pkg/squash/vfs.go: fsfile.WriteTo", "pkg/fsutil/fileref.go: LayerFromFileReferences", "pkg/dir/dir.go: LayerFromDir", "pkg/python/pypa/bdist/binary_distribution_format.go: InstallWheel"]}
{"id": "C89", "title": "Squashing invents nothing", "statement": "Every entry of a squashed layer has the metadata and the content of an entry of one of the layers, and is at the path of that entry (or where its links lead); the only other entries are empty opaque whiteouts in directories that one layer has as a file.", "quantifier": "all stacks of layers", "why_tests_cant": "Arbitrary histories of overwriting, hiding and links.", "anchors": ["pkg/squash/squash.go: Squash, loadLayers", "pkg/squash/vfs.go: fsfile.Set, fsfile.WriteTo"]}
{"id": "C90", "title": "The errors of the package index are told apart", "statement": "A download fails with an HTTPError carrying the status exactly if the server answered with a status other than 200; with a checksum error exactly if it answered 200 with content that does not have a checksum of the URL's (well-formed) fragment; otherwise the URL was invalid or the transport failed. GetSignature returns ErrNoSignature exactly if the index says there is none, or it does not say that there is one and the answer was 404. Each download makes one request, with the configured or the default user agent.", "quantifier": "all URLs, servers, pages and links", "why_tests_cant": "All combinations of answers, fragments and attributes.", "anchors": ["pkg/python/pep503/simple_repo_api.go: Client.get, HTTPError, getHTML5Index, FileLink.GetSignature, fillDefaults"]}
{"id": "C91", "title": "Listings of the index are complete", "statement": "ListPackages returns every link of the index page, in its order, and ListFiles every link of the page of a project, whatever Python it requires; both make one request, and the returned links carry the client's base URL and user agent.", "quantifier": "all pages and clients", "why_tests_cant": "All pages.", "anchors": ["pkg/python/pep503/simple_repo_api.go: ListPackages, PackageLink.ListFiles, getHTML5Index, fillDefaults"]}
{"id": "C92", "title": "A layer laid over an image shows its files and leaves the rest", "statement": "Putting a layer on top of an image changes exactly the paths of the layer: each of its entries is there, nothing is below an entry that is not a directory, the directories above its entries exist (the old ones where there were some), and everything else is as before. So a file that was given to LayerFromFileReferences, found on disk by LayerFromDir or taken from a wheel by InstallWheel is read back with its content, under its own name, from the image that Load makes of the base layers and the new layer, and LookPath finds a program of the layer if its directory is in PATH.", "quantifier": "all base images, layers, wheels, directories on disk, PATHs and readers", "why_tests_cant": "All combinations of base image and layer: the result depends on links, files and directories that the base image already has in the place of each entry.", "anchors": ["pkg/squash/squash.go: Squash, Load", "pkg/squash/vfs_fs.go: Open", "pkg/fsutil/fileref.go: LayerFromFileReferences", "pkg/dir/dir.go: LayerFromDir", "pkg/python/pypa/bdist/binary_distribution_format.go: InstallWheel", "pkg/python/pyinspect/fs_image.go: ImageFS.LookPath"]}
{"id": "C93", "title": "Installations on request are marked, and the mark is recorded", "statement": "RecordRequested adds to the .dist-info directory a file REQUESTED of mode 0644 that is empty or has the given comment as its only line, and changes nothing else. If Record comes after it among the hooks of InstallWheel, the layer has this file, and RECORD has exactly one row for it, with its digest and size.", "quantifier": "all comments, wheels, platforms, orders of map iteration and hash algorithms", "why_tests_cant": "The test against pip runs one list of wheels, with an empty comment.", "anchors": ["pkg/python/pep376/requested.go RecordRequested", "pkg/python/pypa/bdist/misc.go PostInstallHooks", "pkg/python/pypa/recording_installs/recording_installs.go Record"]}
{"id": "C94", "title": "Kinds of versions can be read off their spelling", "statement": "For every version that ParseVersion returns: IsFinal is true exactly if String gives nothing but an epoch and a release; IsPreRelease is true exactly if the public part has a pre-release or development number; Major, Minor and Micro are the first three numbers of the release, 0 for those that are missing; and a pre-release is older than the same version without its pre-release and development numbers.", "quantifier": "all accepted spellings", "why_tests_cant": "All spellings.", "anchors": ["pkg/python/pep440/01_version_scheme.go IsFinal, IsPreRelease, Major, Minor, Micro, String, Cmp"]}
{"id": "C95", "title": "layer dir does what its flags say", "statement": "The layer that 'ocibuild layer dir' writes has one entry for every directory of --prefix, shallowest first, with mode 0755 and the owners of --prefix-uid, --prefix-uname, --prefix-gid and --prefix-gname (0 and root if they are not given; the last one if a flag is repeated), then one entry for each file below the directory, under the prefix, with the owners that the --chown flags request and otherwise those of the file; no time is later than the present.", "quantifier": "all lists of flags and all directory trees", "why_tests_cant": "All trees and all combinations of nine flags.", "anchors": ["cmd_layer_dir.go", "pkg/dir/dir.go: LayerFromDir"]}
{"id": "C96", "title": "Layers of Go programs", "statement": "LayerFromGo runs 'go build' once, so that package names are never read as flags and the target is linux on amd64 whatever the environment says; it returns /usr, /usr/local and /usr/local/bin and below them every file that was built, all owned by root, with no time after the clamp time; it removes its temporary directory in any case and reports failures; and building the same programs again with the same clamp time gives the same layer.", "quantifier": "all package names, environments, results of the go command and clamp times", "why_tests_cant": "All package names and environments, and all outcomes of the commands; building again at any other time.", "anchors": ["pkg/gobuild/gobuild.go: LayerFromGo", "pkg/dir/dir.go: LayerFromDir"]}
{"id": "C97", "title": "Building an image", "statement": "\"ocibuild image build\" writes an image whose layers are those of the base and then the named ones in their order, with the given tag and with the configuration of the base changed as the flags ask and not otherwise; without --base it starts from the empty image. If a file cannot be opened, the tag is invalid or the image cannot be written, it reports that and the first such file, and it never crashes.", "quantifier": "all sets of files, flags and arguments", "why_tests_cant": "All combinations of flags and of files that cannot be read.", "anchors": ["cmd_image_build.go: RunE, configFlags"]}
{"id": "C98", "title": "Generated documentation", "statement": "After \"ocibuild man DIR\" or \"ocibuild mddoc DIR\" has succeeded, DIR has exactly one page for each visible command, under the names of the command and those above it, and nothing that was there before. If it fails, an error is reported; nothing older is left among the pages unless removing it failed, and then no page is written.", "quantifier": "all trees of commands whose names do not contain the separator, all earlier contents of the directory, all failures of the host", "why_tests_cant": "Arbitrary earlier contents and arbitrary points of failure; the tree of commands grows.", "anchors": ["main_aux.go: init", "main.go: argparser"]}
{"id": "C99", "title": "Squashing some layers first", "statement": "If consecutive layers of a stack are squashed to one layer, which takes their place, and the stack is then squashed, the result is the file system that the whole stack describes, as when it is squashed at once.", "quantifier": "all stacks of layers, all runs of consecutive layers in them", "why_tests_cant": "It relates two computations on arbitrarily long stacks; a marker that the first step drops or adds matters only over particular lower layers.", "anchors": ["pkg/squash/squash.go: Squash", "pkg/squash/squash.go: loadLayers", "pkg/squash/vfs.go: fsfile.WriteTo"]}
{"id": "C100", "title": "Wheels install plain files only", "statement": "Whatever types and modes a wheel archive declares, InstallWheel installs from it only directories and regular files with mode 0755 or 0644, without link targets or device numbers, and each regular file has the bytes of a file of the archive, apart from the interpreter in the first line of scripts. Only the compiler and the hook can add other entries.", "quantifier": "all archives (also with hostile names, modes and duplicates), platforms, compilers and hooks, all orders of map iteration", "why_tests_cant": "An archive can declare any of 2^32 attributes for any name; the claim is about what cannot come out.", "anchors": ["pkg/python/pypa/bdist/binary_distribution_format.go: InstallWheel", "pkg/python/pypa/bdist/ioutil.go: create", "pkg/python/pypa/bdist/binary_distribution_format.go: rewritePython"]}
{"id": "C101", "title": "Configuration files mean what they mean to Python", "statement": "Parsing a configuration file gives the same sections, options and values as Python's configparser with the same delimiters, comment prefixes, strictness and option transformation, and an error exactly when Python reports one.", "quantifier": "all file texts, all delimiters and comment prefixes, strict or not, all transformations of option names", "why_tests_cant": "Continuation lines, indentation, comments, blank lines and line ends combine in unboundedly many ways; two stateful loops are to agree on all of them.", "anchors": ["pkg/python/configparser.go: ConfigParser.Parse", "pkg/python/configparser.go: NewConfigParser", "pkg/python/pypa/entry_points/entry_points.go: configParser"]}
{"id": "C102", "title": "The scripts of a wheel are those that Python sees", "statement": "Installing a wheel with entry_points.CreateScripts makes one script for each entry that Python's configparser, set up as the specification of entry points has it, finds in the console_scripts and gui_scripts sections of entry_points.txt, changes no other file, and fails exactly when Python refuses the file or an entry is not a reference.", "quantifier": "all texts of entry_points.txt, all platforms, all contents of the installation, all orders of map iteration", "why_tests_cant": "The file is free text with comments, continuation lines and arbitrary names; what comes out is to agree with another program's reading of it.", "anchors": ["pkg/python/pypa/entry_points/entry_points.go: CreateScripts", "pkg/python/pypa/entry_points/entry_points.go: configParser", "pkg/python/configparser.go: ConfigParser.Parse"]}
{"id": "C103", "title": "Wheel file names mean what they mean to Python", "statement": "ParseFilename accepts a wheel file name exactly when Python's packaging.utils.parse_wheel_filename does, and gives the same normalized project name, version, build tag and set of compatibility tags (up to the case of tags).", "quantifier": "all file names", "why_tests_cant": "File names come from package indexes and are arbitrary text; the regular expression of one program is compared with the splitting and checking of the other on all of them.", "anchors": ["pkg/python/pypa/bdist/binary_distribution_format.go: ParseFilename", "pkg/python/pep425/tags.go: Tag.Decompress", "pkg/python/pep503/simple_repo_api.go: normalize"]}
{"id": "C104", "title": "A specifier admits exactly the versions that PEP 440 says", "statement": "For a specifier written as a comma-separated list of clauses, each an operator, optional blanks and a version, ParseSpecifier succeeds and the result matches a version exactly when PEP 440 lets every clause admit it.", "quantifier": "all specifier texts of any number of clauses with all nine operators, all version texts", "why_tests_cant": "Texts, operators and versions combine without bound, and the rule has exceptions for local, pre- and post-release versions that depend on both versions at once.", "anchors": ["pkg/python/pep440/02_version_specifiers.go: ParseSpecifier", "pkg/python/pep440/02_version_specifiers.go: Specifier.Match", "pkg/python/pep440/02_version_specifiers.go: SpecifierClause.Match", "pkg/python/pep440/01_version_scheme.go: ParseVersion"]}
{"id": "C105", "title": "A squashed image is opened, read and listed like the image", "statement": "If Squash makes a layer from the layers of an image, then the filesystem that Load gives for the image with that layer only and the filesystem that Load gives for the image agree: Open finds the same path or fails with the same error for every path without whiteout names, Stat gives the same description, regular files have the same content and directories the same entries.", "quantifier": "all images of any number of layers and entries, with files written through links; all paths; all orders of Go's maps; all numbers of ReadDir calls and their arguments", "why_tests_cant": "Both filesystems are built by replaying arbitrary histories of entries, links and whiteouts; the second one from the output of Squash in whatever order the maps gave.", "anchors": ["pkg/squash/squash.go: Squash", "pkg/squash/squash.go: Load", "pkg/squash/vfs.go: fsfile.WriteTo", "pkg/squash/vfs_fs.go: fsfile.Open", "pkg/squash/vfs_fs.go: fsfileReader.ReadDir"]}
