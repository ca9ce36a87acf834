# Formal model of datawire/ocibuild: design

Technique: Rocq/Coq 8.16.1.  The Go code under /repo is re-stated, function by
function, as total computable Gallina functions.  Properties are theorems about
these functions, for all inputs.  Nothing from /repo is executed.

## 1. Layout

    rocq/theories/Model/   definitions only; each cites the file and lines it models
    rocq/theories/Spec/    small specifications written from the English property
    rocq/theories/Proofs/  lemmas
    rocq/theories/Props/   only the property theorems: `exact lemma.`, Print Assumptions,
                           and a non-vacuity Example beside each theorem
    rocq/theories/Tests/   tests of the model and of the specifications (section 7)

`<name>_refuted` theorems state that the English property is false of the
faithful model, with a witness.  `<name>_partial` theorems prove the part of the
property that does hold, with the missing part in a comment.

## 2. Modelling conventions

* Go `string`/`[]byte` are `list ascii` (bytes).  Functions of package `strings`
  and `regexp` that look at Unicode are modelled on ASCII: a byte >= 0x80 is
  neither a letter, nor a digit, nor white space, nor upper case.  For versions,
  specifiers and Requires-Python, Model/Unicode.v has the functions with Go's
  case folding and white space; Props/P31_Unicode.v shows on which strings they
  differ (C05, C07, C21).  The configuration parser trims white space of Unicode
  (Model/UniSpace.v); what that is, is said in Spec/WhiteSpaceSpec.v by code
  points and UTF-8, and C48_white_space shows that it is what is trimmed.
* Go `int` is `Z` with explicit 64-bit wrap (`wrap64`) wherever the code
  subtracts, `int32` with `wrap32`.
* Errors are values; a Go panic or non-termination is a distinguished result.
* Unbounded recursion is modelled with fuel and an explicit out-of-fuel result.
  Theorems either prove that fuel suffices, or range over all fuels.
* Go map iteration order is an oracle argument constrained only to be a
  permutation.
* `sort.Slice` is modelled by insertion sort; wherever stability would matter,
  a theorem shows that the result is the same for every permutation.
* The standard library (path.Clean, strings.*, strconv, regexp, archive/tar,
  archive/zip, encoding/csv, time) is modelled from its documentation.  Its
  source was not available.  This is part of the trusted base.
* Regular expressions are data in a small AST with a backtracking matcher that
  has Go's leftmost-first semantics (Model/Regex.v).

## 3. Plan per property

| id | modelled | method |
|----|----------|--------|
| C01 | Version, Cmp with wrap32/wrap64 | corollary of C02; reflexivity for all versions (Proofs/ExactFacts.v); refuted for local segments >= 2^31 (int32 truncation) |
| C02 | same | equality of sign with an independent PEP 440 key comparison |
| C03 | String, reVersion, parseVersion | first-match reasoning on the backtracking matcher |
| C04 | same | parse result is well formed, then C03; refuted for huge local numbers |
| C05 | same | soundness/completeness of the matcher w.r.t. an inductive grammar; with Go's case folding: both expressions give the same on strings without the two odd letters (Proofs/UnicodeFacts.v); exactly which strings with them are accepted, by running both expressions in step over the characters (Proofs/UnicodeExact.v) |
| C06 | cmpRelease | induction on release lists; for all versions in Proofs/ExactFacts.v |
| C07 | ParseSpecifier | refuted for `<` and `>` (one character too many dropped); others proved; Spec/ExactSpec.v says what the code accepts exactly |
| C08 | Specifier.Match | induction on clause lists |
| C09 | match functions | case analysis |
| C10 | matchCompatible | case analysis against separate clause matches |
| C11 | matchPrefix* | independent prefix relation |
| C12 | matchLE/GE/LT/GT | refuted; partial: equals the order relation |
| C13 | Specifier.String | refuted; partial for the operators that survive; exact account of what printed clauses are read as |
| C14 | Select, excluders | refuted (inverted test); partial: exact behaviour, maximality |
| C15 | BuildTag.Cmp | order on tuples |
| C16 | ParseFilename, GenerateFilename | matcher reasoning |
| C17 | Decompress, Intersect, Supports, Preference | induction on lists |
| C18 | ParseTag, String | split/join lemmas |
| C19 | SelectWheel over an abstract page | invariants of the two loops |
| C20 | same | refuted with concrete pages; partial statements; the selected version on all pages (Spec/ExactSpec.v) |
| C21 | pep345 parse and match | case analysis; documented equivalence refuted |
| C22 | normalize, name check | induction on strings |
| C23 | ListPackageFiles filter | filter equality |
| C24 | get checksum loop, hash oracle, percent-decoding | exact (iff), by induction on the pieces of the fragment; decoding specified by an inductive relation |
| C25 | GetSignature; Spec/IndexClientSpec.v `signature_url` | refuted for all links and servers |
| C26 | parseLayer, loadLayers, Get, Set, WriteTo | simulation between the tree and an overlay of a base file system; refuted in general, proved outside one construct |
| C27 | same | reload of the written tree gives the same tree |
| C28 | WriteTo | sortedness and NoDup of pre-order traversal |
| C29 | parseLayer, Get | path lemmas |
| C30 | WriteTo with iteration oracle | uniqueness of sorting |
| C31 | Get/fsGet with fuel | refuted (divergence for all fuels); proved without directory links; exact conditions for an output (every entry leads somewhere), for ELOOP (an entry comes upon a circle of links) and for never ending (neither), and a condition on the texts of the links that is enough |
| C32 | loadLayers | corollaries of the simulation |
| C33 | Get/fsGet | refuted for links to `/`; otherwise a stack written through links gives the output of the stack with each entry at the place its links lead to (Proofs/SquashCreate.v), and every output arises this way (Proofs/SquashBack.v) |
| C34 | WriteTo with TypeLink | refuted; partial |
| C35 | fsfileReader as a state machine | invariant over operation sequences |
| C36 | ReadDir | invariant over operation sequences; layers written through links: every node's header ends in the key of the node, an invariant of loading (Proofs/NamesThrough.v) |
| C37 | LayerFromFileReferences | strict total order on paths, uniqueness of sorting |
| C38 | same | induction |
| C39 | LayersEqualExceptTimestamps | refuted (ChangeTime); partial |
| C40 | readersEqual | induction over reader states |
| C41 | LayerFromDir | refuted (chown after the header is written); partial |
| C42 | LayerFromDir prefix loop | refuted (absolute prefix loops for ever); partial |
| C43 | LayerFromDir hard-link log | induction on walk |
| C44 | zip.go | bit lemmas |
| C45 | stat.go | bit lemmas |
| C46 | StatMode.String | bit lemmas |
| C47 | constants | refuted |
| C48 | ConfigParser.Parse | parse of render |
| C49 | CreateScripts | induction; refuted parts |
| C50 | integrityCheck, installToVFS | refuted for adversarial archives; proved under distinct regular names |
| C51 | installToVFS | refuted for names with `..`; partial; `compiles` and `hooks` in Spec/WheelSpec.v say with which arguments compiler and hook are called |
| C52 | rewritePython, skipReader | list equality; for any names with Spec/LandsSpec.v |
| C53 | parent loop | closure under dirname |
| C54 | newTarEntry loop | map lemma |
| C55 | pipeline with iteration oracles | permutation invariance; refuted for colliding .data entries |
| C56 | Record, csv.Writer, filepath.Rel, "layer wheel" (Model/Record.v, LayerWheel.v) | rows through hook, parents and layer; RFC 4180 reader; refuted for changed scripts, CR in names |
| C57 | jsonDumps token loop, string quoting (Model/DirectURL.v) | induction on JSON values; refuted for arrays of containers |
| C58 | IsYanked, GetVersion, HTMLVersionCheck | case analysis |
| C59 | wrapN, wrap, Wrap, WrapIndent (Model/Wrap.v) | induction on text length; reflow relation; refuted after an overlong word |
| C60 | LookPath (Model/LookPath.v) over the loaded file system | converse of Open (Proofs/VfsBack.v), induction on PATH; path cleaning composes (relative_fold); layers written through links as in C65 (Proofs/LookThrough.v) |
| C61 | configFlags, its parsing by pflag, "image build" (Model/ImageConfig.v) | induction on the command line; refuted for an empty directory |
| C62 | Now with sync.Once step by step (Model/Clock.v) | invariant over executions with any number of goroutines |
| C63 | output replacement as file-system steps (Model/GoBuild.v) | states after each system call; atomicity refuted in general |
| C64 | HTML tree walk | induction on document trees |
| C65 | Load, Open | independent walk over the overlay, and an independent account of why a path leads nowhere (Spec/TripSpec.v); both directions by mutual induction (Proofs/VfsTrips.v); layers written through links: the trees differ in the names of headers only (Proofs/VfsThrough.v) |
| C66 | LayerFromDir walk | induction on the tree |
| C67 | ToDOS | bit lemmas |
| C68 | Platform.Init | case analysis |
| C69 | VersionInfo.PEP440 | corollary of the version order; refuted for the serial |
| C70 | times given by InstallWheel | fold over the archive; layer clamping (C41) |
| C71 | modification times of installed files | Spec/LandsSpec.v says inductively where a file of any wheel can land; invariant of the map of files (Proofs/WheelLands.v), with C70 |
| C72 | the same, run again on what a crash left | comparison with a cut-off stream; refuted in general |
| C73 | Shebangs over LookPath of images (C60) and of the host (Model/Inspect.v) | case analysis on the found name; Split and Join of cleaned paths; LookPath of absolute names |
| C74 | RunE of python inspect, Stat of images (Model/Inspect.v) | search lemmas (first accepted element); Stat through the converse of Open |
| C75 | documents as trees; writing by lower-cased names, reading by case-insensitive names (Model/Inspect.v) | round trip by computation; setters of different fields commute |
| C76 | RunE of python getwheel (Model/GetWheel.v) over the client of C22-C24 | induction on the links of the page |
| C77 | ExternalCompiler's closure over a file system of the host, with all intermediate states and failing calls (Model/PyCompile.v) | invariants of all states; induction on the files; refuted for names that lead out |
| C78 | ExternalCompiler up to the closure, composed with reading platform files (C75) | case analysis; refuted for files without PyCompile |
| C79 | the shared array behind the arguments, one string at a time (Model/Args.v) | invariant over all schedules; refuted if the array has room |
| C80 | WithImage over a daemon with other clients (Model/Docker.v) | case analysis of all failing steps; refuted for cancelled contexts |
| C81 | PathOpener, WriteLayer and "layer squash" over files and pipes (Model/LayerFile.v) | induction on the uses and on the files; refuted for replaced files |
| C82 | main, FlagErrorFunc, OnlySubcommands, RunSubcommands; cobra as a record of its answers (Model/Cli.v) | case analysis; induction on the message |
| C83 | VisitHTML with callbacks over a state; GetAttr (Model/Cli.v) | refinement to handling a list of events, by induction on trees |
| C84 | generate.go over an arbitrary source of randomness (Model/Generate.v) | a predicate transformer for all results; a second one for reachability with given draws |
| C85 | quick.go, with functions that may panic (Model/Generate.v) | induction on the cases; QuickCheck is refuted (it mixes up two indices) |
| C86 | GetTerminalWidth and HelpTemplate as a function of what cobra tells about the command (Model/Help.v) | words: composition of parts that begin with white space, from C59; columns: splitting of the text; refuted for help topics |
| C87 | DumpLayerFull, DumpLayerListing, AssertEqualLayers; spew, tabwriter and difflib are parameters (Model/AssertLayers.v) | case analysis, induction on the entries |
| C88 | layer_from_refs, layer_from_dir, install_wheel, squash (all from above) | the output of squashing is sorted and has sources (C89); two lists in the same strict order with the same elements are equal (Proofs/SquashSources.v, SquashMade.v, SquashWheel.v) |
| C89 | squash | invariant of the tree: every header in it stems from an entry; for plain stacks with its path (Proofs/SquashSources.v), through links by C33 |
| C90 | Model/IndexClient.v: get with its errors, the requests with their header, GetSignature | the error is given exactly for its reason (Spec/IndexClientSpec.v `reason`); the reasons exclude one another (Proofs/IndexClientFacts.v) |
| C91 | Model/IndexClient.v: ListPackages, ListFiles | from the theorem about the links of a page (C64) |
| C92 | composition of the models of squashing, loading, LookPath and of the makers of layers; Spec/OverlaySpec.v says what is at each path once a layer is laid over an image | induction over the entries of the layer; with C26, C35, C60, C65, C51 and C88 |
| C93 | RecordRequested and its composition with Record by PostInstallHooks (Model/Record.v) | from C56, with the entry of a reference in the layer |
| C94 | IsFinal, IsPreRelease, Major, Minor, Micro (Model/Pep440.v); Spec/KindSpec.v says it of the text of String | case analysis of the parts of the text |
| C95 | the flags of cmd_layer_dir.go (Model/LayerDir.v) over Model/Dir.v | from C42, C43, C38, by induction over the flags |
| C96 | LayerFromGo (Model/GoLayer.v) over Model/Dir.v; the go command, the environment and the removal of the directory are parameters; Spec/GoLayerSpec.v says how flags and environments are read | case analysis; uniqueness of the entries given by C43 |
| C97 | RunE of cmd_image_build.go (Model/ImageBuild.v) over Model/ImageConfig.v; opening files, tags and writing are parameters | case analysis, induction over the arguments, C61 |
| C98 | the tree of commands, RemoveAll, MkdirAll, the writing of pages with failures of the host (Model/DocGen.v) | which commands have a page: induction over the tree; names of pages are injective where names avoid the separator; invariant of the writing (Proofs/DocGenFacts.v) |
| C99 | squash | unpacking is pointwise and monotone in what was there before, so C26 over what the lower layers unpack to carries through the upper ones; links that are apart stay apart in the squashed run by the sources of its entries (Proofs/SquashInner.v) |
| C100 | install_wheel | invariant of the map of files through unpacking, spreading and rewriting: each value stems from a file of the archive, with one of three sets of attributes (Proofs/WheelAny.v) |
| C101 | ConfigParser.Parse; Spec/PyConfigSpec.v is Python's RawConfigParser, line by line | simulation of the two loops, which keep the open value in different places; refuted for five kinds of lines |
| C102 | entry_points.CreateScripts with ConfigParser.Parse, against Python's reading of the file | from C49 and C101; refuted for DEFAULT and for text behind headers |
| C103 | ParseFilename; Spec/PyNameSpec.v is Python's parse_wheel_filename | from the exact account of C16 and the same for Python's splitting; refuted for four kinds of names |
| C104 | ParseSpecifier and Match; Spec/AdmitSpec.v is PEP 440's account of each operator | composition of C07–C12 at the level of texts: parsing of the parts, then an exact account of each operator; refuted for pre-releases with '<', and similar |
| C105 | Squash, then Load and Open, Read, ReadDir on its output (Spec/SquashOpenSpec.v: Load and Open at every sufficient depth) | the layers and the squashed layer unpack to the same tree (C31, C33); Open, Read and ReadDir are functions of that tree (C35, C36, C65); the headers of the loaded squashed layer are those of the tree that was written; with links to '/' (C105_any, _list_any, _dangling_any) by a simulation between the two trees; refuted for links to names of whiteouts |

## 4. Trusted base

1. Coq 8.16.1: the kernel, its bytecode evaluator (`vm_compute`), and the
   parser and elaborator that turn the files into terms.
2. Axioms: `Print Assumptions` follows every theorem in `theories/Props/` and
   prints "Closed under the global context" for each of them: no axiom is used,
   neither of this development nor of the standard library.  (A scan of the
   loaded libraries also lists `Coq.ssr.ssrunder.Under_rel.*`, the fields of a
   module type of the ssreflect plugin that `Lia` and others load; no theorem
   depends on them.)
3. The fidelity of `theories/Model/` to the Go code that each definition cites,
   including the models of the Go standard library of section 2 (`path`,
   `strings`, `strconv`, `regexp`, `sort`, `archive/tar` headers, `archive/zip`
   headers, `encoding/csv`, `encoding/json`, `net/url`, `time`, `sync.Once`,
   `io/fs.ValidPath`) and of the parts of cobra/pflag and x/net/html that are
   called.
4. Universally quantified parameters in theorem statements stand for what the
   code calls but the model does not define: hash functions, the Python
   compiler, HTTP responses, the operating system's answers, the iteration
   order of maps, the result of unstable sorting, UTF-8 validity.  Hypotheses on
   them are in the statements.
5. Simplifications: each is stated in the comment of the definition concerned.
   The general ones: bytes from 0x80 on are not treated as Unicode letters,
   digits or white space (for versions and specifiers see C05_letters_partial;
   the configuration parser knows white space of Unicode, but lower-cases option
   names on ASCII only); sizes and depths are unbounded (no memory exhaustion);
   error values carry a kind, not their text.

## 5. What is modelled

| Go file | model | not modelled |
|---------|-------|--------------|
| cmd_image_build.go | Model/ImageConfig.v, Model/ImageBuild.v | reading and writing of image archives |
| cmd_layer_dir.go, pkg/dir/dir.go | Model/LayerDir.v, Dir.v | how the values of flags are parsed, Windows |
| cmd_layer_gobuild.go, pkg/gobuild | Model/GoBuild.v, GoLayer.v | the Go compiler (its result is a parameter) |
| cmd_layer_squash.go, pkg/squash | Model/Squash.v, VfsFS.v | bytes of tar streams, gzip |
| cmd_layer_wheel.go | Model/LayerWheel.v | decoding of the YAML platform file |
| pkg/python/pyinspect/fs_image.go | Model/LookPath.v | kinds of errors, errors of the image |
| pkg/python/pyinspect/pyinspect.go, fs_native.go, cmd_python_inspect.go | Model/Inspect.v | the Python script and its JSON output (an oracle), Stat of the host (an oracle), YAML texts |
| cmd_python_getwheel.go | Model/GetWheel.v | failures while writing the output |
| pkg/python/py_compile.go | Model/PyCompile.v, Model/Args.v | links on the host, permissions, names that are not UTF-8 |
| pkg/cliutil/borrowed_pflag.go, wordwrap.go | Model/Wrap.v | |
| pkg/cliutil/term.go, cobra_tmpl.go | Model/Help.v | text/template itself; usage texts of flags |
| pkg/fsutil/fileref.go, diff.go | Model/Layer.v | |
| pkg/fsutil/open.go, write.go | Model/LayerFile.v | image archives (OpenImage) |
| pkg/dockerutil/docker.go | Model/Docker.v | the rules of name.NewTag |
| pkg/reproducible | Model/Clock.v | |
| pkg/htmlutil | Model/SimpleAPI.v, Model/Cli.v | the HTML parser: documents are trees |
| pkg/python/configparser.go | Model/ConfigParser.v, UniSpace.v | lower-casing of letters outside ASCII |
| pkg/python/pep345, pep376, pep425, pep440, pep503, pep592, pep629 | Model/Pep345.v, Record.v, WheelName.v, Pep440.v, Unicode.v, Specifier.v, SimpleAPI.v, IndexClient.v | the HTTP transport |
| pkg/python/platform.go, stat.go, zip.go | Model/Platform.v, Stat.v | |
| pkg/python/pypa/bdist | Model/Wheel.v, WheelFile.v, WheelName.v | zip compression: an archive is the list of its entries |
| pkg/python/pypa/direct_url, entry_points, recording_installs | Model/DirectURL.v, EntryPoints.v, Record.v | |
| pkg/python/pypa/simple_repo_api | Model/SimpleAPI.v, IndexClient.v | |
| main.go, pkg/cliutil/cobra.go | Model/Cli.v | cobra itself: finding commands, parsing flags, help texts and suggestions are parameters; completion |
| pkg/testutil/diff.go | Model/AssertLayers.v | the texts of dumps and diffs |
| pkg/testutil/quick.go, pep440/generate.go | Model/Generate.v | testing/quick itself, types and reflection; the values of math/rand are a parameter |
| main_aux.go | Model/DocGen.v | cobra/doc: the texts of pages; the completion command |
| tools | none | build tools |

## 6. Tests of the theorems

`seeded/bugs_*.json` are edits of the model as realistic bugs would make them;
`tools/mutate.py` applies each in a scratch copy and rebuilds, and
`seeded/LOG.jsonl` records what failed.  A surviving edit led to a stronger
theorem or is explained in the log (the edit does not change the behaviour).

## 7. Tests of the model and of the specifications

These are computations on literals, not proofs, and no claim rests on them.
`tools/repotests.py` writes Tests/RepoTests.v from the tables of the unit tests
in /repo: the model gives what the authors expect of the code.
`tools/pythontests.py` writes Tests/PythonTests.v: random cases with the results
of Python's packaging, configparser, stat, csv, json, posixpath and urllib
modules.  The specifications of versions and their order, of the specifier
clauses, of configuration files, of mode strings, of CSV and of JSON, and the
models of name normalization, tags, path.Clean, filepath.Rel and query strings,
agree with Python on all of them.  Left out: JSON escapes above U+007F and paths
with exactly two leading slashes, where POSIX and Go differ.
