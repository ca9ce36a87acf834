{
 "claims": [
  {
   "property": "C01",
   "status": "partial",
   "theorems": [
    "C01_cmp_antisymmetric_partial",
    "C01_cmp_reflexive",
    "C01_cmp_transitive_partial",
    "C01_cmp_congruence_partial",
    "C01_cmp_antisymmetric_refuted",
    "C01_cmp_transitive_refuted"
   ],
   "note": "Holds for all versions whose subtractions do not overflow (wf_version). Refuted in general: numeric local segments are truncated to int32 and subtracted with wrap-around, and post number 2^63-1 minus the -1 for 'none' wraps. Equality with itself holds for all versions."
  },
  {
   "property": "C02",
   "status": "partial",
   "theorems": [
    "C02_cmp_is_pep440_order_partial",
    "C02_wf_cmp_is_pep440_order_partial",
    "C02_public_cmp_is_pep440_order_partial",
    "C02_cmp_is_pep440_order_refuted"
   ],
   "note": "As C01; additionally a numeric local segment >= 2^63 is treated as a string."
  },
  {
   "property": "C03",
   "status": "proved",
   "theorems": [
    "C03_parse_of_string"
   ],
   "note": "Every version in normal form (letters a/b/rc, numbers in range, local segments canonical)."
  },
  {
   "property": "C04",
   "status": "partial",
   "theorems": [
    "C04_normalization_idempotent_partial",
    "C04_normalization_idempotent_refuted"
   ],
   "note": "Holds unless a numeric local segment in [2^31,2^63) was wrapped to a negative int32, in which case String() prints a version that does not parse (refutation: 1+2147483648)."
  },
  {
   "property": "C05",
   "status": "partial",
   "theorems": [
    "C05_accepts_exactly_the_grammar",
    "C05_value_of_spelling",
    "C05_longest_match_exists",
    "C05_grammar_unambiguous",
    "C05_letters_partial",
    "C05_same_value_partial",
    "C05_beyond_partial",
    "C05_letters_refuted",
    "C05_wide",
    "C05_wide_value"
   ],
   "note": "Acceptance is an equivalence for all byte strings without U+017F and U+212A; the value theorem is for local numbers below 2^31 (beyond: see C01/C04 refutations). Go's case folding takes these two letters for s and k, so that local labels with them are accepted (C05_letters_refuted). parse_version of the other theorems folds ASCII only; the two functions agree on all strings without the two letters (C05_same_value_partial). C05_wide says exactly which strings the function with Go's case folding accepts, C05_wide_value with which value."
  },
  {
   "property": "C06",
   "status": "proved",
   "theorems": [
    "C06_trailing_zeros",
    "C06_equal"
   ],
   "note": "For all versions and any number of added zeros."
  },
  {
   "property": "C07",
   "status": "partial",
   "theorems": [
    "C07_parse_clause_partial",
    "C07_parse_clause_refuted",
    "C07_exact_partial",
    "C07_unicode_partial",
    "C07_blanks_partial"
   ],
   "note": "Every operator/blank/version text is parsed as documented, except that < and > need at least one blank after the operator. Refuted without it: the code drops two characters for one-character operators ('<2.0' is rejected, '<12.0' means '< 2.0', '<' panics). White space of Unicode around clauses does not count (C07_blanks_partial). C07_exact_partial says exactly which clauses are accepted and with what meaning."
  },
  {
   "property": "C08",
   "status": "proved",
   "theorems": [
    "C08_match_is_conjunction",
    "C08_order_and_duplicates",
    "C08_comma_is_conjunction",
    "C08_conjunction_of_lists",
    "C08_empty"
   ],
   "note": "All specifiers and versions."
  },
  {
   "property": "C09",
   "status": "proved",
   "theorems": [
    "C09_exclude_is_complement",
    "C09_strict_match",
    "C09_parsed_are_ranged"
   ],
   "note": "All comma-free texts and all versions the parser can return."
  },
  {
   "property": "C10",
   "status": "proved",
   "theorems": [
    "C10_compatible",
    "C10_compatible_meaning",
    "C10_two_components"
   ],
   "note": "Operator identity for all versions; the meaning for versions without integer overflow."
  },
  {
   "property": "C11",
   "status": "proved",
   "theorems": [
    "C11_prefix_match"
   ],
   "note": "All versions the parser can return."
  },
  {
   "property": "C12",
   "status": "partial",
   "theorems": [
    "C12_ge_partial",
    "C12_le_partial",
    "C12_le_sound_partial",
    "C12_lt_partial",
    "C12_gt_partial",
    "C12_exact_partial",
    "C12_le_local_refuted",
    "C12_lt_prerelease_refuted",
    "C12_gt_postrelease_refuted"
   ],
   "note": ">= is exact. <= is exact for candidates without local label (refuted otherwise: <=1.0 rejects 1.0+local). < and > are exact except for candidates with the same release as V (refuted: <1.0 accepts 1.0rc1; >1.0 accepts 1.0.post1 and 1.0+local). C12_exact_partial says what all four do for all versions."
  },
  {
   "property": "C13",
   "status": "partial",
   "theorems": [
    "C13_string_round_trip_partial",
    "C13_prefix_refuted",
    "C13_less_than_refuted",
    "C13_exact_partial"
   ],
   "note": "Holds for ~=, ==, !=, <=, >= clauses. Refuted for prefix clauses (String drops '.*') and for < / > (the printed form is not accepted by the parser). C13_exact_partial says what becomes of every specifier that is printed and parsed again (versions without wrapped local numbers)."
  },
  {
   "property": "C14",
   "status": "partial",
   "theorems": [
    "C14_select_none_partial",
    "C14_select_newest_partial",
    "C14_select_policy_partial",
    "C14_exclude_prereleases_partial",
    "C14_multi_excluder_partial",
    "C14_select_prefers_excluded_refuted",
    "C14_allow_all_partial"
   ],
   "note": "Nil policy: exact. With a policy Select has allowed and excluded swapped (refuted with ExcludePreReleases); what it does compute is proved."
  },
  {
   "property": "C15",
   "status": "partial",
   "theorems": [
    "C15_build_tag_order_partial",
    "C15_build_tag_laws_partial",
    "C15_parsed_tags_partial",
    "C15_build_tag_order_refuted"
   ],
   "note": "Holds for all tags with numbers in [0,2^63), which includes every tag parsed from a file name. Refuted for BuildTag structs with negative numbers (a.Int-b.Int wraps)."
  },
  {
   "property": "C16",
   "status": "proved",
   "theorems": [
    "C16_filename_roundtrip",
    "C16_filename_injective",
    "C16_parse_accepts",
    "C16_parse_only_accepts"
   ],
   "note": "All data whose version is canonical and whose build tag and compatibility tag can be written (wf_name); plus exact characterisation of the accepted file names. Build numbers >= 2^63 in a file name saturate."
  },
  {
   "property": "C17",
   "status": "proved",
   "theorems": [
    "C17_supports",
    "C17_preference_is_first",
    "C17_preference_range"
   ],
   "note": "All installers and tags."
  },
  {
   "property": "C18",
   "status": "proved",
   "theorems": [
    "C18_tag_roundtrip",
    "C18_tag_rejects",
    "C18_tag_string_parse"
   ],
   "note": "All tags and all strings."
  },
  {
   "property": "C19",
   "status": "partial",
   "theorems": [
    "C19_selected_is_candidate",
    "C19_fails_iff_no_candidate",
    "C19_most_preferred_partial",
    "C19_most_preferred_refuted",
    "C19_select_wheel"
   ],
   "note": "For every unstable sorting procedure. Preference is proved among wheels of the same version spelling; refuted across spellings (1.0 and 1.0.0 are grouped separately). C19_select_wheel says it of SelectWheel itself: the files listed by the server, the specifier given."
  },
  {
   "property": "C20",
   "status": "partial",
   "theorems": [
    "C20_newest_partial",
    "C20_yanked_partial",
    "C20_version_partial",
    "C20_prerelease_refuted",
    "C20_yanked_refuted",
    "C20_build_tag_refuted"
   ],
   "note": "Refuted: pre-releases are not avoided (the exclusion policy is inverted), yanked pre-releases and yanked files of mixed versions are chosen, and the lowest build tag wins (proved in general). Proved: newest candidate on pages without yanked files; on pages without pre-releases a yanked version is chosen only if all are yanked. C20_version_partial says which version is selected on all pages."
  },
  {
   "property": "C21",
   "status": "partial",
   "theorems": [
    "C21_bare_is_range_partial",
    "C21_bare_excludes_suffixes_partial",
    "C21_bare_is_range_refuted",
    "C21_equal_partial",
    "C21_bare_means_equal_partial",
    "C21_clause_text_partial",
    "C21_not_equal_is_complement_partial",
    "C21_less_than_partial",
    "C21_less_than_no_prerelease_partial",
    "C21_less_than_local_refuted",
    "C21_ordered_partial",
    "C21_comma_is_conjunction_partial",
    "C21_unicode_partial",
    "C21_blanks_partial"
   ],
   "note": "Exact for candidates without suffix; a bare X never accepts suffixed candidates, so the documented range equivalence is refuted for e.g. 2.6.2.post1; '<X' excludes pre-releases of X only when X has no local label. White space of Unicode around clauses does not count (C21_blanks_partial)."
  },
  {
   "property": "C22",
   "status": "partial",
   "theorems": [
    "C22_normalize_idempotent_partial",
    "C22_normalize_identifies_partial",
    "C22_one_path_element_partial",
    "C22_invalid_rejected_partial",
    "C22_request_partial",
    "C22_empty_name_refuted"
   ],
   "note": "All names; the request theorem is for the path part of the URL. Refuted only for the empty name, which is not rejected."
  },
  {
   "property": "C23",
   "status": "proved",
   "theorems": [
    "C23_listing"
   ],
   "note": "All pages, Python versions and requirement texts."
  },
  {
   "property": "C24",
   "status": "partial",
   "theorems": [
    "C24_checksum_partial",
    "C24_exact",
    "C24_no_fragment",
    "C24_bad_fragment",
    "C24_plain_partial",
    "C24_content_is_response",
    "C24_checksum_refuted"
   ],
   "note": "Proved exactly, for all URLs (percent-encoding included): a download succeeds iff the response is 200 and, if the fragment is a well-formed list, every recognised checksum in it matches. Refuted for fragments that are not well-formed lists (a ';' or a stray '%'): ParseQuery fails and no checksum is verified."
  },
  {
   "property": "C25",
   "status": "partial",
   "theorems": [
    "C25_no_signature_partial",
    "C25_signature_url_refuted",
    "C25_url_refuted",
    "C25_signature_refuted"
   ],
   "note": "Refuted for every link and server: the code fetches the file itself, never its signature, and returns the content of the file as the signature (C25_url_refuted also for URLs with a fragment). Only the data-gpg-sig=\"false\" case is right."
  },
  {
   "property": "C26",
   "status": "partial",
   "theorems": [
    "C26_same_meaning_partial",
    "C26_same_meaning_refuted"
   ],
   "note": "Proved for every stack of well-formed entries such that, when an entry is unpacked, none of the directories above it is a symbolic link, over an empty base; over any base if no directory entry follows a whiteout of the same path in an earlier layer. Refuted without that condition: squashing [.wh.foo],[foo/] drops the whiteout. Stacks that write through links: see C33."
  },
  {
   "property": "C27",
   "status": "partial",
   "theorems": [
    "C27_again_partial",
    "C27_again_meaning_partial",
    "C27_staged_partial",
    "C27_again_links_partial",
    "C27_staged_links_partial",
    "C27_again_refuted"
   ],
   "note": "Proved up to whiteouts made redundant by an opaque marker in the same directory (the 'effective' part). Refuted literally: such a whiteout disappears when the result is squashed again. Scope: stacks not written through links, and stacks whose links are proper (not to '/', no whiteout names in their texts)."
  },
  {
   "property": "C28",
   "status": "partial",
   "theorems": [
    "C28_sorted_partial",
    "C28_sorted_plain_partial",
    "C28_no_path_twice_partial",
    "C28_sorted_refuted"
   ],
   "note": "All stacks without a symbolic link to '/' itself, and all stacks not written through links. Refuted for entries written through a link to '/'."
  },
  {
   "property": "C29",
   "status": "proved",
   "theorems": [
    "C29_rejects_outside",
    "C29_names_in_root"
   ],
   "note": "All layers, including every combination of symbolic links, whatever the recursion depth."
  },
  {
   "property": "C30",
   "status": "proved",
   "theorems": [
    "C30_order_irrelevant"
   ],
   "note": "All stacks, all sorting procedures that sort, all map orders."
  },
  {
   "property": "C31",
   "status": "partial",
   "theorems": [
    "C31_depth_irrelevant_partial",
    "C31_plain_terminates_partial",
    "C31_only_loops_partial",
    "C31_terminates_refuted",
    "C31_output_exact_partial",
    "C31_direct_links_partial",
    "C31_loop_exact_partial",
    "C31_never_exact_partial"
   ],
   "note": "Refuted: a link a -> a/b with an entry a/x recurses forever. Proved for stacks not written through links, and (C33) for stacks whose links lead to directories, to files or to directories that do not exist yet. The only failure of a stack that stays in its root is the loop error. Exactly when there is an output, for stacks without links to the root directory: when every entry has a place to which its path leads; it fails exactly when the path of an entry comes upon a circle of links; it never ends exactly when neither is so. An output is certain whenever no link names a path through a link and no link is put below a link (P26_Ends)."
  },
  {
   "property": "C32",
   "status": "partial",
   "theorems": [
    "C32_last_entry_wins_partial",
    "C32_whiteout_hides_partial",
    "C32_through_links_partial",
    "C32_root_refuted"
   ],
   "note": "Proved for stacks not written through links, and for entries at the places where their links lead. Refuted for links to the root directory itself: what is written or hidden through such a link later does not win (C32_root_refuted)."
  },
  {
   "property": "C33",
   "status": "partial",
   "theorems": [
    "C33_same_output_partial",
    "C33_written_at_target_partial",
    "C33_every_output_partial",
    "C33_root_link_refuted"
   ],
   "note": "Proved for entries written through chains of links to directories, to directories that do not exist yet and to files: the output is exactly that of the entries at the places the links lead to. Conversely every output of a stack of well-formed entries arises this way. Refuted for links to '/'. Missing: link texts that run through whiteout names; stacks on which squashing does not end (C31)."
  },
  {
   "property": "C34",
   "status": "partial",
   "theorems": [
    "C34_hard_link_partial",
    "C34_content_refuted",
    "C34_order_refuted"
   ],
   "note": "Refuted: the target is replaced later, or the link sorts before its target. Proved when neither is overridden and the target sorts first."
  },
  {
   "property": "C35",
   "status": "partial",
   "theorems": [
    "C35_reads_once_partial",
    "C35_chunks_partial",
    "C35_in_program_order_partial",
    "C35_never_stuck_partial",
    "C35_content_partial",
    "C35_through_partial",
    "C35_hard_link_refuted"
   ],
   "note": "Proved for every schedule of goroutines on any open file with a regular body, with the content taken from the unpacked stack (no link to the root; layers that are written through links are unpacked where the links lead). Refuted for hard links: they read as empty."
  },
  {
   "property": "C36",
   "status": "partial",
   "theorems": [
    "C36_pages_partial",
    "C36_each_once_partial",
    "C36_listing_partial",
    "C36_through_partial",
    "C36_dangling_refuted",
    "C36_dangling_partial",
    "C36_through_dangling_partial"
   ],
   "note": "Proved for every schedule and page size; the listing is the sorted directory of the unpacked stack if every entry of it resolves. Refuted with a dangling link: the first call fails, the next returns a map-order-dependent part. C36_through_partial: the same for images whose layers are written through links. C36_dangling_partial: with dangling entries, for every map order, the first ReadDir fails with the reason of one of them and further calls page through some of the entries, none twice. C36_through_dangling_partial: the same for images written through links."
  },
  {
   "property": "C37",
   "status": "partial",
   "theorems": [
    "C37_same_layer_partial",
    "C37_in_order_partial",
    "C37_parents_first_partial",
    "C37_root_refuted",
    "C37_trailing_slash_refuted"
   ],
   "note": "Proved for distinct clean paths: same entries (or error) for every permutation and every sorting procedure, in path order, directories before what is below them. Refuted for the root of relative paths (\".\" sorts after \"-x\") and for names that differ in trailing slashes."
  },
  {
   "property": "C38",
   "status": "partial",
   "theorems": [
    "C38_not_later_partial",
    "C38_kept_partial",
    "C38_subsecond_refuted",
    "C38_access_time_refuted",
    "C38_zero_clamp_refuted",
    "C38_dir_not_later_partial",
    "C38_dir_kept_partial"
   ],
   "note": "What every time becomes, exactly: clamped, then rounded to the nearest second; not later than a clamp time on a whole second. Refuted: tar rounds after clamping, so a sub-second clamp can be exceeded; access and change times are dropped; the zero clamp resets every time. Layers from directories: the same."
  },
  {
   "property": "C39",
   "status": "partial",
   "theorems": [
    "C39_exact_partial",
    "C39_decides_partial",
    "C39_errors_partial",
    "C39_change_time_refuted"
   ],
   "note": "Exact for modification and access times, and errors are never passed over. Refuted for the change time, which the code compares."
  },
  {
   "property": "C40",
   "status": "proved",
   "theorems": [
    "C40_exact",
    "C40_decides"
   ],
   "note": "Proved for all readers, chunkings and lengths, including readers that fail."
  },
  {
   "property": "C41",
   "status": "partial",
   "theorems": [
    "C41_no_effect_refuted",
    "C41_owner_refuted"
   ],
   "note": "Refuted: the owner is set on the header after it has been written, so a request never changes the layer."
  },
  {
   "property": "C42",
   "status": "partial",
   "theorems": [
    "C42_returns_partial",
    "C42_directories_partial",
    "C42_absolute_refuted",
    "C42_unclean_refuted"
   ],
   "note": "Proved for relative prefixes (termination) and clean relative ones (entries). Refuted: an absolute prefix loops forever; a trailing slash gives two entries for one directory; an empty prefix gives an entry without a name."
  },
  {
   "property": "C43",
   "status": "proved",
   "theorems": [
    "C43_hard_links"
   ],
   "note": "Proved for every tree, every pair of device and inode numbers and every prefix for which LayerFromDir returns."
  },
  {
   "property": "C44",
   "status": "proved",
   "theorems": [
    "C44_raw_of_parsed",
    "C44_parsed_of_raw"
   ],
   "note": "Proved for all 32-bit values and all triples."
  },
  {
   "property": "C45",
   "status": "proved",
   "theorems": [
    "C45_to_go",
    "C45_from_go",
    "C45_round_trip",
    "C45_permissions",
    "C45_other_types",
    "C45_type_tests",
    "C45_archived"
   ],
   "note": "Proved for all 16-bit modes, in both directions."
  },
  {
   "property": "C46",
   "status": "proved",
   "theorems": [
    "C46_string",
    "C46_types"
   ],
   "note": "Proved for all 16-bit modes against a rendering bit by bit."
  },
  {
   "property": "C47",
   "status": "partial",
   "theorems": [
    "C47_low_byte_partial",
    "C47_others_refuted",
    "C47_exact_partial",
    "C47_temporary_refuted"
   ],
   "note": "The seven constants of the low byte are right. Refuted for all others: iota counts from the start of the block, so they are shifted by eight bits (and RecallOnDataAccess would be off by two bits even without that)."
  },
  {
   "property": "C48",
   "status": "proved",
   "theorems": [
    "C48_white_space",
    "C48_parse_render",
    "C48_usual",
    "C48_duplicate_section",
    "C48_duplicate_key",
    "C48_stray_line",
    "C48_no_section",
    "C48_read_error",
    "C48_inline_comment",
    "C48_inline_at_start",
    "C48_comment_in_value"
   ],
   "note": "Rendering is that of Python's RawConfigParser.write. Proved for every configuration it can express and every parser with the usual delimiters; the errors for duplicates, stray lines, lines before a section and read errors are proved for all texts. White space is that of Unicode, in UTF-8."
  },
  {
   "property": "C49",
   "status": "partial",
   "theorems": [
    "C49_scripts_partial",
    "C49_others_partial",
    "C49_accepts_partial",
    "C49_name_partial",
    "C49_absent_partial",
    "C49_unparsed_partial",
    "C49_dotted_refuted",
    "C49_dotted_case_refuted",
    "C49_spaces_refuted",
    "C49_escape_refuted",
    "C49_collision_refuted"
   ],
   "note": "Refuted: for 'a:b.c' the script says 'from a import b.c', which is no Python; 'mod : obj' (blanks) is refused; names containing '../' leave the scripts directory; an entry in both groups gives one script. Proved: every well-formed entry gets exactly its script, nothing else changes."
  },
  {
   "property": "C50",
   "status": "partial",
   "theorems": [
    "C50_recorded_partial",
    "C50_duplicate_refuted",
    "C50_directory_refuted"
   ],
   "note": "Refuted: with two entries of the same name the check reads the first but the last is installed; an entry with the mode of a directory but without a trailing slash is not checked but installed as a file. Proved: with distinct, plain names and consistent directory modes every installed file is listed in RECORD with a strong digest of its bytes."
  },
  {
   "property": "C51",
   "status": "partial",
   "theorems": [
    "C51_inside_partial",
    "C51_complete_partial",
    "C51_platform_partial",
    "C51_climb_refuted",
    "C51_whole_refuted"
   ],
   "note": "Refuted: '../../etc/passwd' escapes; a file X.data/scripts takes the place of the scripts directory. Proved for plain names and data directories that are not nested: each entry of the layer has a stated origin, files of the archive are at the stated destinations, and none is lost."
  },
  {
   "property": "C52",
   "status": "partial",
   "theorems": [
    "C52_scripts_partial",
    "C52_any_partial",
    "C52_shared_refuted"
   ],
   "note": "Proved for every script of an archive with plain names whose destination no other file shares, unless the compiler or the hook replaces it. Refuted otherwise: another file with the destination of a script can take its place, depending on the order of map iteration. For all archives: each installed regular file that neither compiler nor hook made has the bytes, size and mode that its last data directory asks for (C52_any_partial)."
  },
  {
   "property": "C53",
   "status": "partial",
   "theorems": [
    "C53_parents_partial",
    "C53_returns_partial",
    "C53_slashes_refuted",
    "C53_file_refuted"
   ],
   "note": "Proved for plain names; the search for ancestors then ends. Refuted: a scheme directory starting with two slashes makes it loop forever; an ancestor can be a regular file of the archive."
  },
  {
   "property": "C54",
   "status": "proved",
   "theorems": [
    "C54_owner",
    "C54_no_devices"
   ],
   "note": "Proved for all archives, platforms, hooks and compilers."
  },
  {
   "property": "C55",
   "status": "partial",
   "theorems": [
    "C55_same_partial",
    "C55_clash_refuted",
    "C55_nested_refuted",
    "C55_duplicate_refuted",
    "C55_command_partial"
   ],
   "note": "Proved (also for errors) for archives whose destinations do not clash, for all map orders and all orders of the archive. Refuted: for .data/purelib/a and .data/platlib/a with the same directory, for data directories nested in a data directory, and for duplicate names. C55_command_partial: the same for the whole command \"ocibuild layer wheel\", with entry points and RECORD."
  },
  {
   "property": "C56",
   "status": "partial",
   "theorems": [
    "C56_hook_partial",
    "C56_hash",
    "C56_succeeds",
    "C56_hook_order",
    "C56_install_partial",
    "C56_command_partial",
    "C56_csv",
    "C56_names",
    "C56_script_refuted",
    "C56_cr_refuted",
    "C56_twice_refuted"
   ],
   "note": "For every archive without odd names, the RECORD in the layer has exactly one row for each regular file, one for itself, sorted, with size and digest of the content; scripts whose first line was changed have those of the original instead (refuted). Refuted also for CR in names and for entry points that lead to RECORD. CSV is proved readable by an RFC 4180 reader. C56_hash and C56_succeeds: when the hook succeeds."
  },
  {
   "property": "C57",
   "status": "partial",
   "theorems": [
    "C57_record",
    "C57_strings",
    "C57_values_partial",
    "C57_nested_refuted"
   ],
   "note": "Proved for every direct-URL record: members, order, separators, string literals (bytes from 128 on are taken to be valid UTF-8 without U+2028 and U+2029). The general JSON writer is proved for values without containers in arrays and refuted for nested arrays, which no record has."
  },
  {
   "property": "C58",
   "status": "proved",
   "theorems": [
    "C58_yanked",
    "C58_version_undeclared",
    "C58_version_declared",
    "C58_version_check",
    "C58_refuses",
    "C58_page"
   ],
   "note": "All documents. HTML parsing itself is an oracle."
  },
  {
   "property": "C59",
   "status": "partial",
   "theorems": [
    "C59_wrap_partial",
    "C59_words_partial",
    "C59_reflow_partial",
    "C59_panics_partial",
    "C59_width_partial",
    "C59_width_block_partial",
    "C59_overlong_refuted"
   ],
   "note": "Proved: it ends, changes only white space, keeps the words, and keeps to the width if all words are at least seven characters shorter than a line. Refuted after a word as long as a line, from where on nothing is wrapped; widths below 24 (40 with indentation) are not wrapped at all."
  },
  {
   "property": "C60",
   "status": "partial",
   "theorems": [
    "C60_path_order_partial",
    "C60_named_partial",
    "C60_returns_partial",
    "C60_named_returns_partial",
    "C60_linkless_settles_partial",
    "C60_through_partial",
    "C60_result_clean_partial",
    "C60_unclean_refuted",
    "C60_regular_refuted",
    "C60_returns_refuted",
    "C60_no_config"
   ],
   "note": "Proved, for images that the file system handles (see the definition of handled) and paths without names of deletion markers: the search goes through PATH in order, relative directories and names are taken from the working directory, the result is an absolute cleaned path, and the search returns if every path asked for settles (it leads somewhere, or nowhere because of a missing name, a file in the place of a directory or a ring of links), in particular in images without links. Refuted: an absolute name that is not cleaned is never found; an executable device is accepted; a link that leads below itself makes the search crash. Kinds of errors and errors of the image itself are not modelled. C60_through_partial: for layers written through links the same programs are found as among the entries at the places where the links lead."
  },
  {
   "property": "C61",
   "status": "partial",
   "theorems": [
    "C61_env_partial",
    "C61_fields_partial",
    "C61_unnamed_partial",
    "C61_zero_partial",
    "C61_build_partial",
    "C61_empty_refuted"
   ],
   "note": "Proved for every command line: named fields are set to the arguments, others are unchanged, zero exactly if nothing changes. Refuted for an empty working directory, which is taken for an absent flag."
  },
  {
   "property": "C62",
   "status": "proved",
   "theorems": [
    "C62_constant",
    "C62_epoch",
    "C62_system",
    "C62_number",
    "C62_progress"
   ],
   "note": "Proved for all interleavings of any number of goroutines in sync.Once, with an environment and a clock that change at any time. Go's memory model is not modelled: steps are sequentially consistent."
  },
  {
   "property": "C63",
   "status": "partial",
   "theorems": [
    "C63_same_partial",
    "C63_touched_partial",
    "C63_done_partial",
    "C63_states_partial",
    "C63_atomic_refuted"
   ],
   "note": "Proved: equal layers up to times leave the output untouched, success leaves the new layer, and a crash leaves the old file, none, or a beginning of the new one. Atomicity is refuted in general: each replacement passes through a missing and an empty file."
  },
  {
   "property": "C64",
   "status": "proved",
   "theorems": [
    "C64_links_in_document_order",
    "C64_fails_only_on_bad_href"
   ],
   "note": "All document trees in which text has no children and links are not nested (HTML guarantees both)."
  },
  {
   "property": "C65",
   "status": "partial",
   "theorems": [
    "C65_open_partial",
    "C65_missing_partial",
    "C65_not_dir_partial",
    "C65_invalid_partial",
    "C65_only_partial",
    "C65_nowhere_partial",
    "C65_why_partial",
    "C65_returns_partial",
    "C65_through_partial",
    "C65_through_stat_partial",
    "C65_root_link_refuted",
    "C65_endless_refuted",
    "C65_marker_refuted"
   ],
   "note": "Proved for plain stacks without links to the root directory and without marker names in link texts: a name that leads somewhere opens what it leads to; a name that leads nowhere gives ErrNotExist, ErrNotDir or ErrLoop according to an independent account of why (missing name, file in the place of a directory, ring of links, through any number of links); conversely every success and every failure of Open has that reason, so Open returns exactly for the names that settle. Refuted: links to / are not followed; markers can be opened; a link that leads below itself makes Open recurse without end. C65_through_partial: layers written through links give what the entries at the places where the links lead give. C65_through_stat_partial: Stat in such images gives the description under the name of the path."
  },
  {
   "property": "C66",
   "status": "partial",
   "theorems": [
    "C66_every_file_partial",
    "C66_link_refuted",
    "C66_errors_partial",
    "C66_succeeds_partial"
   ],
   "note": "Proved: one entry per path in path order, errors reported, success without errors. Refuted if the directory is named through a symbolic link: the layer is empty."
  },
  {
   "property": "C67",
   "status": "proved",
   "theorems": [
    "C67_to_dos"
   ],
   "note": "Proved for all values."
  },
  {
   "property": "C68",
   "status": "proved",
   "theorems": [
    "C68_init",
    "C68_init_iff",
    "C68_init_idempotent"
   ],
   "note": "Proved for all platforms."
  },
  {
   "property": "C69",
   "status": "partial",
   "theorems": [
    "C69_order_partial",
    "C69_accepts_partial",
    "C69_serial_refuted"
   ],
   "note": "Refuted for the serial number, which is ignored (3.11.0rc1 = 3.11.0rc2). Proved for the rest, for components below 2^62."
  },
  {
   "property": "C70",
   "status": "proved",
   "theorems": [
    "C70_later",
    "C70_bounded"
   ],
   "note": "Proved for all archives. Rounding is to the nearest second, one second is added."
  },
  {
   "property": "C71",
   "status": "proved",
   "theorems": [
    "C71_kept",
    "C71_times"
   ],
   "note": "Proved for all archives and names: each installed regular file that neither compiler nor hook made has the time of the file of the archive whose name leads there (C71_times). For plain names also that the files are there (C71_kept)."
  },
  {
   "property": "C72",
   "status": "partial",
   "theorems": [
    "C72_again_partial",
    "C72_stuck_refuted"
   ],
   "note": "Proved if the crash left nothing or a readable layer. Refuted in general if it left a tar stream that is cut off: the comparison fails, so the command never repairs the file."
  },
  {
   "property": "C73",
   "status": "partial",
   "theorems": [
    "C73_image_partial",
    "C73_native_partial",
    "C73_relative_refuted"
   ],
   "note": "For images that the image file system handles, exactly as stated; on the host if the interpreter is found at an absolute cleaned path. Refuted for interpreters found through a relative path: path.Join drops './', so 'python' beside './pythonw' is searched in PATH instead."
  },
  {
   "property": "C74",
   "status": "partial",
   "theorems": [
    "C74_inspect",
    "C74_crash",
    "C74_owner_partial",
    "C74_through_partial",
    "C74_owner_refuted"
   ],
   "note": "The choices are proved as stated, given what LookPath, Stat and the interpreter tell. For images, Stat is proved to tell the owner in the unpacked image for cleaned paths other than the root; directories that no layer describes may be passed over. Refuted: an existing directory given with a slash at the end (as in the scheme of the help text), or the root directory, is never accepted by Stat and is passed over. The same for layers written through links (C74_through_partial)."
  },
  {
   "property": "C75",
   "status": "proved",
   "theorems": [
    "C75_roundtrip",
    "C75_keys",
    "C75_known",
    "C75_values"
   ],
   "note": "Documents are trees; the YAML texts are not modelled. ASCII case only; several keys for one field, null values and base64 texts are not modelled."
  },
  {
   "property": "C76",
   "status": "partial",
   "theorems": [
    "C76_content_partial",
    "C76_succeeds",
    "C76_requests",
    "C76_content_refuted"
   ],
   "note": "Writing to the output is taken to succeed. As C24, the checksums are checked only for well-formed fragments; refuted for a link with a ';' in its fragment."
  },
  {
   "property": "C77",
   "status": "partial",
   "theorems": [
    "C77_outside_partial",
    "C77_restored_partial",
    "C77_result_partial",
    "C77_succeeds_partial",
    "C77_environment",
    "C77_outputs",
    "C77_wheel_partial",
    "C77_same",
    "C77_slip_refuted"
   ],
   "note": "For files whose names stay below the root (inner) and programs that keep to the directory; refuted otherwise: a wheel with '../' in its names overwrites files of the user who builds. Links on the host are not followed in the model. Results: for distinct names."
  },
  {
   "property": "C78",
   "status": "partial",
   "theorems": [
    "C78_found",
    "C78_only",
    "C78_inspected_partial",
    "C78_unset_refuted"
   ],
   "note": "Refuted: a platform file without PyCompile (or an empty command line) panics with an index out of range. Holds for files written by python inspect."
  },
  {
   "property": "C79",
   "status": "partial",
   "theorems": [
    "C79_no_room_partial",
    "C79_one_by_one_partial",
    "C79_mixed_up_refuted",
    "C79_overwrites_refuted"
   ],
   "note": "Refuted if the slice given to ExternalCompiler has room for five more elements; proved if it has not (as with a literal list of arguments), and for calls one after the other."
  },
  {
   "property": "C80",
   "status": "partial",
   "theorems": [
    "C80_order",
    "C80_during",
    "C80_reported",
    "C80_done",
    "C80_gone_partial",
    "C80_others",
    "C80_tags",
    "C80_cancelled_refuted"
   ],
   "note": "Refuted for a cancelled context: 'docker image rm' runs under the same context, so the image stays. Given a daemon that loads and removes what it is told."
  },
  {
   "property": "C81",
   "status": "partial",
   "theorems": [
    "C81_steady_partial",
    "C81_special",
    "C81_missing",
    "C81_changed_refuted",
    "C81_written",
    "C81_squash"
   ],
   "note": "Refuted for regular files that are replaced between two reads: they are opened anew each time."
  },
  {
   "property": "C82",
   "status": "proved",
   "theorems": [
    "C82_cases",
    "C82_usage",
    "C82_usage_harmless",
    "C82_help",
    "C82_run",
    "C82_group",
    "C82_message"
   ],
   "note": "The command-line library (cobra) is represented by its answers, over which the theorems quantify."
  },
  {
   "property": "C83",
   "status": "proved",
   "theorems": [
    "C83_visit",
    "C83_order",
    "C83_links",
    "C83_attribute",
    "C83_no_attribute"
   ],
   "note": ""
  },
  {
   "property": "C84",
   "status": "proved",
   "theorems": [
    "C84_generated",
    "C84_canonical",
    "C84_reached",
    "C84_dice",
    "C84_operators"
   ],
   "note": ""
  },
  {
   "property": "C85",
   "status": "partial",
   "theorems": [
    "C85_equal",
    "C85_equal_reports",
    "C85_check_partial",
    "C85_actual_partial",
    "C85_actual_reports_partial",
    "C85_check_refuted"
   ],
   "note": "Proved for QuickCheckEqual, and for QuickCheck with one case of a function of one argument. Refuted otherwise: QuickCheck passes tc[i] instead of tc[j], so it panics from the second case of a one-argument function on and tests other values than given; what it does is proved exactly."
  },
  {
   "property": "C86",
   "status": "partial",
   "theorems": [
    "C86_words_partial",
    "C86_columns_partial",
    "C86_topics_refuted",
    "C86_topics_partial",
    "C86_sections_partial",
    "C86_width_partial"
   ],
   "note": "Words: for all commands and widths. Columns: for commands, and for the first lines of help topics, if the width leaves 24 characters for the description (or is 0). Refuted for the further lines of help topics, which are indented by the width of the names, not of the paths."
  },
  {
   "property": "C87",
   "status": "proved",
   "theorems": [
    "C87_result",
    "C87_reports",
    "C87_details"
   ],
   "note": "spew, tabwriter and difflib are parameters; the full dump of different layers is assumed different."
  },
  {
   "property": "C88",
   "status": "partial",
   "theorems": [
    "C88_refs_partial",
    "C88_marker_refuted",
    "C88_file_above_refuted",
    "C88_absolute_refuted",
    "C88_dir_partial",
    "C88_prefix_refuted",
    "C88_wheel_partial",
    "C88_same_files"
   ],
   "note": "Clean relative names without marker names, no files in the place of directories, clean prefixes; without these the claim is false (refuted: markers, file above another, absolute names, prefix with a trailing slash). Wheels under the conditions of C53."
  },
  {
   "property": "C89",
   "status": "partial",
   "theorems": [
    "C89_nothing_new",
    "C89_sources_partial",
    "C89_through_links_partial",
    "C89_root_refuted"
   ],
   "note": "That nothing new comes out holds for every stack. The paths: for stacks not written through links, and through links that do not lead to the root directory itself. With a link to the root directory an entry can come out at a path where its links do not lead (C89_root_refuted)."
  },
  {
   "property": "C90",
   "status": "proved",
   "theorems": [
    "C90_content",
    "C90_reason",
    "C90_signature",
    "C90_requests",
    "C90_page"
   ],
   "note": "The network, the HTML parser and the hash functions are parameters; redirects are part of the network."
  },
  {
   "property": "C91",
   "status": "proved",
   "theorems": [
    "C91_packages",
    "C91_files"
   ],
   "note": "Proved for documents as an HTML parser gives them (html_page)."
  },
  {
   "property": "C92",
   "status": "partial",
   "theorems": [
    "C92_overlay",
    "C92_one_answer",
    "C92_squash_partial",
    "C92_through_partial",
    "C92_through_reads_partial",
    "C92_open_partial",
    "C92_rest_partial",
    "C92_links_refuted",
    "C92_refs_partial",
    "C92_dir_partial",
    "C92_wheel_partial",
    "C92_program_partial"
   ],
   "note": "C92_overlay and C92_one_answer say for every base and every layer in tree form what is at each path. Squashing, Load/Open and the layers made from references, directories and wheels: for base images and layers that are not written through links (wheels and directories on disk bring all directories, so links in their place do no harm). Squashing, Load, Open and Read also through links of the base image (C92_through_partial, C92_through_reads_partial): the files are at the places to which the links lead, and are read under every name that leads there. Refuted: a layer with two paths that a link of the base image makes the same."
  },
  {
   "property": "C93",
   "status": "partial",
   "theorems": [
    "C93_hook_partial",
    "C93_recorded_partial",
    "C93_installed_partial",
    "C93_twice_refuted"
   ],
   "note": "Refuted: a file whose name climbs out of the root directory can have a second row of the same name. Proved for files with clean names inside the image (see C56). If the hooks are in the other order RECORD does not have the file."
  },
  {
   "property": "C94",
   "status": "proved",
   "theorems": [
    "C94_kinds"
   ],
   "note": "Letters: of the parts of a public version only pre-release and development numbers are spelled with one of a, b, c, d."
  },
  {
   "property": "C95",
   "status": "partial",
   "theorems": [
    "C95_layer_partial",
    "C95_request",
    "C95_succeeds_partial",
    "C95_absolute_refuted",
    "C95_chown_refuted"
   ],
   "note": "Proved for clean relative prefixes, except for the owners of the files: the --chown flags have no effect (see C41). With an absolute prefix the command does not end (see C42)."
  },
  {
   "property": "C96",
   "status": "partial",
   "theorems": [
    "C96_arguments",
    "C96_environment",
    "C96_outcome",
    "C96_layer_partial",
    "C96_owner_refuted",
    "C96_again"
   ],
   "note": "Proved except for the owners: the programs keep the owner of the build host (see C41)."
  },
  {
   "property": "C97",
   "status": "partial",
   "theorems": [
    "C97_written_partial",
    "C97_succeeds_partial",
    "C97_errors_partial",
    "C97_crash_partial",
    "C97_no_crash_refuted"
   ],
   "note": "Proved for every result of opening the files: what is written, when, and what errors mean. Refuted that it never crashes: if the configuration of the base cannot be read and a configuration flag is given, the error is ignored and a nil pointer is used (C97_crash_partial tells exactly when). Opening files and writing the archive are parameters."
  },
  {
   "property": "C98",
   "status": "proved",
   "theorems": [
    "C98_man",
    "C98_mddoc",
    "C98_only_pages",
    "C98_stuck",
    "C98_succeeds",
    "C98_program"
   ],
   "note": "The texts of pages are a parameter; which commands have a page is modelled from cobra/doc. The tree of commands of this program is data (its pages are the files of userdocs). Two commands next to each other have different names."
  },
  {
   "property": "C99",
   "status": "partial",
   "theorems": [
    "C99_inner_partial",
    "C99_links_apart_partial",
    "C99_replaced_link_refuted",
    "C99_removed_link_refuted",
    "C99_recreated_refuted"
   ],
   "note": "Proved when neither step writes through symbolic links and no directory entry follows a whiteout of its path within the run; in terms of the stack alone, when nothing is put below a link and no link is replaced by a directory. Refuted: a link replaced by a file and then by a directory (the opaque marker added is followed through the link of the lower layers and deletes files elsewhere), a file added through a link that is then removed, a directory deleted and created again. The beginning of a stack may always be squashed first: C27."
  },
  {
   "property": "C100",
   "status": "proved",
   "theorems": [
    "C100_plain",
    "C100_files"
   ],
   "note": "Proved for all archives without conditions on names; C100_files says which files of the archive they are and which have mode 0755."
  },
  {
   "property": "C101",
   "status": "partial",
   "theorems": [
    "C101_python_partial",
    "C101_parsers",
    "C101_header_refuted",
    "C101_empty_refuted",
    "C101_default_refuted",
    "C101_bytes_refuted"
   ],
   "note": "Proved for ASCII texts whose lines are of the kinds both know (agreed_line), without inline comment prefixes and with empty lines in values, as both parsers of the repository are set. Refuted for a header with text behind it, empty names, the section DEFAULT, the four ASCII separators that only Python takes for white space, and carriage returns inside lines."
  },
  {
   "property": "C102",
   "status": "partial",
   "theorems": [
    "C102_scripts_partial",
    "C102_refused_partial",
    "C102_default_refuted",
    "C102_header_refuted"
   ],
   "note": "From C49 and C101: for ASCII texts whose lines are of the kinds that both readers know (agreed_text), names of scripts that do not collide, and objects without dots. Refuted for a section DEFAULT, whose entries Python has in every section, and for headers with text behind them."
  },
  {
   "property": "C103",
   "status": "partial",
   "theorems": [
    "C103_python_partial",
    "C103_normalize",
    "C103_tags",
    "C103_project_refuted",
    "C103_empty_refuted",
    "C103_build_refuted"
   ],
   "note": "Proved for ASCII names whose fields are not empty, whose project name Python accepts and whose build number is below 2^63; normalization and expansion of tags agree for all texts. Refuted: ParseFilename takes project names with other characters or '__', refuses empty tags that Python takes, and maps all build numbers from 2^63 on to one."
  },
  {
   "property": "C104",
   "status": "partial",
   "theorems": [
    "C104_pep440_partial",
    "C104_exact_partial",
    "C104_prerelease_refuted"
   ],
   "note": "Proved for all texts of clauses whose local numbers did not wrap, with the exact list of deviations: '<= V' refuses local versions of V, '< V' admits pre-releases of V, '> V' admits post-releases and local versions of V; refuted for '<' here and for the others in C12. A blank is asked for after '<' and '>' (see C07)."
  },
  {
   "property": "C105",
   "status": "partial",
   "theorems": [
    "C105_open_partial",
    "C105_any_partial",
    "C105_marker_refuted",
    "C105_read_partial",
    "C105_stat_partial",
    "C105_list_partial",
    "C105_list_any_partial",
    "C105_dangling_partial",
    "C105_dangling_any_partial"
   ],
   "note": "Proved for images, also written through links and with links to '/', that have no whiteout names in link texts, for names without whiteout names: Open gives the same result or error at every depth of recursion, Stat the same apart from the name, files have the same content (C105_any_partial), directories the same entries with the same descriptions if ReadDir meets no entry that leads nowhere (C105_list_any_partial), otherwise ReadDir fails at first in both (C105_dangling_any_partial). Without links to '/' also: Stat gives the same name, and all of this in terms of the unpacked stack. Refuted for a link to the name of a whiteout."
  }
 ]
}