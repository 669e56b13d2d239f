{
 "claims": [
  {
   "property": "C01",
   "status": "proved",
   "theorems": [
    "C01_valid_id"
   ],
   "note": "Prefix ends in '/', as the configuration reader demands."
  },
  {
   "property": "C02",
   "status": "proved",
   "theorems": [
    "C02_readback",
    "C02_history"
   ],
   "note": "Exact list for inserts into an appendix; set of entries for any history with housekeeping, other processes and crashes (fewer than 2^38 inserts)."
  },
  {
   "property": "C03",
   "status": "proved",
   "theorems": [
    "C03_order",
    "C08_housekeeping"
   ],
   "note": ""
  },
  {
   "property": "C04",
   "status": "partial",
   "theorems": [
    "C04_C05_C06_lookup_partial",
    "C07_prefix_partial",
    "C04_C07_unsorted",
    "C04_refuted"
   ],
   "note": "False in general: the search of the housekept file can start inside the bucket table, whose words are then reported as records. Proved for all other keys."
  },
  {
   "property": "C05",
   "status": "partial",
   "theorems": [
    "C04_C05_C06_lookup_partial",
    "C04_C07_unsorted",
    "C05_refuted"
   ],
   "note": "False in general: see C04; a stored identifier can be missed after housekeeping."
  },
  {
   "property": "C06",
   "status": "partial",
   "theorems": [
    "C04_C05_C06_lookup_partial",
    "C04_C07_unsorted",
    "C06_refuted"
   ],
   "note": "False in general: see C04; the seek target can be negative and the assertion on fseeko(3) fails."
  },
  {
   "property": "C07",
   "status": "partial",
   "theorems": [
    "C07_prefix_partial",
    "C04_C07_unsorted",
    "C07_refuted"
   ],
   "note": "False in general: see C04; a short prefix is also missed if its bucket is empty."
  },
  {
   "property": "C08",
   "status": "proved",
   "theorems": [
    "C08_housekeeping"
   ],
   "note": "Fewer than 2^38 inserts."
  },
  {
   "property": "C09",
   "status": "proved",
   "theorems": [
    "C09_incremental"
   ],
   "note": ""
  },
  {
   "property": "C10",
   "status": "proved",
   "theorems": [
    "C02_history",
    "C10_crash"
   ],
   "note": "Crash points are between system calls; write-back order of the disk is not modelled."
  },
  {
   "property": "C11",
   "status": "proved",
   "theorems": [
    "C11_one_housekeeper"
   ],
   "note": ""
  },
  {
   "property": "C12",
   "status": "partial",
   "theorems": [
    "C12_concurrent_insert_partial",
    "C02_history",
    "C12_refuted"
   ],
   "note": "False if a whole housekeeping run falls between an insert's open(2) and write(2)."
  },
  {
   "property": "C13",
   "status": "partial",
   "theorems": [
    "C13_concurrent_lookup_partial",
    "C13_refuted"
   ],
   "note": "False if the housekeep file is removed while the lookup is between opening the sorted file and the housekeep file."
  },
  {
   "property": "C14",
   "status": "proved",
   "theorems": [
    "C14_map",
    "C14_refused"
   ],
   "note": ""
  },
  {
   "property": "C15",
   "status": "proved",
   "theorems": [
    "C15_roundtrip",
    "C15_parse"
   ],
   "note": "Values may be empty and may contain LF; CR and NUL are excluded."
  },
  {
   "property": "C16",
   "status": "partial",
   "theorems": [
    "C16_roundtrip",
    "C16_digits",
    "C16_refused_partial",
    "C16_refuted"
   ],
   "note": "False for the empty value (read as 0) and for numerals of 2^63 and above (signed overflow)."
  },
  {
   "property": "C17",
   "status": "proved",
   "theorems": [
    "C17_payload",
    "C17_metadata",
    "C17_metadata_text",
    "C17_size"
   ],
   "note": "SHA256 is a parameter giving 64 hex digits."
  },
  {
   "property": "C18",
   "status": "proved",
   "theorems": [
    "C18_names",
    "C18_blocks",
    "C18_parent"
   ],
   "note": "For every directory, every silo number and every basename pattern of the form pre%0<w>upost; hold files never coincide with silos."
  },
  {
   "property": "C19",
   "status": "proved",
   "theorems": [
    "C19_iter",
    "C19_visited"
   ],
   "note": "For every set of existing directories and files, every callback verdict; 32 bit silo numbers."
  },
  {
   "property": "C20",
   "status": "proved",
   "theorems": [
    "C20_max_size"
   ],
   "note": "Every state reachable from an empty archive by any interleaving and killing of stores and gets."
  },
  {
   "property": "C21",
   "status": "proved",
   "theorems": [
    "C21_append_only",
    "C21_entries"
   ],
   "note": "Silos and index entries only grow; write protected silos do not change."
  },
  {
   "property": "C22",
   "status": "proved",
   "theorems": [
    "C22_locks"
   ],
   "note": "Every call that changes a hold file, a silo or the index entries of a number is made by the process that created the hold file."
  },
  {
   "property": "C23",
   "status": "proved",
   "theorems": [
    "C22_locks",
    "C23_offsets"
   ],
   "note": ""
  },
  {
   "property": "C24",
   "status": "partial",
   "theorems": [
    "C24_get_partial",
    "C24_get_among_partial",
    "C24_get_gzip_partial",
    "C24_refuted_equal",
    "C24_refuted_eight"
   ],
   "note": "False in general: an object with equal segments, or whose segments share eight digits with something else, cannot be retrieved. Proved for all archives without such clashes, at any later time and while other commands run."
  },
  {
   "property": "C25",
   "status": "partial",
   "theorems": [
    "C25_again_partial",
    "C25_again_among_partial",
    "C25_again_succeeds_partial",
    "C25_again_any_size_partial",
    "C25_refuted_race"
   ],
   "note": "Proved for archives without digit clashes (see C24), alone or among others. That the second store succeeds is proved when it runs alone and without -i (C25_again_succeeds_partial, C25_again_any_size_partial). Two stores of the same object at the same time store it twice (C25_refuted_race)."
  },
  {
   "property": "C26",
   "status": "partial",
   "theorems": [
    "C26_segments",
    "C26_pieces",
    "C26_refuted_split"
   ],
   "note": "Segments concatenate to the input and carry the right numbers, digests and lengths; the identifier does not depend on the pieces. Where the object is split does (C26_refuted_split)."
  },
  {
   "property": "C27",
   "status": "proved",
   "theorems": [
    "C27_index"
   ],
   "note": ""
  },
  {
   "property": "C28",
   "status": "partial",
   "theorems": [
    "C28_stays_partial",
    "C24_get_partial",
    "C28_refuted_stuck",
    "C28_refuted_lost"
   ],
   "note": "What was stored before stays stored and retrievable. False for the interrupted object: it may abort for ever, or be reported as stored and not be retrievable."
  },
  {
   "property": "C29",
   "status": "partial",
   "theorems": [
    "C29_rebuild",
    "C29_settled",
    "C29_refuted_twice",
    "C29_refuted_crossed"
   ],
   "note": "Proved for every archive reached by any interleaving of stores and gets which all ended, silos in any order, empty or partly filled index, if no segment of an object is there twice. Refuted without that: objects stored twice at the same time make reindex abort or lose entries."
  },
  {
   "property": "C30",
   "status": "partial",
   "theorems": [
    "C30_filter_partial",
    "C30_refuses",
    "C30_archive_partial",
    "C30_silos_partial",
    "C30_refuted_upper",
    "C30_refuted_short",
    "C30_refuted_there",
    "C30_refuted_missing"
   ],
   "note": "The full statement is false of the code: upper-case identifiers, id.size below 24 and identifiers which share 24 digits give wrong answers (refuted theorems). Proved: for identifiers in lower case with 24 digits or more, exactly the right lines are printed in order, for every input, every index history and every sorting algorithm, where an identifier is there when something is listed under its first 24 digits, or with -s when its record is in a silo and no other identifier shares its 24 digits."
  },
  {
   "property": "C31",
   "status": "proved",
   "theorems": [
    "C31_frames",
    "C31_broken",
    "C31_limit"
   ],
   "note": "Every frame sequence, every split of payload reads, every point of disconnection; C31_limit shows what happens at 4 GiB and above."
  },
  {
   "property": "C32",
   "status": "partial",
   "theorems": [
    "C32_exchange",
    "C32_stowed_partial",
    "C32_no_failure_partial",
    "C32_goes_on_partial",
    "C32_finite",
    "C32_there_refuted",
    "C32_empty_refuted",
    "C32_late_refuted"
   ],
   "note": "In every state of every interleaving: files are answered in order, each once and truthfully, and what has been transferred is an initial part of those reported missing, in order (C32_exchange). Complete transfer at the end, freedom from failure and from deadlock are proved if the tree itself is not found in the archive; the exchange is finite. False without that, for files become empty, and after STOWED if the end of the filter is noticed late (three refutations). The connection has no bound on frames in the model."
  },
  {
   "property": "C33",
   "status": "partial",
   "theorems": [
    "C33_member",
    "C33_stitch_partial",
    "C33_large",
    "C33_refuted"
   ],
   "note": "Proved with the RFC 1951/1952 decoder for any number of segments and any chunking if all segments but the first hold less than 2^32 bytes. For a later segment of 2^32 bytes or more the claim is false (C33_refuted, C33_large): the length given to crc32_combine is truncated to 32 bits."
  },
  {
   "property": "C34",
   "status": "partial",
   "theorems": [
    "C34_roundtrip",
    "C34_vsb",
    "C34_bounds_partial",
    "C34_bounds_refuted"
   ],
   "note": "The length reads back. Reading beyond the buffer is possible for 16 to 23 bytes (C34_bounds_refuted), and only then (C34_bounds_partial)."
  },
  {
   "property": "C35",
   "status": "partial",
   "theorems": [
    "C35_feed_partial",
    "C35_file_partial",
    "C35_feed_refuted",
    "C35_file_refuted",
    "C35_nul_refuted"
   ],
   "note": "Proved for NUL-free streams whose lines fit the buffer, fed in any pieces. The second half of the claim (longer lines are reported) is false of the code: VLU_Feed never returns and VLU_Fd reports end of file; with NUL bytes the lines depend on the cutting. Refutations proved."
  },
  {
   "property": "C36",
   "status": "partial",
   "theorems": [
    "C36_auto",
    "C36_alloc_partial",
    "C36_alloc_refuted",
    "C36_fixed"
   ],
   "note": "Every operation sequence over bcat, cat, printf, putc, clear, indent: exact content, never a write outside, overflow of fixed buffers reported. With failing allocations printf truncates silently (refuted); other operations report. VSB_quote is C65; vsnprintf is taken to produce a given text."
  },
  {
   "property": "C37",
   "status": "partial",
   "theorems": [
    "C37_parse_partial",
    "C37_find",
    "C37_get",
    "C37_comment",
    "C37_blank",
    "C37_last",
    "C37_bytes",
    "C37_refuted",
    "C37_words_refuted"
   ],
   "note": "Proved for files of well-formed lines (any spacing and comments); lookup and comment/blank/newline invariance for all files. For files with a malformed line the claim is false of the code: the rest of the file is ignored and defaults are used (refuted)."
  },
  {
   "property": "C38",
   "status": "proved",
   "theorems": [
    "C38_cache"
   ],
   "note": ""
  },
  {
   "property": "C39",
   "status": "partial",
   "theorems": [
    "C39_no_gaps_partial",
    "C39_refuted"
   ],
   "note": "No silo nobody is working on has gaps. But the final header of a store can be longer than the space reserved, and the store aborts (C39_refuted)."
  },
  {
   "property": "C40",
   "status": "partial",
   "theorems": [
    "C40_report_partial",
    "C40_named_partial",
    "C40_sound",
    "C40_clean_partial",
    "C40_rest_partial",
    "C40_refuted_hang",
    "C40_refuted_order",
    "C40_refuted_gap",
    "C40_refuted_damage"
   ],
   "note": "The full statement is false of the code: the audit can run for ever, report a segment missing which is there, skip silos behind a missing number, and abort on damage (refuted theorems). Proved: every report that is printed is true, for any files and also damaged ones, in both directions for every record and every object; no complaint means nothing is wrong; after any histories which have come to their end the audit ends, visits all silos and complains about nothing, if nothing was stored twice, numbers have no gap, segments are in order and metadata identifiers were not forced."
  },
  {
   "property": "C41",
   "status": "proved",
   "theorems": [
    "C41_header_len"
   ],
   "note": ""
  },
  {
   "property": "C42",
   "status": "proved",
   "theorems": [
    "C42_accepted",
    "C42_settings"
   ],
   "note": "For all configurations and all behaviours of strtoul, VNUM_2bytes and fmtcheck."
  },
  {
   "property": "C43",
   "status": "proved",
   "theorems": [
    "C43_refers"
   ],
   "note": "In states without holds (no command active or interrupted in the middle)."
  },
  {
   "property": "C44",
   "status": "proved",
   "theorems": [
    "C44_digest"
   ],
   "note": "Plain delivery. In states without holds."
  },
  {
   "property": "C45",
   "status": "partial",
   "theorems": [
    "C24_get_among_partial",
    "C45_refuted_store",
    "C45_refuted_get"
   ],
   "note": "False: a store fails if another creates the silo it was about to create; a get of an object just being stored aborts. True of gets of what was there before (C24_get_among_partial)."
  },
  {
   "property": "C46",
   "status": "partial",
   "theorems": [
    "C26_segments",
    "C46_refuted_lost",
    "C46_refuted_form"
   ],
   "note": "False: an identifier in use is printed although nothing is stored; the form with prefix is accepted and then aborts. For unused identifiers see C26_segments."
  },
  {
   "property": "C47",
   "status": "partial",
   "theorems": [
    "C47_room_partial",
    "C47_refuted",
    "C47_gap_refuted"
   ],
   "note": "Proved for a store of one segment running alone, with silos from the first write protected one on left out and up to the tolerance in RoomSpec.v. False in general: after silo 0 is write protected every object gets a silo of its own, and silos behind a gap are passed over."
  },
  {
   "property": "C48",
   "status": "partial",
   "theorems": [
    "C48_named",
    "C48_refuted_plain",
    "C48_refuted_name"
   ],
   "note": "Proved for files named with a directory and a name which begins with the number; refuted for names without a directory and for a configured base name which does not begin with the number."
  },
  {
   "property": "C49",
   "status": "partial",
   "theorems": [
    "C49_listing_partial",
    "C49_printed",
    "C49_cuts_partial",
    "C49_archived_partial",
    "C49_deep",
    "C49_deep_refuted",
    "C49_limit_refuted"
   ],
   "note": "Proved for lines below 8191 bytes and paths below 4095 bytes, and refuted beyond: undefined behaviour for every deeper path, and a line that does not fit ends the listing. C49_archived_partial joins it with C32. Missing: vis(3) decoding when a file is opened."
  },
  {
   "property": "C50",
   "status": "partial",
   "theorems": [
    "C50_rebuild_partial",
    "C50_archive_partial",
    "C50_same_partial",
    "C50_header_refuted",
    "C50_old_refuted",
    "C50_overrun_refuted",
    "C50_lost_refuted",
    "C50_cut_refuted"
   ],
   "note": "Proved for every list of sound silos with headers below BUFSIZ - 1 bytes and old records up to BUFSIZ bytes, and refuted beyond: abort or undefined behaviour for every longer one, and silent loss behind every damage. Missing: headers beginning with WARC/1.0 or with fields in another order; closing of files."
  },
  {
   "property": "C51",
   "status": "partial",
   "theorems": [
    "C51_reply_unique",
    "C51_cgi_partial",
    "C51_type_refuted",
    "C51_body_refuted",
    "C51_accept_refuted",
    "C51_headers_partial"
   ],
   "note": "Proved for every history after which all commands have ended and identifiers are unambiguous, for declared types without LF; refuted for types with LF (fields or a body of their own in the reply) and for clients which refuse gzip. The wording of the error page is C62."
  },
  {
   "property": "C52",
   "status": "partial",
   "theorems": [
    "C52_unique",
    "C52_dump_partial",
    "C52_archive",
    "C52_sorted",
    "C52_usage",
    "C52_abort",
    "C52_segmented_refuted",
    "C52_prefix_refuted"
   ],
   "note": "Proved for every history of the index where the lookup is faithful (C07), exactly once per record for archives at rest before housekeeping, in order after it. Refuted: -t hides objects in segments, identifiers with the prefix abort. Missing: how often a line is printed after interrupted housekeeping."
  },
  {
   "property": "C53",
   "status": "partial",
   "theorems": [
    "C53_byid_partial",
    "C53_begin",
    "C53_stop",
    "C53_stored",
    "C53_long_refuted",
    "C53_busy_refuted"
   ],
   "note": "Proved when all commands have ended, up to 24 digits per argument and up to status 255; refuted for longer arguments and during a store."
  },
  {
   "property": "C54",
   "status": "partial",
   "theorems": [
    "C54_exact_partial",
    "C54_exponent_partial",
    "C54_point",
    "C54_nearest",
    "C54_whole",
    "C54_form",
    "C54_defaults",
    "C54_config",
    "C54_negative_refuted",
    "C54_precision_refuted",
    "C54_fraction_refuted"
   ],
   "note": "Proved for all sizes which say a whole number of bytes below 2^49 (any whole number below 2^64 if there is no fraction) with digits below 2^53 - 48; refuted for negative sizes (undefined behaviour), for digits near 2^53, and for fractions without a unit. With an exponent the same, if it adds at most fifteen zeros (C54_exponent_partial). Missing: larger exponents."
  },
  {
   "property": "C55",
   "status": "partial",
   "theorems": [
    "C55_store_succeeds_partial",
    "C55_store_any_size_partial",
    "C55_compressed_refuted"
   ],
   "note": "For objects of any number of segments, as long as none is as long as ten times silo.max_size, without -i, under what LiveSpec.v and BigSpec.v expect of zlib (C55_store_any_size_partial); for objects of up to about an eighth of a silo with LiveSpec.v alone. With -i see C46, with other commands running C45, after an interrupted one C28. Without the bound on segments it fails: C55_compressed_refuted."
  },
  {
   "property": "C56",
   "status": "partial",
   "theorems": [
    "C56_accepted",
    "C56_refused_partial",
    "C56_reference",
    "C56_read_refuted"
   ],
   "note": "All command lines. A read error in the middle of the input is taken for its end (C56_read_refuted)."
  },
  {
   "property": "C57",
   "status": "partial",
   "theorems": [
    "C57_main_partial",
    "C57_other_refuted",
    "C57_home_refuted"
   ],
   "note": "Exact condition for a command to be run. A faulty configuration file is passed over without a message (C57_other_refuted); very long HOME aborts (C57_home_refuted)."
  },
  {
   "property": "C58",
   "status": "partial",
   "theorems": [
    "C58_made",
    "C58_once",
    "C58_free",
    "C58_taken",
    "C58_race_refuted",
    "C58_number_partial",
    "C58_refused",
    "C58_text_refuted",
    "C58_wraps"
   ],
   "note": "Proved: the silo is there after success, at most one success per number, run alone it succeeds exactly if the number is free, all C notations of numbers below 2^32. Refuted: a failing mksilo can leave its hold file and a duplicate index entry; texts which are not numbers, and numbers of 2^32 and more, make some silo instead of being refused. Number 2^32-1 is outside the model."
  },
  {
   "property": "C59",
   "status": "partial",
   "theorems": [
    "C59_delivers_partial",
    "C59_gzip_partial",
    "C59_roundtrip_partial",
    "C59_refused",
    "C59_unknown",
    "C59_invalid",
    "C59_emptied_refuted",
    "C59_unopened_refuted"
   ],
   "note": "Proved for every form of command line, under the conditions of C24 (unambiguous digits, one content per identifier). Refuted: get -o of an unknown identifier empties the file, and a file which cannot be opened leads to undefined behaviour. Errors when writing are not modelled."
  },
  {
   "property": "C60",
   "status": "partial",
   "theorems": [
    "C60_answers_partial",
    "C60_silos_partial",
    "C60_refused",
    "C60_bad_line",
    "C60_unreadable",
    "C60_unwritable",
    "C60_overwritten_refuted",
    "C60_emptied_refuted"
   ],
   "note": "Proved for every form of command line under the conditions of C30 (lower case, 24 digits). Refuted: filter -o f f empties f and reports success; after a failure the file of -o is empty. Two names are taken to be two files; writing does not fail."
  },
  {
   "property": "C61",
   "status": "partial",
   "theorems": [
    "C61_byid_partial",
    "C61_byid_refused",
    "C61_dump_partial",
    "C61_dump_refused",
    "C61_housekeeping",
    "C61_housekeeping_refused",
    "C61_housekeeping_refuted",
    "C61_info",
    "C61_info_refused",
    "C61_testbytes",
    "C61_testbytes_none",
    "C61_testbytes_refused",
    "C61_testbytes_refuted"
   ],
   "note": "byid and dumpindex under the conditions of C53 and C52; the rest for all arguments. Refuted for operands of housekeeping (which its usage text shows as allowed) and _testbytes: they abort."
  },
  {
   "property": "C62",
   "status": "partial",
   "theorems": [
    "C62_refused",
    "C62_pages",
    "C62_served_partial",
    "C62_fault_total",
    "C62_fault_unique",
    "C62_fault_invalid",
    "C62_fault",
    "C62_unknown",
    "C62_warcinfo_partial",
    "C62_continuation_partial"
   ],
   "note": "The fixed pages, refusals and faults of identifiers without any condition; not found when all commands have ended; the other reasons if digits are unambiguous (apart); serving under the conditions of C51."
  },
  {
   "property": "C63",
   "status": "partial",
   "theorems": [
    "C63_audit_partial",
    "C63_audit_archive_partial",
    "C63_audit_refused",
    "C63_audit_status_refuted",
    "C63_audit_missing_refuted",
    "C63_audit_stops_refuted",
    "C63_audit_option_refuted",
    "C63_reindex",
    "C63_reindex_files",
    "C63_reindex_refused",
    "C63_reindex_silent_refuted",
    "C63_rebuild_partial",
    "C63_rebuild_archive_partial",
    "C63_rebuild_refused",
    "C63_rebuild_missing_refuted"
   ],
   "note": "What is done to which files, from the arguments on, under the conditions of C40, C29, C48 and C50. The exit status of reindex with operands is right; that of the others is refuted."
  },
  {
   "property": "C64",
   "status": "partial",
   "theorems": [
    "C64_alone_partial",
    "C64_among_partial",
    "C64_relative_refuted",
    "C64_double_refuted",
    "C64_blocked_refuted",
    "C64_race_refuted"
   ],
   "note": "Proved for a directory written with single slashes, of which the first name exists if it is not absolute, and no file in the way; without each of these, and for the report of failure with others at work, it is refuted."
  },
  {
   "property": "C65",
   "status": "partial",
   "theorems": [
    "C65_plain_partial",
    "C65_cstr_partial",
    "C65_text_unique",
    "C65_literals_unique",
    "C65_hex_partial",
    "C65_line",
    "C65_char_refuted",
    "C65_zeros_refuted",
    "C65_eschex_refuted",
    "C65_json_refuted"
   ],
   "note": "Proved for bytes below 128 and 255 without VSB_QUOTE_ESCHEX, and for all bytes with VSB_QUOTE_HEX but runs of more than four zeros. Refuted beyond: undefined behaviour for every byte from 128 to 254, ambiguous texts with ESCHEX and for zeros, JSON without quotes."
  },
  {
   "property": "C66",
   "status": "proved",
   "theorems": [
    "C66_apart",
    "C66_inside",
    "C66_no_directory",
    "C66_free"
   ],
   "note": "For silo.basename of the form pre%0<width>upost, as in C18; symbolic links are not modelled."
  },
  {
   "property": "C67",
   "status": "proved",
   "theorems": [
    "C67_written",
    "C67_date",
    "C67_read",
    "C67_order",
    "C67_ok",
    "C67_header",
    "C67_later_refuted"
   ],
   "note": "For clocks from 1970 on; gmtime_r(3) and strftime(3) are modelled. The header as written and read holds the date (C67_header); in the model of storing the date is a text of the world, to which C67_ok applies. From the year 10000 on the assertion on the length fails (C67_later_refuted)."
  },
  {
   "property": "C68",
   "status": "proved",
   "theorems": [
    "C68_list",
    "C68_unique",
    "C68_quiet"
   ],
   "note": "For every configuration which can be read, also with malformed lines."
  }
 ]
}