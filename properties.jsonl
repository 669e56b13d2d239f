{"id": "C01", "title": "Identifier validation accepts exactly the archive's identifiers", "statement": "An identifier given by the user is accepted exactly when, after optionally removing the archive's own URL prefix (letter case ignored), what is left is exactly id_size hexadecimal digits; the short identifier returned is those digits. Everything else is refused with a reason.", "quantifier": "every string, every archive prefix that contains no hex-only ambiguity (ends in '/'), every id_size", "why_tests_cant": "The set of strings is infinite; tests sample a handful of malformed ids.", "anchors": ["index.c:IDX_Valid_Id"]}
{"id": "C02", "title": "An index record read back is the index record inserted", "statement": "When a record (key, flags, silo number, offset, continuation) has been inserted, iterating the index hands the callback the first 24 digits of the key in lower case, the same flags, silo and offset, and the first 8 digits of the continuation (or eight zeros if there is none).", "quantifier": "every hex key of at least 24 digits, all 32-bit flags and silo numbers, all 63-bit offsets, every continuation", "why_tests_cant": "2^200 possible records; field-order and endianness mistakes show only for values tests do not use.", "anchors": ["index.c:IDX_Insert", "index.c:IDX_Iter", "index.c:idx_key_bin", "vend.h"]}
{"id": "C03", "title": "Index order is identifier order", "statement": "Two index records compare in the housekept file exactly as their identifiers compare as lower-case hex strings.", "quantifier": "every pair of hex keys", "why_tests_cant": "All pairs of keys.", "anchors": ["index.c:idx_key_bin", "index.c:idx_merge"]}
{"id": "C04", "title": "Lookup reports only records that match", "statement": "A lookup for an identifier or identifier prefix reports only records that were inserted and whose key begins with the prefix asked for (letter case ignored).", "quantifier": "every index content, every prefix", "why_tests_cant": "Depends on the interaction of bucket table, file layout and keys, for every index content.", "anchors": ["index.c:IDX_Iter", "index.c:bucket_seek"]}
{"id": "C05", "title": "Lookup finds every record", "statement": "A lookup for an identifier reports every record inserted with that key, whether it is still in the appendix, being housekept or in the sorted file.", "quantifier": "every set of records, every housekeeping state, every key", "why_tests_cant": "The failing cases depend on where keys fall relative to bucket boundaries and the table header.", "anchors": ["index.c:IDX_Iter", "index.c:bucket_seek", "index.c:bucket_update", "index.c:bucket_new"]}
{"id": "C06", "title": "Lookup never crashes the program", "statement": "Looking up an identifier that is not in the archive reports 'not found' and does not abort the process.", "quantifier": "every index content, every well-formed identifier", "why_tests_cant": "The offending combinations are sparse among all index contents.", "anchors": ["index.c:bucket_seek", "index.c:IDX_Iter"]}
{"id": "C07", "title": "Prefix lookup finds every object with that prefix", "statement": "A lookup with a short prefix reports every record whose key starts with it.", "quantifier": "every index content, every prefix length", "why_tests_cant": "Needs all positions of the prefix relative to the bucket table.", "anchors": ["index.c:bucket_seek", "main_byid.c", "main_dumpindex.c"]}
{"id": "C08", "title": "Housekeeping keeps exactly the records", "statement": "Index housekeeping leaves an index holding exactly the same set of records as before (none lost, none invented), sorted, with the appendix emptied, for whatever memory budget the sort is given.", "quantifier": "every index content (sorted part and appendix), every sort-size setting", "why_tests_cant": "All contents times all chunk sizes.", "anchors": ["index.c:idx_merge", "index.c:idx_attempt_merge", "index.c:IDX_Resort"]}
{"id": "C09", "title": "Housekeeping merges incrementally", "statement": "A record equal to one already in the sorted file is not added a second time; repeating housekeeping on an unchanged index changes nothing.", "quantifier": "every index content", "why_tests_cant": "All contents.", "anchors": ["index.c:idx_merge"]}
{"id": "C10", "title": "Housekeeping survives a crash at any point", "statement": "If the machine stops at any point during housekeeping, every record that was visible to lookups before is still visible, and after removing the stale lock a new housekeeping run completes with the same set of records.", "quantifier": "every index content, every crash point, every sequence of crashes and restarts", "why_tests_cant": "Crash points cannot be enumerated by tests, in particular repeated crashes.", "anchors": ["index.c:idx_merge", "index.c:idx_attempt_merge", "index.c:IDX_Resort"]}
{"id": "C11", "title": "Only one housekeeper runs at a time", "statement": "While one process is housekeeping, another process asking for housekeeping returns without touching the index.", "quantifier": "every interleaving of any number of processes", "why_tests_cant": "Schedules.", "anchors": ["index.c:IDX_Resort"]}
{"id": "C12", "title": "Concurrent inserts are not lost to housekeeping", "statement": "A record inserted by one process while another process does housekeeping is in the index afterwards.", "quantifier": "every interleaving of one inserter and one housekeeper", "why_tests_cant": "Schedules; the window is microseconds.", "anchors": ["index.c:IDX_Insert", "index.c:idx_attempt_merge"]}
{"id": "C13", "title": "Concurrent lookups see every record during housekeeping", "statement": "A lookup running while another process does housekeeping sees every record that was in the index when the lookup started.", "quantifier": "every interleaving of one reader and one housekeeper", "why_tests_cant": "Schedules.", "anchors": ["index.c:IDX_Iter", "index.c:idx_attempt_merge"]}
{"id": "C14", "title": "Header fields behave as a case-insensitive map", "statement": "After setting a field, getting it under any letter case gives the value last set, other fields are untouched, deleting removes it, and there is never more than one field of a given name; fields stay in alphabetical order.", "quantifier": "every sequence of set/get/delete operations", "why_tests_cant": "Operation histories.", "anchors": ["header.c:Header_Set", "header.c:Header_Get", "header.c:Header_Delete"]}
{"id": "C15", "title": "A WARC header survives being written and read back", "statement": "Parsing the serialized form of a header gives back the same identifier and the same fields, and serializing that gives the same bytes.", "quantifier": "every header with non-empty field values free of CR, LF and NUL", "why_tests_cant": "All headers.", "anchors": ["header.c:Header_Serialize", "header.c:Header_Parse"]}
{"id": "C16", "title": "Numbers in headers", "statement": "A numeric field written in decimal reads back as the same number for every value the format can carry, and non-numeric values are refused.", "quantifier": "every number and every string value", "why_tests_cant": "All values, including the extremes.", "anchors": ["header.c:Header_Get_Number"]}
{"id": "C17", "title": "Identifier rule", "statement": "The identifier of a resource is the first id_size digits of the digest of its bytes; the identifier of a metadata record depends on exactly the digest and the record it refers to; truncation is uniform so ids are exactly id_size digits.", "quantifier": "every content, every reference, every configured id_size", "why_tests_cant": "All contents.", "anchors": ["ident.c:Ident_Create", "ident.c:Ident_Set"]}
{"id": "C18", "title": "Silo file names are unique and directories stay small", "statement": "Different silo numbers get different file names, and each directory holds exactly one block of 100 consecutive silos.", "quantifier": "every silo number", "why_tests_cant": "Unbounded silo numbers.", "anchors": ["silo.c:Silo_Filename", "silo.c:numpart"]}
{"id": "C19", "title": "Silo iteration visits each silo once, in order", "statement": "Iterating over the silos visits each existing silo whose preceding directories exist exactly once, in increasing order, however many are missing in between.", "quantifier": "every set of existing silos and directories", "why_tests_cant": "Sets of files.", "anchors": ["silo.c:Silo_Iter"]}
{"id": "C20", "title": "Silos never exceed the configured maximum", "statement": "No silo file is ever larger than silo.max_size.", "quantifier": "every sequence of store operations, every object size, every compressor behaviour", "why_tests_cant": "All histories and all compressor outputs.", "anchors": ["wsilo.c:Wsilo_GetSpace", "wsilo.c:Wsilo_Store", "wsilo.c:silo_attempt_append", "segjob.c:SegJob_Feed"]}
{"id": "C21", "title": "Silos are append-only", "statement": "Bytes already in an installed silo never change: every store only adds bytes at the end of an unprotected silo, or creates a new silo; write-protected silos are never changed.", "quantifier": "every history of stores", "why_tests_cant": "Histories.", "anchors": ["wsilo.c:silo_attempt_append", "wsilo.c:Wsilo_Install", "wsilo.c:Wsilo_Commit"]}
{"id": "C22", "title": "Two writers never use the same silo number", "statement": "Of any number of processes creating new silos at the same time each gets its own silo number, and no existing silo is replaced.", "quantifier": "every interleaving", "why_tests_cant": "Schedules.", "anchors": ["wsilo.c:Wsilo_New", "wsilo.c:Wsilo_Next", "wsilo.c:Wsilo_Install"]}
{"id": "C23", "title": "Two appenders never write to the same silo at the same time", "statement": "Of any number of processes appending to the same silo at most one is inside the write, and the offset each enters in the index is where its record starts.", "quantifier": "every interleaving", "why_tests_cant": "Schedules.", "anchors": ["wsilo.c:silo_attempt_append"]}
{"id": "C24", "title": "What is stored can be retrieved", "statement": "After an object has been stored, getting it by the identifier that was returned delivers exactly the bytes stored, however the input was chunked, however many segments it was split into and whatever was stored before or after.", "quantifier": "every history of stores, every content, every chunking", "why_tests_cant": "Histories times contents.", "anchors": ["segjob.c", "getjob.c", "wsilo.c", "rsilo.c", "main_store.c", "main_get.c"]}
{"id": "C25", "title": "Storing again changes nothing", "statement": "Storing content that is already in the archive returns the same identifier and changes neither silos nor index.", "quantifier": "every reachable archive, every content", "why_tests_cant": "Histories.", "anchors": ["segjob.c:SegJob_Commit", "getjob.c:GetJob_New"]}
{"id": "C26", "title": "Segmentation loses nothing", "statement": "The segments an object is split into, in order, concatenate to exactly the input; each carries the right segment number, digest and length, the last one the total length; and the result does not depend on the sizes of the pieces the input arrives in.", "quantifier": "every content, every chunking, every available space per silo, every compressor behaviour", "why_tests_cant": "All chunkings and compressor behaviours.", "anchors": ["segjob.c:SegJob_Feed", "segjob.c:segjob_finishseg", "segjob.c:segjob_newseg"]}
{"id": "C27", "title": "Every index entry points to its record", "statement": "In every archive state reached by completed stores, every index entry names an existing silo and an offset where a record with that identifier starts, and every record in a silo has an index entry.", "quantifier": "every history of completed stores", "why_tests_cant": "Histories.", "anchors": ["wsilo.c:Wsilo_Commit", "wsilo.c:silo_attempt_append", "wsilo.c:Wsilo_Install", "index.c:IDX_Insert"]}
{"id": "C28", "title": "A crash during a store harms nothing", "statement": "If a store is interrupted at any point, every object stored before can still be retrieved and the interrupted object can be stored again.", "quantifier": "every crash point in every store, every prior history", "why_tests_cant": "Crash points.", "anchors": ["wsilo.c:Wsilo_Commit", "wsilo.c:Wsilo_Install", "wsilo.c:silo_attempt_append"]}
{"id": "C29", "title": "Reindex reconstructs the index", "statement": "Rebuilding the index from the silos yields the same set of entries the stores made, including the links between segments, in whatever order the segments are met.", "quantifier": "every set of complete objects, every order of records", "why_tests_cant": "All permutations of segments over silos.", "anchors": ["main_reindex.c"]}
{"id": "C30", "title": "Filter reports exactly the missing identifiers", "statement": "The filter command prints exactly those of the identifiers given that are not in the archive, in the order given.", "quantifier": "every list of identifiers, every index content and order", "why_tests_cant": "All lists times all index orders.", "anchors": ["main_filter.c"]}
{"id": "C31", "title": "Protocol frames survive transmission", "statement": "Any sequence of frames sent by one side is received by the other side as the same sequence of commands and payloads.", "quantifier": "every sequence of frames with payloads below 4 GiB", "why_tests_cant": "All payload lengths, including the length-encoding boundaries.", "anchors": ["proto.c:proto_in", "proto.c:proto_out"]}
{"id": "C32", "title": "Stow sends exactly the missing objects", "statement": "Of the files offered by the client, those transferred are exactly those the server reported missing, each once and in order, however the exchange is batched.", "quantifier": "every list of subjects, every batching, every set of missing ids", "why_tests_cant": "All batchings.", "anchors": ["main_stow.c", "main_stevedore.c"]}
{"id": "C33", "title": "Stitched gzip output", "statement": "Fetching a segmented object compressed produces a single gzip member which decompresses to the whole object with the right length and checksum, independent of the sizes of the chunks read.", "quantifier": "every number of segments, every compressed segment, every chunking", "why_tests_cant": "All chunkings and contents.", "anchors": ["gzip.c:gzip_stitch_feed", "gzip.c:gzip_stitch_fini"]}
{"id": "C34", "title": "Gzip length field", "statement": "The record length stored in the gzip header reads back as the length of the gzip member, and reading never looks beyond the bytes available.", "quantifier": "every length and every buffer", "why_tests_cant": "All lengths/buffer sizes.", "anchors": ["gzip.c:Gzip_WriteAa", "gzip.c:Gzip_ReadAa"]}
{"id": "C35", "title": "Line assembly is independent of read sizes", "statement": "The lines delivered from a stream are the same however the stream is cut into reads, for lines that fit the buffer; longer lines are reported.", "quantifier": "every stream, every cutting", "why_tests_cant": "All cuttings.", "anchors": ["vlu.c"]}
{"id": "C36", "title": "String buffers hold what was appended", "statement": "A dynamic string buffer contains exactly the concatenation of what was appended since it was cleared and never writes outside its allocation; a fixed buffer reports overflow instead.", "quantifier": "every sequence of operations", "why_tests_cant": "All operation sequences.", "anchors": ["vsb.c"]}
{"id": "C37", "title": "Configuration lookup", "statement": "Asking for a configuration value gives the value of the first matching line of the file, or the default if there is none; comments and blank lines never matter; bytes which cannot occur in UTF-8 are refused.", "quantifier": "every configuration file and key", "why_tests_cant": "All files.", "anchors": ["config.c"]}
{"id": "C38", "title": "Silo space cache is conservative", "statement": "The cached silo numbers never hide a usable silo: all silos below the cached first-unused number exist, and the cached first-with-space number never passes a silo that still is tried.", "quantifier": "every history of stores", "why_tests_cant": "Histories.", "anchors": ["wsilo.c:silo_attempt_append", "wsilo.c:Wsilo_Next", "aardwarc.c:AardWARC_ReadCache"]}
{"id": "C39", "title": "Reserved header space is filled exactly", "statement": "When a record is the first in a new silo its final header exactly fills the space reserved for it, so the body follows with no gap.", "quantifier": "every header content and compressed size", "why_tests_cant": "All header sizes.", "anchors": ["wsilo.c:Wsilo_Header", "wsilo.c:Wsilo_Commit"]}
{"id": "C40", "title": "Audit completes and reports the truth", "statement": "Audit terminates on every archive, visits every silo, and reports an object good exactly when all its segments are present and every digest and length agrees.", "quantifier": "every archive content", "why_tests_cant": "All archive contents, including damaged ones.", "anchors": ["main_audit.c"]}
{"id": "C41", "title": "Predicted header line length is exact", "statement": "The number of bytes by which a written WARC header grows when a new field is set is exactly what the length predictor for that field name and value says.", "quantifier": "every header, every field name not yet present, every value", "why_tests_cant": "Space is reserved in a silo from the prediction long before the final header is written; a test samples a few headers, while an off-by-one for any value length leaves a gap or overlap inside an archive file.", "anchors": ["header.c:127-141", "header.c:239-275", "segjob.c:136-145", "wsilo.c:242"]}
{"id": "C42", "title": "An accepted configuration is sane", "statement": "If the program accepts its configuration and starts, then the identifier size is 16..64 digits, the identifier prefix and the silo directory end in a slash, the silo file-name format is a valid number format without a slash, and the index sort size is a multiple of the record size and at least a page; with no file-name format given the documented one is used.", "quantifier": "every configuration file, every behaviour of the number parsers", "why_tests_cant": "Later code relies on these without checking; a test tries a few files.", "anchors": ["aardwarc.c:AardWARC_New", "config.c"]}
{"id": "C43", "title": "Metadata refers to something", "statement": "When a store of metadata has succeeded, the object it was stored for (the -r argument) is in the archive.", "quantifier": "every history of stores and gets, every request, any number of commands at a time, killed at any point", "why_tests_cant": "The reference is checked before the input is read and written long after; whether it can dangle depends on what other commands do and where they are interrupted in between.", "anchors": ["main_store.c", "getjob.c", "wsilo.c"]}
{"id": "C44", "title": "What is delivered has the digest asked for", "statement": "If get of the identifier of a resource succeeds, the bytes delivered have that digest.", "quantifier": "every reachable archive, every identifier, every sequence of segments", "why_tests_cant": "A test checks objects which are delivered correctly; the point is that nothing else is ever delivered with success, whatever the archive has gone through.", "anchors": ["main_get.c", "getjob.c"]}
{"id": "C45", "title": "Commands at the same time do not make each other fail", "statement": "A store or get which would succeed alone also succeeds while others are running.", "quantifier": "every interleaving of system calls", "why_tests_cant": "Needs particular interleavings.", "anchors": ["wsilo.c", "silo.c", "getjob.c"]}
{"id": "C46", "title": "Forced identifiers are honest", "statement": "With an identifier given on the command line, in any form accepted as an identifier, store either stores the input under that identifier or reports an error.", "quantifier": "every archive, every identifier, every input", "why_tests_cant": "Depends on what is in the archive and on every accepted form of the identifier.", "anchors": ["main_store.c", "segjob.c", "ident.c"]}
{"id": "C47", "title": "Free room is used", "statement": "A new silo is begun only if no unprotected silo has room for the record.", "quantifier": "every archive, every set of write protected silos", "why_tests_cant": "Depends on the history of the space cache and of write protection.", "anchors": ["wsilo.c", "silo.c"]}
{"id": "C48", "title": "Reindexing named silo files", "statement": "Given the silo files of an archive as arguments, reindex makes the same index as when it finds the silos itself.", "quantifier": "every archive, every list of its files, every way to name them, every accepted configuration of the names", "why_tests_cant": "Depends on the form of the path and on the configured base name; tests use the default name with a directory.", "anchors": ["main_reindex.c:223", "aardwarc.c:120"]}
{"id": "C49", "title": "Stow reads the listing of the directory right", "statement": "Of a directory, stow offers exactly the files which are not empty, in the order of the listing, each with its directory and digest, and keeps the listing itself; however mtree sets out its listing and in whatever pieces it arrives.", "quantifier": "every tree, every listing of it, every cut into reads", "why_tests_cant": "All cuts of the text into reads, and lines continued, indented and with defaults in every combination; long lines and deep paths.", "anchors": ["main_stow.c:113"]}
{"id": "C50", "title": "Rebuilding silos keeps their records", "statement": "For each silo given, rebuild writes a new one with the same records in the same order: bodies unchanged and stored so that they can be joined, headers unchanged but for the two obsolete length fields, and records of old get the digest and the identifier of their content; or it stops and says why.", "quantifier": "every list of silos of records of any size and age, every way in which zlib delivers and takes data", "why_tests_cant": "A state machine fed with arbitrary pieces of arbitrary gzip members across silos; the faults are at sizes of buffers and at damage in particular places.", "anchors": ["main_rebuild.c:69", "main_rebuild.c:234"]}
{"id": "C51", "title": "The web gateway answers with the object and what was declared of it", "statement": "A GET request for an identifier that store has printed is answered with the type declared when the object was stored, the length of what follows, and the content of the object, compressed only if the client accepts that; get prints the header of the object: identifier, type, length and digest of the whole, and what it is about. Nothing in the archive changes.", "quantifier": "every archive and history of commands, every object in any number of segments, every declared type, every request", "why_tests_cant": "Objects of any size in one record or many, after any history of other commands, and any text as the declared type or as the client's list of encodings.", "anchors": ["main_cgi.c:62", "getjob.c:268", "getjob.c:302", "main_get.c:82"]}
{"id": "C52", "title": "dumpindex shows what is in the index", "statement": "dumpindex prints one line for each index entry that an argument asks for, all of them without arguments, from which identifier, flags, silo, offset and continuation can be read back; with -t only those of records of that type; in the order of identifiers after housekeeping. Other words for -t give the usage.", "quantifier": "every history of the index, every list of arguments, every archive after any history of commands", "why_tests_cant": "The index has any number of entries in a sorted and an unsorted part, with identifiers, silos and offsets of any width, and the text must not be ambiguous for any of them.", "anchors": ["main_dumpindex.c:53", "main_dumpindex.c:74"]}
{"id": "C53", "title": "byid lists the records whose identifier begins as asked", "statement": "byid prints for each argument in turn the identifier and the type of each record of the archive whose identifier begins with the digits given, with or without the prefix, each once; its status is their number, and an argument of another form stops it with an error. What store has printed is listed. Nothing in the archive changes.", "quantifier": "every archive and history of commands, every list of arguments", "why_tests_cant": "Any number of records in any number of silos, stored by any interleaving of commands, and every text as argument.", "anchors": ["main_byid.c:60", "main_byid.c:84"]}
{"id": "C54", "title": "Sizes in the configuration mean what they say", "statement": "A size in the configuration, a number with or without a fraction, a unit and spaces, is read as exactly that number of bytes; text of any other form is refused with a message. The limits in use are those sizes, the one for sorting cut down to a multiple of 32.", "quantifier": "every text, every configuration file, every power function accurate to one unit in the last place", "why_tests_cant": "The code calculates with binary fractions of limited precision; whether the result is exact depends on the number, and there are too many of them.", "anchors": ["vnum.c:52", "vnum.c:99", "aardwarc.c:107", "aardwarc.c:135"]}
{"id": "C55", "title": "A store running alone succeeds", "statement": "In an archive where no command is running and none was interrupted, whatever was stored there before, store prints the identifier of the object, leaves no lock behind, and the object is in the archive with its contents; metadata about an object stored before likewise.", "quantifier": "every history of completed commands, every object and type, every way the input arrives in pieces", "why_tests_cant": "Success depends on the lengths of headers, on the room left in silos and on every piece of input; each of some forty assertions on the way must hold for all of them.", "anchors": ["main_store.c:217", "segjob.c:241", "wsilo.c:486", "index.c:225"]}
{"id": "C56", "title": "store does what its command line asks for, or nothing", "statement": "However options and operands of store are written, it stores the whole of the input as the type, with the media type, the reference and the identifier asked for, if the configuration allows the media type and the options make sense together; otherwise, and if the object referred to is not there, it exits with an error and nothing in the archive changes.", "quantifier": "every list of arguments, every configuration, every input in every division into reads, every archive", "why_tests_cant": "Arguments are arbitrary texts; options can be written and combined in unboundedly many ways, and errors can occur at any read.", "anchors": ["main_store.c:57", "main_store.c:114", "main_store.c:221", "main_store.c:257"]}
{"id": "C57", "title": "The command named is run on the archive configured", "statement": "aardwarc runs the command named behind its global options with the rest of the arguments, on the archive described by the file of -c, or else by the first of the user's and the two system configuration files which is there; a mistake in that file is reported.", "quantifier": "every list of arguments, every environment, every contents of the files", "why_tests_cant": "Every combination of options, names and files, present, absent or faulty.", "anchors": ["main.c:43", "main.c:88", "main.c:119", "main.c:159"]}
{"id": "C58", "title": "mksilo makes the silo asked for, once, and touches nothing else", "statement": "When mksilo of a number ends well, the silo of that number is there, beginning with an indexed record which describes it, and no other mksilo of that number ends well, whatever runs at the same time. Run alone it succeeds if the number is free, adding one silo and one index entry; if the number is taken it changes nothing. The number made is the one written on the command line; anything else is refused.", "quantifier": "every reachable archive, every number, every interleaving with stores, gets and other mksilos, crashes included; every list of arguments", "why_tests_cant": "The orders of system calls of concurrent commands are unbounded, as are the texts that can be given for a number.", "anchors": ["main_mksilo.c:52", "main_mksilo.c:80", "wsilo.c:116", "wsilo.c:464"]}
{"id": "C59", "title": "What a store command line is given comes back from a get command line", "statement": "However the options of get are written, an object which was stored comes out as it went in, to the file of -o or standard output, with -z as something gunzip makes the object of; its header comes out beside it unless -q is given, and nothing else is printed. The archive is not changed. A command line which asks for something else is refused; if there is no such object, get fails and changes nothing.", "quantifier": "every list of arguments of store and get, every configuration, every content, every reachable archive", "why_tests_cant": "Options can be written and combined in unboundedly many ways, with any archive and any content.", "anchors": ["main_get.c:82", "main_get.c:99", "main_get.c:134", "main_get.c:146", "main_get.c:164"]}
{"id": "C60", "title": "filter answers for every list on its command line", "statement": "However its options are written, filter reads every list named, in order (standard input for - or if none is named), and puts the answer to their lines into the file of -o or on standard output. No other file changes. A list that cannot be read, a line that is no identifier and a wrong option give status 1, no answer, and leave the files as they were.", "quantifier": "every list of arguments, every contents of the lists, every reachable archive, every sorting algorithm", "why_tests_cant": "Options and lists can be combined in unboundedly many ways, with any archive and any content.", "anchors": ["main_filter.c:196", "main_filter.c:217", "main_filter.c:242", "main_filter.c:245", "main_filter.c:254"]}
{"id": "C61", "title": "The small commands do what their command lines say, and refuse the rest", "statement": "However their options are written: byid lists the records of each fragment and reports their number as exit status, or 0 with -e; dumpindex lists the entries of the type of the last -t; housekeeping merges and sorts the index; info prints the length of identifiers, as text or JSON; _testbytes -n N prints the first N bytes of one fixed endless sequence. Options and operands they do not have are refused, and nothing is done.", "quantifier": "every list of arguments; every reachable archive and index history; every N below 2^64; every hash with digests of 32 bytes", "why_tests_cant": "Arguments can be written and combined in unboundedly many ways, and the archives and numbers are unbounded.", "anchors": ["main_byid.c:103", "main_dumpindex.c:76", "main_housekeeping.c:59", "main_info.c:60", "main_testbytes.c:66", "main_testbytes.c:85"]}
{"id": "C62", "title": "When an object cannot be had, one is told the right reason, and nothing else", "statement": "cgi accepts only a GET request, without options or operands; otherwise it ends with status 1 and prints nothing. If there is no object to serve, it answers with status 501 and one of eight fixed pages, so nothing of the request is in the page; get prints the same reason and ends with status 1. The reason is the right one: what is wrong with the identifier, that nothing has it, that it is the description of a silo, or that it is a later segment of an object. Nothing in the archive changes.", "quantifier": "every list of arguments, every environment, every state of the archive (for the fixed pages, damaged ones included), every identifier", "why_tests_cant": "That no request whatever, on no archive whatever, puts its own text into the page is a statement about all inputs; so is that the reason is right.", "anchors": ["main_cgi.c:70", "main_cgi.c:91", "main_cgi.c:119", "index.c:155", "getjob.c:70", "getjob.c:180", "main_get.c:147"]}
{"id": "C63", "title": "audit, reindex and rebuild see the silos they are asked to, and their exit status tells", "statement": "Without operands audit, reindex and rebuild work on all silos of the archive, as found on disk under their names; with operands on the files named. audit reports on exactly these and leaves the identifiers of metadata alone only if -i says so; reindex brings back the whole index; rebuild writes a new file beside each silo, under its name with an underscore, and changes no other file. Anything else on the command line is refused. The exit status is 0 only if every silo could be opened and nothing was found wrong.", "quantifier": "every list of arguments, every disk, every reachable archive on it", "why_tests_cant": "Arguments, disks and archives are unbounded; that no file is passed over silently and no other file is changed is a statement about all of them.", "anchors": ["main_audit.c:402", "main_audit.c:421", "main_audit.c:441", "main_reindex.c:219", "main_reindex.c:295", "main_rebuild.c:246", "main_rebuild.c:332", "silo.c:96", "silo.c:112"]}
{"id": "C64", "title": "The directory of a silo is made before the silo", "statement": "Whatever silo.directory is accepted in the configuration, before a silo is opened the directory it belongs into is made, with all directories above it which are missing, and nothing else is changed. Success is reported if and only if the directory is there afterwards, also if other processes make directories at the same time.", "quantifier": "every silo.directory, working directory and silo number, every tree of directories and files, every interleaving with others making directories", "why_tests_cant": "Paths, trees and interleavings are unbounded.", "anchors": ["wsilo.c:83", "wsilo.c:92", "wsilo.c:97", "wsilo.c:101", "wsilo.c:106", "wsilo.c:137", "aardwarc.c:102"]}
{"id": "C65", "title": "Quoted texts can be read back", "statement": "Whatever bytes are quoted into a string buffer, the text can be read back, as C reads string literals or as hexadecimal digits, as these bytes and no others, for each of the ways of quoting meant for it; quoted for C it holds no trigraphs; asked to, it ends with a line feed.", "quantifier": "all bytes, lengths given or up to NUL, prefixes of white space, and combinations of flags", "why_tests_cant": "Ambiguities arise from what stands next to an escape; inputs are unbounded.", "anchors": ["vsb.c:508", "vsb.c:534", "vsb.c:545", "vsb.c:580", "vsb.c:601", "vsb.c:604", "vsb.h:81"]}
{"id": "C66", "title": "The files of an archive do not get into each other's way", "statement": "Silos, their hold files, the files rebuild writes beside them, the files of the index, also while it is sorted, and the cache: no two of them are the same file, all are inside silo.directory, and none is where a directory for silos is needed.", "quantifier": "every silo.directory ending in a slash, every silo.basename without slashes with one number in it, all silo numbers and process numbers", "why_tests_cant": "All pairs of names for unboundedly many numbers and configurations.", "anchors": ["silo.c:68", "index.c:148", "index.c:180", "index.c:496", "aardwarc.c:174", "main_rebuild.c:257"]}
{"id": "C67", "title": "The date of a record is the time its header was made", "statement": "The date set in the header of a record is the text ISO 8601 and POSIX give for the second the clock showed, and is found again when the header is read; no two seconds have the same date, and dates compare as texts the way the times do.", "quantifier": "all clock values from 1970 on; after the year 9999 storing is refused", "why_tests_cant": "Calendar mistakes show on few days; order is a property of all pairs of times.", "anchors": ["header.c:301", "header.c:311", "header.c:312", "main_store.c:241"]}
{"id": "C68", "title": "A refused MIME type comes with the list of those allowed", "statement": "If store refuses a MIME type, its message lists, one to a line, exactly the types it would have accepted for this kind of record, letter case aside; the list can be read in one way only, and there is no such message for types it accepts.", "quantifier": "all configuration files, both kinds of record, all types", "why_tests_cant": "It relates one refusal to all other possible types, for arbitrary configurations.", "anchors": ["main_store.c:49", "main_store.c:58", "config.c:235", "config.c:258"]}
