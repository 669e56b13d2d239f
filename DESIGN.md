# AardWARC: formal model and proofs

The C sources in `/repo` are modelled function by function as small, total,
computable Gallina definitions.  Every definition carries a comment naming the
file and lines it models and where it simplifies.

## Conventions

* A byte is an `N`; a C string or buffer is a `list N`.  Nothing assumes a
  byte is below 256 unless a theorem says so.
* Fixed-width arithmetic is written out (`mod 2^64`, ...), offsets that can be
  negative are `Z`.
* A failed `assert`/`AN`/`AZ` is the outcome `Abort`; behaviour undefined in C
  is the outcome `UB`; running out of fuel (for loops that may not end) is
  `OutOfFuel`.  They are distinct from every normal result.
* zlib, SHA256 and `crc32_combine` are parameters (section variables) with the
  contract stated as hypotheses of the theorem; for each a concrete instance
  is given which meets the contract.
* The file system is a record of the files the code touches; each system call
  is one atomic step.  A crash is stopping between two steps; concurrency is
  interleaving of steps.

## File layout (`rocq/theories`)

| File | Content |
|------|---------|
| `XModel.v` | Model of the code of area X, definitions only |
| `XSpec.v`  | Independent specification used by the theorems |
| `XProofs.v`| Lemmas |
| `PX.v`     | The property theorems, each closed by `exact`, with `Print Assumptions` and a concrete example |

## Plan per property

| Id | What is modelled | How it is proved |
|----|------------------|------------------|
| C01 | `IDX_Valid_Id` on strings | direct, against a declarative grammar |
| C02 | `IDX_Insert` encoding, decoding in `IDX_Iter` | be32/be64/hex round trips |
| C03 | key bytes | lexicographic order of hex = order of bytes |
| C04 | `IDX_Iter` on the bytes of the three files | soundness for files without header overlap; refutation by a concrete index where the bucket table is reported as a record |
| C05 | `bucket_*`, `IDX_Iter` | exact characterisation of when a record is found; refutation for the remaining cases |
| C06 | `bucket_seek` | refutation (negative seek), sufficient condition for safety |
| C07 | `bucket_seek` with short prefix | refutation (empty first bucket), sufficient condition |
| C08, C09 | `idx_merge`, `idx_attempt_merge`, `IDX_Resort` | induction over merge and over the chunks |
| C10 | same, as a sequence of atomic file system steps | invariant over all prefixes and restarts |
| C11 | lock file protocol, any number of processes | inductive invariant of an interleaving semantics |
| C12, C13 | inserter/reader against housekeeper steps | refutation by a schedule; proof for the schedules in which the operation does not overlap the critical step |
| C14 | header list operations | invariant over operations, finite-map specification |
| C15 | serialize, parse | induction over fields |
| C16 | `Header_Get_Number` | decimal printing/parsing inverse; overflow is UB |
| C17 | `Ident_Create`, `Ident_Set`, digest oracle | direct |
| C18 | `Silo_Filename`, `numpart` | injectivity of the path printer |
| C19 | `Silo_Iter` | induction over the loop |
| C20, C21, C27, C38 | store path: `Wsilo_*`, `silo_attempt_append`, `Warcinfo_New`, `SegJob_*` | invariants over all histories of stores |
| C22, C23 | hold-file protocol | inductive invariant of an interleaving semantics |
| C24, C25 | store and get end to end | invariant: every entry points to its record; segment chains |
| C26 | `SegJob_Feed` with an arbitrary compressor | induction on the feed loop |
| C28 | store as sequence of steps, crash after each | invariant for previously stored objects; refutation for the interrupted object |
| C29 | `main_reindex.c` list matching | invariant over any arrival order |
| C30 | `main_filter.c` pointer walk | induction over the index stream |
| C31 | `proto_in`, `proto_out` | round trip, induction over frames |
| C32 | client wait list and server replies | invariant over any batching |
| C33 | `gzip_stitch_*`, with an RFC 1951 decoder written in Gallina as specification | chunk independence; decoder distributes over concatenation of byte aligned fragments |
| C34 | `Gzip_WriteAa`, `Gzip_ReadAa` | round trip; refutation of the bounds |
| C35 | `vlu.c` | induction over reads |
| C36 | `vsb.c` | invariant over operations |
| C37 | `config.c` | direct |
| C39 | padding arithmetic | arithmetic over decimal lengths |
| C41 | header length predictor | direct |
| C42 | `AardWARC_New` | case analysis |
| C43-C47 | as C20-C28 | same invariants, runs as counterexamples; C47 as far as it holds with C55: the loop over the silos refuses only those without room, the cache skips only nearly full ones |
| C48 | file name to silo number | what `strtoul` reads is what was printed; refutations |
| C49 | the client's reading of mtree's listing | induction on the lines, then on the tree; independence of the cut into reads |
| C50 | rebuilding silos, with the records before and after as data | invariant of the state machine over any pieces of any members; refutations beyond its room |
| C51 | `main_cgi.c`, the headers printed by `main_get.c` | from C24 (what is stored is found again); refutations by runs |
| C52 | `main_dumpindex.c` | lines are uniquely readable; from what C02, C07 and C08 say of lookups; on archives with the index made of the archive's entries |
| C53 | `main_byid.c` | from the state when all commands have ended (C28): each entry leads to its record; refutations by runs |
| C54 | `vnum.c` | double as m * 2^e with explicit rounding; exactness of whole numbers by the size of intermediate results, of fractions by relative errors |
| C55 | store, run alone, as far as its exit status | every assertion and every error exit in the path excluded, from invariants of archives at rest; hypotheses on zlib beyond C20's in `LiveSpec.v` and, for several segments, `BigSpec.v`; an invariant for the loop over input and segments |
| C56 | the whole of `main_store.c` | command lines as a grammar of options and operands, equivalence of grammar and getopt(3); refusal leaves the archive unchanged; refutation by a run |
| C57 | `main.c` | the same grammar; exact condition for a command to be run; refutations by runs |
| C58 | `main_mksilo.c`, as one more command in the system of C20-C28 | the invariant of the archive for what it leaves; "returns only if its link succeeded" as an invariant of all processes for at most once; run alone as in C55; a grammar of numbers for strtoul |
| C59 | `main_get.c` from its arguments on | the grammar of C56; from C24 and C51 what comes out, from C56 that store was asked for it; from C55 what happens if it is not there; refutations by runs |
| C60 | `main_filter.c` from its arguments on, with the files it reads and writes | the grammar of C56; C30 for what is in the answer; refutations by runs |
| C61 | `main_byid.c`, `main_dumpindex.c`, `main_housekeeping.c`, `main_info.c`, `main_testbytes.c` from their arguments on | the grammar of C56, joined with C53, C52 and C08; induction over the digests |
| C62 | `main_cgi.c` whole, `getjob.c` with its error texts | forgetting the texts gives the model of C24 and C51; case analysis for the reasons; induction over lookups |
| C63 | `main_audit.c`, `main_reindex.c`, `main_rebuild.c` from their arguments and the files on disk on, with `silo.c` | the grammar of C56 and the iteration of C19, joined with C40, C29, C48 and C50; induction over the files |
| C64 | `silo_mkparentdir` in `wsilo.c`, on a tree of directories which others may add to | induction over the names in the path, last first; for others at work an invariant: everything above is a directory and stays one |
| C65 | `VSB_quote_pfx` and `VSB_quote` in `vsb.c`, as calls on the buffers of C36 | a small reader of C string literals, as a relation; induction over the bytes; the reader has one answer only, by case analysis of its rules |
| C66 | names of silos, hold files, rebuilt silos, index files and cache (`silo.c`, `index.c`, `aardwarc.c`, `main_rebuild.c`) | the names in the paths: how many there are tells silos from the rest; letters which are no digits tell suffixes apart |
| C67 | `Header_Set_Date` with gmtime_r(3) and strftime(3) (`header.c`) | days one after the other; by induction they are the days of POSIX's formula for seconds since the Epoch; fixed width of digits gives the order; refutation from the year 10000 on |
| C68 | `mime_type` and `mime_print` (`main_store.c`), `Config_Iter` | both go by the first section of the name; a type refused shows there is no `*` |
| C40 | `main_audit.c` on the bytes of the silos | truth of every report, by induction over records and passes; clean report of archives at rest; refutations by runs |

## The store and get area (C20-C28, C38, C39, C43-C47)

* `ProgModel.v`: commands are programs which make system calls; `exec` is what a
  call does to the archive.  `StoreModel.v`: wsilo.c, warcinfo.c, segjob.c,
  rsilo.c, getjob.c, main_store.c, main_get.c as such programs.
* `StoreSysModel.v`: any number of commands at a time, one system call of one of
  them is one step; a command can be killed before each call and in the middle of
  every write; time passes, the index is sorted, silos are write protected.
  `reach` are the states that can be got into from an empty archive.
* `StoreSpec.v`: what an archive looks like (silos, records, headers, index
  entries, chains of segments), what is expected of zlib, libmd, configuration
  and requests.  It does not use the functions of the model.
* Proof: rely/guarantee reasoning over the programs (`StoreWp.v`), with the lock
  (hold file) as the ownership of a silo number; the invariant is
  `archive_ok` of every reachable state (`StoreWorld.v`).
* `StoreToy.v`, `StoreToyOk.v`: a compressor and a digest which meet what is
  expected of zlib and libmd, so that the hypotheses are known to be satisfiable;
  the examples and counterexamples (`StoreRuns.v`, `StoreWit39.v`) are runs with them.

Simplifications: the index is an ideal list here (its files are the subject of
C01-C13); a silo is known by its number (names are the subject of C18); gzip
members read back have flag bits 0 or 4 only; directories exist; `write` is never
short without the process dying; the end of the silo numbers (2^32 - 1) and of the
segment numbers (2^31) is the end of the model (the program dies); mime types are
not checked against the known ones; MIME types longer than 500 bytes are outside
`request_ok`; write-back order of the disk is not modelled.

## Filter (C30)

* `FilterModel.v`: main_filter.c on the bytes of the files named, with the walk
  along the sorted candidates as callback of `IDX_Iter` on the files of the
  index.  BUFSIZ is a parameter; `qsort` is any function which sorts (it is not
  stable); files named can be opened and stdin is a file.
* `FilterSpec.v`: what lines look like, which input is refused, what is printed
  for a line.
* Invariant of the walk: all candidates before `next_cand` which are not marked
  are smaller than the last key, whatever the order of the keys.
* On top of the histories of the index (C08-C12), and on the reachable archives
  of the store area.

## Reindex (C29, C48)

* `ReindexModel.v`: main_reindex.c, as the list of its calls of `IDX_Insert` and
  `IDX_Resort` from the contents of the silos in the order given.  Simplified:
  what is printed is left out; files which cannot be opened are in `AcmdModel.v` (C63);
  that `Silo_Iter` stops at the first missing directory is C19.
* `ReindexSpec.v`: no segment twice (`once`), every segment in a complete object
  (`whole`), names of files.
* Proof (`ReindexProofs.v`, `ReindexMain.v`): the list of segments as a set of
  runs per object, each with the segments seen so far in the order of their
  numbers; invariant over any order of arrival.  `whole` is proved of every
  archive in which all commands have ended, from the history of the stores
  (`StoreOrigin.v`).

## Audit (C40)

* `AuditModel.v`: main_audit.c on the contents of the files, with the lines it
  prints as data (what is wrong, not its wording).  Simplified: the first file
  that cannot be opened ends the list of files; offsets are not limited to 2^63.
* `AuditSpec.v`: a file which is a sequence of records (`holds`), a record which
  agrees with what it says of itself (`agrees`), a complete object (`object`).
* Proof (`AuditProofs.v`): every report is true, of any files; (`AuditMain.v`):
  what the report on an archive at rest is.  The conditions of `C40_clean_partial`
  (no object stored twice, no gap in the numbers, segments in order, identifiers
  not forced) are each necessary: `C40_refuted_*`, C29.

## Stow (C32)

* `StowModel.v`: client and server as two programs which react to events, and the
  frames on the way; one step is one round of the client's event loop, one frame
  taken by the server, one line or the end of a command started by the server, or
  somebody else's store.  Simplified: mtree's output is given as the files in each
  piece read (its text is the subject of C49); all files can be opened; frames are
  whole (their bytes are the subject of C31); the connection holds any number of
  frames, so writing to it never waits; store always succeeds.
* `StowSpec.v`: what was asked, answered and transferred, as functions of the frames.
* Proof: the list of files is cut into those answered, those asked in frames on the
  way, in the queue, in the batch, and those not asked (`StowProofs.v`,
  `StowInv.v`, `StowMain.v`); termination by a lexicographic measure
  (`StowTerm.v`).  Without the tree in the archive the exchange ends, and ends well;
  with it there, see `C32_there_refuted`.

## The listing of a directory (C49)

* `MtreeModel.v`: main_stow.c:113-263, on the bytes which mtree prints and any cut
  of them into reads.  Simplified: what is printed has no NUL; `isspace` of a
  negative char counts as of a byte.
* `MtreeSpec.v`: a tree (`node`), the files in it, and what a listing of it is: any
  blanks, continued lines, empty lines, defaults and further keywords.  Taken from the
  manual of mtree(8), which is not part of the source.
* Proof: processing a concatenation is processing the parts; the rest in the buffer is
  a proper part of a line, so there is room to read (`MtreeProofs.v`).  Then the state
  of the interpreter is the path to the directory (`run_shows`).  With C32, what is in
  the archive in the end (`MtreeMain.v`).

## Rebuild (C50)

* `RebuildModel.v`: main_rebuild.c on the bytes of the silos; the pieces in which
  inflate(3) delivers a member are a parameter (`split`), as is BUFSIZ.  The byte
  written behind what was inflated may lie behind the array; whether that byte may be
  overwritten is a parameter (`spare`).
* `RebuildSpec.v`: what a silo with records of any age is (`held`), what is expected of
  the new one (`rewritten`, `redone`), and that zlib takes and gives all at once when
  there are 128 kilobytes for 64 (`zlib_roomy`; met by `toy2`).  `held` covers headers
  which begin with WARC/1.1 and whose fields are in the order in which the program
  writes them.
* Proof: the state after a piece says which part of the record has been seen
  (`in_head`, `in_fix`, `in_body`, `in_skip` in `RebuildMain.v`); member after member
  and record after record in `RebuildTop.v`; the limits in `RebuildLimits.v`.
* Not modelled: that the silos read are never closed (with more silos than
  descriptors the later ones cannot be opened, are skipped, and the exit status is 0).

## Printing (C51)

* `CgiModel.v`: main_cgi.c with the environment as data, the options of main_get.c,
  and the functions of getjob.c which they use.  `CgiSpec.v`: what a CGI reply is, and
  what a header must tell of an object.
* Proof: with the segments found (`walk` of `StoreGet.v`), lengths and headers follow
  from what `stored_as` says of the records; no segment of a stored object is empty,
  or the sum of the lengths would abort (`stored_as` says so since then).
* Not modelled here: the page for an identifier which is not found (C62) and to which file
  get writes (C56).

## Listing (C52, C53)

* `IdsModel.v`: the two commands.  dumpindex on the files of the index
  (`IndexModel.v`), byid on archives (`StoreModel.v`), as it reads the records too.
  `C52_archive` joins the two: an index with the entries of the archive.
* `IdsSpec.v`: what a line shows, by the values of its numerals; which entries and
  records the arguments ask for.
* For C53 the records of an archive (`named` in `StoreSpec.v`) were required, and
  proved, to have identifiers of `id.size` digits.
* Not modelled: `printf` to a closed output.

## Sizes (C54)

* `NumModel.v`: vnum.c over a small model of double: dyadic numbers, every operation
  rounded to 53 digits, infinities and NaN; no library of floating point numbers and no
  real numbers, so no axioms.  `pow` is a parameter; `pow_ok` asks for an error of less
  than one unit in the last place, `pow_ref` has it.  The branch for percentages with
  `rel != 0`, which no caller uses, is left out.
* `NumSpec.v`: the form of a size, and which number of bytes it says.
  `NumExpSpec.v`: the same with an exponent; `pow_exact` asks for exact powers up to 10^15 besides.
* `AardWARC_New` (`ConfigModel.v`) takes the reader of sizes as a parameter;
  `C54_config` puts this one in.

## A store succeeds (C55, C25)

C20-C28 say what is true if a store prints an identifier; C55 says that it does.

* `LiveSpec.v`: `zlib_live`, what zlib must do besides decoding to what was put in:
  deflate takes its input if there is room, flushes and finishes without error, writes
  at most 8 n + 1000 bytes for n; the gzip header has the form `Gzip_AddAa` asks for; without compression
  the length grows by a constant for texts of up to 4096 bytes (`silo.c` and `segjob.c` rely on this to
  rewrite headers in place).  Also `fits` (room in a silo), `number_left` (a free
  number), `rounds` (fuel of the model's loops).
* `LiveMain.v`, `LiveJob.v`: `alive p s Q`, the program ends with a value; the path
  through `SegJob`, `Wsilo` and `IDX_Insert` step by step.
* `LiveEnd.v`: for every reachable archive in which all commands have ended.
* `RoomSpec.v`: `tight`, which silos had no room when a new one was begun (C47).  The
  tolerance of 160 bytes is the difference between a compressed header and the
  room reserved for it; the other, the number of silos, is what the space cache skips.
* `LiveToy.v`: a zlib for which `zlib_ok` and `zlib_live` hold.
* `BigSpec.v`: `zlib_steer`, what `SegJob_Feed` relies on to end a segment before the
  silo is full (segjob.c:250-322; "52 for safety", partial flushes in the last 128 KB): a call
  which gets at most half as much input as there is room takes it all and leaves room to
  flush, to finish and for 24 bytes more.  Also `fits_any`, `numbers_left`,
  `rounds_any`, `size_left`.
* `BigMain.v`, `BigJob.v`, `BigEnd.v`: the same path for objects of any number of
  segments: between and within segments the segments already complete keep their holds,
  each with room for the fields which are only known at the end.
* `BigToy.v`: the toy zlib satisfies `zlib_steer`.
* `BigDie.v`, `BigShrink.v`: for `C55_compressed_refuted`; a store which has committed its first
  segments and aborts at the last.  The run is not computed but followed with the
  invariant of `BigMain.v`.
* Missing: `-i`; objects a segment of which is ten times as long as a silo (`C55_compressed_refuted`:
  there the fields need not fit in the room kept for them).

## mksilo (C58)

`main_mksilo` (in `StoreModel.v`) is a third kind of command in `StoreSysModel.v`, so
C20-C28, C39, C40 and the other theorems about reachable archives hold for archives with silos made by hand,
also while that is going on.  `MkModel.v` has its command line, with strtoul(3) in base 0 as ISO C defines it.

## Command lines (C56, C57, C59, C60, C61, C62, C63)

* `CmdModel.v`: getopt(3) of the C library as POSIX describes it; `main_store.c` from
  its arguments on, with the results of read(2) as a list which may contain an error;
  `main.c`, with the contents of files and the environment as parameters.
* `CmdSpec.v`: `written`, how options and operands are written as arguments; `asks`,
  what they ask store to do; `uses`, which configuration file counts.
* `GetcModel.v`, `GetcSpec.v` (C59): `main_get.c` from its arguments on; what goes where.
* `FcmdModel.v`, `FcmdSpec.v` (C60): `main_filter.c` from its arguments on; the user's files are a map
  from names, and opening one for writing empties it at that point of the run.
  Whether a file can be opened for writing is a parameter; writing does not fail.
* `OthModel.v`, `OthSpec.v` (C61): the option loops of byid, dumpindex and housekeeping; info and
  _testbytes whole, the latter with the hash as a parameter.
* `WhyModel.v`, `WhySpec.v` (C62): lookups with the reason for failing; `main_cgi.c` from its arguments on.
* `AcmdModel.v`, `AcmdSpec.v` (C63): a disk as what stat(2) and open(2) find under each name; the command
  lines of audit, reindex and rebuild on it; `on_disk`: an archive lies on a disk.
* `WhyMain.v` proves that without the reasons C62 is about the model in `StoreModel.v` and `CgiModel.v`.
* Not modelled: the usage texts.

## Directories of silos (C64)

* `DirModel.v`: stat(2) and mkdir(2) on a tree of directories and files, and `silo_mkparentdir` as a
  program of such calls.  `alone` runs it with nobody else at work; `among` (`DirSpec.v`) lets others
  make directories between any two calls.
* Not modelled: symbolic links, `.` and `..`, permissions, limits on the length of names, a full disk.
* `StoreModel.v` takes the directories to exist; C64 is what stands for that.

* `NamesModel.v`, `NamesSpec.v` (C66): the names of all files of an archive, and what they are the names of.
  C66 gives the condition of C64 that no file is in the way, and that of C63 on the names rebuild writes.
* `DateModel.v`, `DateSpec.v` (C67): the date of a record.  gmtime_r(3) is modelled as counting days from
  1 January 1970, strftime(3) for the one format used; clocks before 1970 and failing time(3) are left out.
  The specification is the formula of POSIX.  C67_header joins it with C14 and C15.  C67_ok gives `date_ok`, which theorems about storing ask for.
* `MimeModel.v`, `MimeSpec.v` (C68): what `mime_type` writes to stderr, and how a list is read from it.
  Whether a type is allowed is `mime_type` of `CmdModel.v`, which C56 is about.

## Quoted texts (C65)

* `QuoteModel.v`: the calls `VSB_quote_pfx` makes on a buffer; `char` is signed, and `isgraph` of a negative
  value other than EOF is undefined.  `QuoteSpec.v`: how C reads string literals (escapes, digits taken
  greedily, adjacent literals joined), and trigraphs.  Joined with C36 by what ends up in a new buffer.
* No command uses these functions; they are part of the interface in `vsb.h`.

## What was found to be false of the code

Each is a theorem about the model of the unchanged code, by a concrete witness.

| Theorem | Finding |
|---------|---------|
| C04-C07 `_refuted` | the search in a housekept index can start inside its own bucket table: records are reported which are not there, missed although they are, or an assertion fails |
| C12, C13 `_refuted` | an insert which overlaps a whole housekeeping run is lost; a lookup during housekeeping can see an empty index |
| C16 `_refuted` | an empty number field reads as 0; large ones overflow |
| C29 `_refuted_twice`, `_crossed` | an object of three segments stored twice at the same time makes reindex abort; if the two are split differently it links the segments of the one with those of the other |
| C48 `_refuted_plain`, `_name` | reindex of a file named without a directory aborts; with a base name which does not begin with the number all entries get silo 0 |
| C30 `_refuted_upper`, `_short` | an identifier in upper case, or with `id.size` below 24, is reported missing although lookup finds it |
| C30 `_refuted_there`, `_missing` | only 24 digits are compared: reported as there although it is not; with `-s`, of two identifiers which share 24 digits the second is reported missing although it is there |
| C31 `_limit` | the length of a payload of 4 GiB or more arrives modulo 2^32 |
| C32 `_there_refuted` | with the tree in the archive but two files of it missing, stow says STOWED with the last file half sent |
| C32 `_empty_refuted` | a file which has become empty since mtree saw it makes the server abort |
| C32 `_late_refuted` | if the end of the filter command is noticed late, the client aborts after STOWED |
| C49 `_deep_refuted` | a directory whose path, as vis(3) writes it, has 4095 bytes or more is written beyond the end of a buffer |
| C49 `_limit_refuted` | a line of the listing which does not fit the buffer is taken for the end of the listing; the rest is not stowed, without a message |
| C50 `_header_refuted` | rebuild aborts at every header of BUFSIZ - 1 bytes or more, although store writes them |
| C50 `_old_refuted` | rebuild of a record with WARC-Record-Digest and more than BUFSIZ bytes writes beyond the end of an array |
| C50 `_overrun_refuted` | a body of 64 kilobytes or more: a NUL may be written behind the end of an array |
| C50 `_lost_refuted`, `_cut_refuted` | what is behind the first damage in a silo is missing from the new one, with exit status 0; a silo which ends inside a record makes the next one abort |
| C51 `_type_refuted`, `_body_refuted` | the declared type of an object may contain line ends; cgi prints it as it is, so that it adds fields to the reply, or replaces the body |
| C51 `_accept_refuted` | `Accept-Encoding: gzip;q=0`, which refuses gzip, is answered with gzip |
| C52 `_segmented_refuted` | `dumpindex -t resource` does not show objects stored in segments |
| C52 `_prefix_refuted` | an identifier as store prints it makes dumpindex abort |
| C53 `_long_refuted` | byid compares 24 digits: for an identifier which is not there it shows another object |
| C53 `_busy_refuted` | byid aborts while an object is being stored |
| C54 `_negative_refuted` | a negative size is not refused; its conversion is undefined behaviour, like that of sizes from 2^64 on |
| C54 `_precision_refuted`, `_fraction_refuted` | 9007199254740991 is read as one byte more; 1.00000000000 without a unit is read as 0 |
| C33 `_refuted` | joined gzip members whose later part has 2^32 bytes or more are broken |
| C34 `_bounds_refuted` | reading the length field looks beyond a short buffer |
| C35 `_feed_refuted`, `_file_refuted`, `_nul_refuted` | a line that does not fit the buffer makes feeding loop for ever, and reading a descriptor report end of file; with a NUL in the stream the lines depend on how it is cut |
| C36 `_alloc_refuted` | after a failed allocation in printf a string buffer reports success with the text cut short |
| C37 `_refuted`, `_words_refuted` | a configuration file with a malformed line is accepted and everything behind that line ignored; a value of two words is replaced by the default |
| C24 `_refuted_equal`, `_eight` | segments are looked up by eight digits: an object with two equal segments, or with a segment that shares eight digits with anything else, cannot be retrieved |
| C56 `_read_refuted` | if reading the input fails in the middle, store takes that for its end: it stores what was read so far, prints the identifier and exits with 0 |
| C57 `_other_refuted` | a `~/.aardwarc.conf` with a mistake in it is passed over in silence; the command works on the archive of `/etc/aardwarc.conf` |
| C57 `_home_refuted` | a value of HOME of about BUFSIZ bytes makes every command without `-c` abort |
| C58 `_race_refuted` | two `mksilo` of one number at the same time: one aborts, its hold file and a second index entry stay behind, and the number stays locked |
| C58 `_text_refuted` | `mksilo silo` makes silo 0, `mksilo 12x` silo 12, `mksilo 4294967301` silo 5 |
| C55 `_compressed_refuted` | an object of several segments whose last compresses to a few percent: the room kept for its total length is too small (`%00jd` at segjob.c:143), and store aborts (wsilo.c:536) after the earlier segments are in the index, and leaves a hold |
| C59 `_emptied_refuted` | `get -o file` of an identifier which is not in the archive empties the file |
| C59 `_unopened_refuted` | `get -o` with a file which cannot be opened for writing hands a null pointer to fwrite(3) |
| C60 `_overwritten_refuted` | `filter -o ids ids` empties the list before reading it and reports success |
| C60 `_emptied_refuted` | `filter -o out` with a list that cannot be read empties `out` |
| C61 `_housekeeping_refuted` | `housekeeping 3` aborts (AZ(argc)), though the usage text shows operands |
| C61 `_testbytes_refuted` | `_testbytes 34` aborts instead of being refused |
| C63 `_audit_status_refuted` | audit ends with status 0 whatever it finds (main_audit.c:441) |
| C63 `_audit_missing_refuted`, `_audit_stops_refuted` | a file which cannot be opened ends the audit silently; the files named behind it are not looked at; status 0 |
| C63 `_audit_option_refuted` | an unknown value of -i prints the usage text, but the audit goes on without it |
| C63 `_reindex_silent_refuted` | a silo which cannot be opened ends reindex; the silos behind it are not indexed; status 0, for Silo_Iter always returns 0 (silo.c:112) |
| C63 `_rebuild_missing_refuted` | rebuild of a file which cannot be opened ends with status 0 |
| C64 `_relative_refuted` | with a relative silo.directory which does not exist yet, store calls itself until the stack is full (wsilo.c:94-99) |
| C64 `_double_refuted` | with `//` in silo.directory and nothing there, silo 0 is skipped and silo 1 used, so the archive has a gap (C40 `_refuted_gap`) |
| C64 `_blocked_refuted` | with a file in the place of a directory, success is reported (wsilo.c:106 looks at ENOENT only) |
| C64 `_race_refuted` | if another process makes the directory first, failure is reported and a silo number skipped |
| C65 `_char_refuted` | quoting any byte from 128 to 254 gives a negative value to isgraph(3) (vsb.c:545, 601) |
| C65 `_zeros_refuted`, `_eschex_refuted`, `_json_refuted` | all runs of more than four zeros have the same hexadecimal text; `\x01a` reads as one byte; JSON is not implemented |
| C25 `_refuted_race` | two stores of the same object at the same time store it twice |
| C26 `_refuted_split` | where an object is split depends on the pieces of input |
| C28 `_refuted_stuck` | killed between index and silo: store and get of the object abort from then on |
| C28 `_refuted_lost` | killed after the first segment: a new store says the object is there, get does not find it |
| C39 `_refuted` | the text of the total length can be longer than what was reserved; the store aborts after having committed segments |
| C40 `_refuted_hang` | killed after the first segment: the audit of the archive never ends |
| C40 `_refuted_order` | an object in silos 2, 3 and 1 is reported to miss a segment |
| C40 `_refuted_gap` | two stores at the same time leave out silo number 0; the audit then visits nothing |
| C40 `_refuted_damage` | one byte missing at the end of a silo: the audit aborts without a report |
| C45 `_refuted` | two stores at the same time: one aborts; a get during a store aborts |
| C46 `_refuted` | `-i` with an identifier in use discards the input and reports success; `-i` in the full form aborts |
| C47 `_refuted` | once silo 0 is write protected every object gets a new silo |
| C47 `_gap_refuted` | after `mksilo 3` a store begins silo 0, although silo 3 has room |

## Trusted base

* Coq 8.16.1's kernel (with its virtual machine, used for the witnesses).
  `Print Assumptions` is run beneath every property theorem; all print "Closed
  under the global context": no axioms, neither of the library nor of ours.
* That the definitions say what the C code does.  The table says for which.
* Parameters of the model, and what is expected of them in the hypotheses of the
  theorems: deflate and inflate (`zlib` in `StoreModel.v`, `zlib_ok`),
  `crc32_combine` (`comb`), gzip compression of short texts (`gzip`), SHA256
  (`sha256hex`, `l_sha`), `strtoul` and `fmtcheck` in `AardWARC_New`,
  `pow` of 10 (`pow_ok`, `pow_exact`), `malloc` (`alloc`), the environment, getopt(3) (modelled, not a parameter), the callbacks of iterators, `mtree`, BUFSIZ.
* POSIX: each system call is one atomic step; appending writes append; `link` fails
  if the name exists.  The order in which the disk gets the blocks is not modelled.

| File | Modelled | Not modelled |
|------|----------|--------------|
| aardwarc.c | all | messages |
| config.c | parse, read, get, find, iterate | config_dump (compiled out), destroy |
| getjob.c | all but the next | delete |
| gzip.c | all but the next | Gzip_InitDeflate (part of the compressor parameter) |
| header.c | all but the next; Header_Set_Date apart from the rest, where the date is a text of 20 bytes | clocks before 1970, destroy |
| ident.c | all | |
| index.c | all; idx_filename apart from the rest | |
| main.c | all but the next | usage text |
| main_audit.c | all | wording of the report, usage texts |
| main_byid.c, main_dumpindex.c | all | usage text |
| main_info.c, main_testbytes.c | all, SHA-256 as a parameter | usage text |
| main_mksilo.c | all; number 2^32 - 1 is left out | usage text |
| main_filter.c | all | messages, usage text, errors when writing, two names of one file |
| main_cgi.c | all | usage text |
| main_get.c | all | usage text, errors when writing |
| main_housekeeping.c | all | usage text |
| main_rebuild.c | all but the next | what is printed, closing of files; files named whose new name is that of another |
| main_reindex.c | options, files, calls on the index, exit status | output |
| main_stevedore.c | input, filter, store, metadata | fork and exec, pipes to the commands, EOF from the client in the middle |
| main_store.c | all but the next; mime_print apart from the rest | usage text |
| main_stow.c | see Stow and the listing above | wording of the metadata, start of processes |
| proto.c | proto_in, proto_out; the rounds of the event loop (in `StowModel.v`) | list of events as data structure |
| rsilo.c | all but closing | |
| segjob.c | all | |
| silo.c | all | |
| vas.c | | all (a failed assertion is `Abort`) |
| vlu.c | all | |
| vnum.c | all but the next | percentages (no caller allows them) |
| vsb.c | all but the next | VSB_tofile (no caller), sizes of 2^31 and more |
| warcinfo.c | all | |
| wsilo.c | all; silo_mkparentdir apart from the rest | symbolic links, permissions |
