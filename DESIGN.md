# Formal model of vibe-col in Rocq (Coq 8.16.1)

## What is modelled

The model lives in `rocq/theories`; every definition cites the Go file and lines it models.

| file | models |
|---|---|
| `Machine.v` | Go's `uint64/uint32/int64` wrap-around, little-endian bytes, slices, `Ok/Err/Panic` outcomes |
| `Encoding.v` | `pkg/col/encoding.go`, and Go's library `binary.Uvarint` |
| `Sroar.v` | interface of the roaring-bitmap library as a record of operations plus a law predicate (trusted), and one concrete instance that satisfies the laws |
| `FileIO.v` | `os.File` write side: bytes, offset, open flag, and a fault stream (failed seek, short write, failed sync/close) |
| `Writer.v` | `constants.go utils.go format.go writer*.go` |
| `SimpleWriter.v` | `simple_writer.go` |
| `Reader.v` | `reader.go reader_header.go reader_io.go reader_block.go reader_decode.go` on arbitrary bytes |
| `Aggregate.v` | `reader_aggregate.go`, sequential paths |
| `Parallel.v` | `reader_aggregate.go`, worker goroutines / channel / wait group as a small-step machine driven by an explicit schedule |
| `Multi.v` | `pkg/multicol/aggregate.go` |
| `Shared.v` | goroutines sharing one Reader: each call as a tree of accesses to the file, the cache flag, the cached pointer and the heap, interleaved by an explicit schedule |
| `Live.v` | NewReader on a file that changes while it is being opened |
| `Paths.v` | several Writers over paths (`os.Create` truncates in place), their calls in any order |
| `Traced.v` | the reading functions with the list of the reads they make |
| `ReadFault.v` | the reading functions (`reader*.go`, `multicol/aggregate.go`) when `ReadAt` fails |
| `Cli.v CliMain.v` | `cmd/vibecol/main.go`: the two commands, and main with flag parsing (Go's `flag.FlagSet.Parse` for string and bool flags) over named files |
| `FilterExample.v` | `examples/filtered_aggregation_example.go` (the temporary file's name and removal are outside) |
| `Loadtest.v` | `cmd/loadtest/main.go`: the import and aggregate commands after flag parsing |
| `ExampleTools.v` | `cmd/write_example/main.go` and `cmd/read_example/main.go` after flag parsing |
| `Descriptors.v` | the file descriptors of a process: `NewReader` and `NewWriter` with their failing system calls and their `file.Close()`s, `Close`, `MultiReader.Close`, the Writer's methods |
| `LoadMain.v` | the `main` functions of cmd/loadtest, cmd/write_example, cmd/read_example with Go's flag package (string, bool, int and uint64 flags) and `strconv.ParseInt/ParseUint` with base 0 |
| `Debug.v` | `DebugInfo` (pkg/col/reader.go 99-149); Go's `%d`, `%X` and `%.2f` (strconv's correctly rounded decimal: exact, ties to even) |
| `Spec.v SimpleSpec.v MultiSpec.v SharedSpec.v FloatSpec.v CliSpec.v LoadSpec.v ExampleSpec.v StopSpec.v LiveSpec.v ReadFaultSpec.v SnapSpec.v CliMainSpec.v FilterSpec.v MergeSpec.v FillSpec.v LoadMainSpec.v FormatSpec.v AnySpec.v ManySpec.v SharedMultiSpec.v RacingSpec.v MemorySpec.v DamageSpec.v SizeSpec.v TracedSpec.v ClosingSpec.v PathsSpec.v CostSpec.v DescriptorsSpec.v` | the independent specifications the property theorems are stated against |
| `*Facts.v WriterProps.v AggProps.v ReproRead.v` | invariants and lemmas (no property is claimed there) |
| `Examples.v` | checkers that show a concrete run meets the hypotheses of the theorems |
| `P*.v` | property theorems, each with a concrete case that meets its hypotheses, and the refutations |

Modelling decisions:

* All numbers are `Z`; Go's fixed-width arithmetic is written explicitly (`u64`, `u32`, `i64`). `int` is 64 bits.
* A file is a list of bytes, an offset and an open flag. Every primitive call takes the next element of a
  fault stream: either it works, or it fails after writing a chosen number of bytes. A crash of the process at
  any byte is the same as a fault at that byte after which nothing else is called, because every function returns
  at its first error. 
* A slice is a list of values, except in C78, where slices are windows into shared arrays and the lists are shown to
  be enough.
* `time.Now()` is an argument; `runtime.GOMAXPROCS(0)` is an argument.
* `sort.Slice` (unstable) is any function returning a sorted permutation (explicit premise).
* The sroar library is a record of operations with explicit laws (premise of the theorems that use bitmaps).
* The reader sees the file as immutable bytes. Go's `make` panics on a negative or absurd (more than 2^48 bytes) size: modelled where a size comes from a 64-bit field (deny-only filters, parallel aggregation); sizes from 32-bit fields cannot reach that. Running out of memory below that limit is not modelled (see C53 for how much can be asked for).
* `float64` is the axiom-free IEEE-754 model `SpecFloat` of the standard library (`prec=53, emax=1024`).
* Error messages are error constructors; texts are not modelled.

Not modelled:

* File names that denote the same file (links, relative paths), Unicode white space in `strings.TrimSpace`.
* The same Reader appearing twice in one multicol call, except in C76; system calls of two Writers on one path
  interleaved within a call (C83 interleaves whole calls); files that change while a Reader has them open, except as in C60 and C62.
* Power loss that reorders writes, except in C52 (elsewhere a crash is a prefix of the system calls, the last one
  possibly partial).
* What sroar's `Or` does with a nil bitmap (only reachable through a racing DisableGlobalIDBitmapCaching, C76, where
  the theorems claim nothing about the result; the model panics).
* `Create`, `Open` and `Stat` failures, except in C61 and C85 (elsewhere the model starts after they succeeded).

## Plan per property

Status of each claim and theorem names: `MANIFEST.json`.

| id | how |
|---|---|
| C01-C04 | induction over the 7-bit groups; masks/shifts turned into `mod`/`div` by lemmas |
| C05 | induction over the list, wrap-around algebra mod 2^64 |
| C06 | case analysis on bits; refuted at the minimum int64 |
| C07, C09, C10, C13, C28, C37, C41, C45 | one state invariant "every recorded block's image is in the file at its recorded offset" preserved by every call under every fault stream; then the reader is run symbolically on any file satisfying it |
| C08 | four encodings by C07; the four others by counterexamples that run the whole write/read path, plus, for every run, an exact description of what they store and return: `PHalf.v` (varint-ID: running sums of the IDs; varint-value: right values; both refuse ordinary data) |
| C11-C14 | closed form of the section sizes, monotone in the prefix |
| C15-C18, C39 | induction over the flush recursion on top of C07/C13 |
| C19-C23, C26, C45 | folds over blocks related to folds over the concatenated pairs (C23 also AlgebraFacts.v, PAlgebra.v: splitting a filtered list of pairs) |
| C24, C25 | invariant over all reachable states of the scheduler machine; merge is order independent; measure for termination |
| C27 | induction over the files from newest to oldest |
| C29 | heap-of-bitmaps state machine, invariant over histories; refuted with a mutating caller |
| C30-C36 | direct analysis of the reader on arbitrary bytes; counterexamples by computation |
| C38 | the offset a failing Finalize leaves, by system call number (RetryFacts); counterexamples by computation with an injected fault |
| C40, C42, C44 | case analysis / relational invariant |
| C43 | SpecFloat division related to Flocq's rounding theorem |
| C46 | corollary of C07/C13 for the CLI driver (`CliFacts.v`); its parsing against a grammar of decimal numerals in `CliSpec.v` |
| C47, C48 | the file handle's open flag threaded through the reader; every answer after Close computed (`CloseFacts.v`) |
| C49 | fold over blocks on arbitrary accepted bytes (`ArbFacts.v`, `CorruptFacts.v`) |
| C50 | invariant "positions exceed blocks by at least the number of torn blocks", over every later call (`TornFacts.v`) |
| C51 | rely-guarantee invariant over the interleaving machine of `Shared.v` (`SharedFacts.v`); step counting for wait-freedom; the two bad races by computation |
| C52 | calls other than Finalize keep the first 64 bytes (invariant over the writer monad); mixed bytes lemma for the header fields; two readers whose files agree from byte 64 on give equal answers (`PowerFacts.v`) |
| C53 | symbolic evaluation of NewReader on a 92-byte file with arbitrary announced counts (`HostileFacts.v`); the written case from the finalized-file invariant |
| C54 | the import loop is related to a run of SimpleWriter calls, then C15-C18 and C24 (`LoadFacts.v`); the random number generator is an arbitrary sequence, and which numbers are used for what is an inductive relation of `LoadSpec.v` (`DrawFacts.v`) |
| C55 | symbolic evaluation of the two example programs, with clock and checksum bytes as variables; the reader on arbitrary bytes by case analysis (`ExampleFacts.v`) |
| C56 | the reader's index entries are the written statistics (C13), then the text line by line (`DebugFacts.v`); for other files every field of an opened file is shown in range, and induction over the index; induction over the hexadecimal digits |
| C57 | exact half-even rounding of the double's value, composed with C43's error bound (`PrintFacts.v`) |
| C58 | a relational Hoare logic: the run that stops at system call n after k bytes against the undisturbed run, through every writer method (`StopFacts.v`, `StopCalls.v`, `StopBytes.v`); vocabulary in `StopSpec.v` |
| C59 | the relational logic of C58 lifted to SimpleWriter's flush loop, Write and Close (`StopSimple.v`), joined with C15 for the contents |
| C60 | `Live.v`: NewReader where Stat and each of its reads see the file at their own moment; the relational logic of C58 also shows that contents only grow behind the header (`earlier`), so that a full length means the complete file (`LiveFacts.v`). Not covered: Stat before NewWriter has returned |
| C61 | `ReadFault.v`: the reading functions again, each non-empty `ReadAt` of which may fail. A failing block read is shown equivalent to an index entry that points outside the file (`mask`), so the results on aggregation and parallel schedules carry over (`ReadFaultFacts.v`) |
| C62 | `SnapSpec.v`: the contents of the file at any later moment of the writer (`later`, `seen_later`), the same Reader on other bytes. A small program logic (`SnapFacts.v`) shows that from the end of a successful Finalize on, every call, however its system calls fail, leaves the bytes from 60 up to that end as they are, unless a Finalize fails in the header; all a Reader reads lies there. A successful Finalize may itself be followed by more blocks because it leaves the offset at the end |
| C63 | `CliMain.v`: `FlagSet.Parse` argument by argument, the variables, main over a map from names to contents. The spellings of a list of settings are an inductive relation (`CliMainSpec.v`); Parse accepts exactly those followed by arguments it ignores (induction on the argument list), and C46 does the rest |
| C64 | `FilterExample.v`: createSampleData, the five aggregations and the printing of the example, over C12/C13's exact aggregates (`FilterFacts.v`: the history is a finished run with three known blocks, so each result is the unique aggregate of known values; without failures no block is too large). The text is a literal (`FilterSpec.v`) |
| C65 | Invariant over all calls (`PanicFacts.v`): the sizes and statistics lists have as many entries as blockCount in every reachable state, also after failures in the middle of a block, so Finalize indexes within them; every other operation only touches the file. SimpleWriter: its two slices keep equal lengths and each BlockFullError shortens them |
| C66 | Over C27 (`MergeFacts.v`): the pairs visible through older ++ middle ++ newer depend on the middle only through its visible pairs, up to order, and an aggregate does not depend on the order; for files with distinct IDs, visible = last put, by induction over the files |
| C67 | Finding, `BigFacts.v`: the block-writing triple redone without the size limit (sections below 2^32 bytes each, total above), the wrapped estimate, Finalize's triple, and a reader lemma for a file with one arbitrary footer entry; the size stored in the footer is the length modulo 2^32, so the sections exceed what is read. Proved by arithmetic on lengths, for every list of that length (the case is the IDs 0, 1, 2, ...) |
| C68 | `FillFacts.v`, `PFill.v`: an invariant over SimpleWriter states (every block in the file is full, blocks start page aligned) with the maximality of WriteBlock's cut; the file size from Finalize's exact output. The invariant carries the set of targets in force, so that SetTargetBlockSize may be called at any time (`C68_set_target`). |
| C69 | `AsWriter.v`, `PAsWriter.v`: every SimpleWriter call is a list of Writer calls (induction over the flush recursion); aggregates are invariant under permutation of the pairs |
| C70 | `LoadMain.v` (flag and strconv.ParseInt/ParseUint with base 0, the three `main`s), `LoadMainSpec.v` (grammar of Go integer literals, spellings of flags), `LoadMainFacts.v` (the parsers accept exactly the grammar), `PLoadMain.v`: composed with C54 and C55 |
| C71 | `FormatSpec.v` (the document as a predicate on bytes; its silences and contradictions are listed there), `FormatFacts.v`, `FormatProps.v`, `PFormat.v` (SimpleWriters: `SimpleFormat.v`, `PSimpleFormat.v`): every field located in the bytes of a finished file; delta-ID/delta-value by C72 and C08 |
| C72 | as C71; the Reader's field accesses are derived from the document's fields, its decoders from base-128 numbers of any length up to ten bytes and differences; aggregation by the same view of a reader as C19-C25 |
| C73 | `AnySpec.v` (what each block contributes), `AnyFacts.v`, `PAny.v`: scans over any opened file as sums of per-block accumulators, then the machine of C24/C25; counterexamples computed on crafted files |
| C74 | `StuckFacts.v`, `PStuck.v`: the open flag is an invariant of every operation but Close (`steady`); a torn block leaves more positions than blocks (C50's `gap`), an invariant under every SimpleWriter call that Finalize refuses; encodings 5 and 8+ make `writeBlockInternal` fail in every state |
| C75 | `ManySpec.v`, `ManyFacts.v`, `PMany.v`: induction over the files, newest first, with the deny set as the union of the bitmaps seen so far (`any_loop`), each file by C73's exact scan; conforming files meet C27's `solid` invariant, so its induction covers mixtures |
| C76 | `SharedMulti.v`, `SharedMultiSpec.v`, `SharedMultiFacts.v`, `PSharedMulti.v`: C51's rely-guarantee invariant per Reader, lifted to programs that call several Readers in turn and share one memory for bitmaps (`okm`, `wrely`); a goroutine that saw a closed file knows that the bitmap after it cannot be read either, unless it is cached (`learn`, `closed_bitmap`); composed with C75 for files of this library and foreign ones |
| C77 | `Racing.v`, `RacingSpec.v`, `RacingFacts.v`, `PRacing.v`: the machine of C21 in which each step carries a flag (reads work or not); the blocks not read yet are an invariant multiset (`left_in`, `reads_left`), so each block has one flag and the run is a run of C21's machine with the flags fixed by block (`run_by_block`), to which C21's invariant and measure apply |
| C78 | `Memory.v`, `MemorySpec.v`, `MemoryFacts.v`, `PMemory.v`: a memory of arrays with Go's slices, `make`, `copy`, reslicing and `append` (in place or not); SimpleWriter, the encoders and the decoder written against it. Refinement: the slices held by the caller are in arrays of their own, apart from those the SimpleWriter still stores into (`holds`, `inv`, `pend`), so each step of `run_slices` is the step of `run_values`, in which slices are lists |
| C79 | `DamageSpec.v`, `DamageFacts.v`, `PDamage.v`: two files equal outside a set of positions (`same_outside`); reads of ranges that avoid the set are equal, so opening, `readBlock`, the bitmap and, by an invariant on the blocks left to each worker, every run of the parallel machine are equal. Finished files: C10's layout makes the parts disjoint |
| C80 | `SizeSpec.v`, `SizeFacts.v`, `FileSizeFacts.v`, `PSize.v`: `content` counts the bytes from the numbers alone (`Z.log2 x / 7 + 1`), independently of the encoders; the length of each code is that width (from C01's bounds), summed over a section; comparisons by sums |
| C81 | `Traced.v` instruments the reading functions with the list of their reads; `PTraced.v` shows that they answer as the functions of the model, and that the answer depends on those bytes only (`TracedSame.v`, by induction over the calls and the schedule); that each candidate is read once is C77's invariant on what is left to be read; the layout part follows from the contiguous blocks of `WriterProps.layout`; `TracedFault.v` relates the traces to `ReadFault.v`, call by call, for failing reads |
| C82 | `ClosingFacts.v`, `PClosing.v`: over the interleaving model of `SharedMulti.v`, a ghost owner for every reader (the call whose `Close` found the file open); each call's remaining program is checked against what it owns and what it knows to be gone, for all answers of the shared state. |
| C83 | `Paths.v` puts several Writers, each with its own offset and records, over files that Writers on one path share; by induction over the calls, Writer and file stay those of a run alone (`PathsFacts.v`), with C40's lemma for closed Writers and C07 for reading back; the clash on one path, and an open Reader whose path is created anew, are computed |
| C84 | Every Seek, Write, Sync and Close takes one element of the stream of faults (FileIO.v), so the number of calls is what a call removes from it (`made`, CostSpec.v). A judgement `costs` (least on success, most in any case; CostFacts.v) is composed along the monad; the search for the prefix that fits is counted by induction; a session by induction on its calls. CPU time, bytes and os.Create are not counted. |
| C85 | `Descriptors.v`: a table of descriptors next to the handles; invariant over the history: an entry is in the table exactly when its handle is open; what each call opens and closes from C74's lemmas and from totality of header and footer parsing (`DescriptorsFacts.v`) |

## Trusted base

* Coq 8.16.1's kernel (and `coqchk`), `vm_compute` for the concrete witnesses.
* `Print Assumptions`: every property theorem is "Closed under the global context" except those of C43 and C57, which use
  Flocq over the standard library's reals and therefore list `ClassicalDedekindReals.sig_not_dec`,
  `ClassicalDedekindReals.sig_forall_dec`, `FunctionalExtensionality.functional_extensionality_dep` and
  `Classical_Prop.classic` (all standard library). Other standard axioms are loaded by `Require` only (e.g. by
  `ZifyBool`) and no theorem depends on them.
* Premises that stand for code outside the repository, visible in the theorems' statements: the class `SroarLaws`
  (roaring bitmap library; `list_sroar` in `Sroar.v` satisfies it), and a sorter that returns a sorted permutation
  (`sort.Slice`).
* Size premises (Go slices and 32-bit fields): at most 200,000,000 items per block, `56 * blocks < 2^32`, serialized
  bitmap `< 2^32`, file `< 2^63`.
* The reading of the Go code: no code was executed. `os.File`, `encoding/binary`, `sort.Slice`, `sync`, channels and
  sroar behave as modelled.

## Tests of the theorems

`seeded/LOG.jsonl` records edits of the model (one realistic bug each), the claim each one breaks, and the theorems whose
proofs then fail. The edits were made in a scratch copy.
