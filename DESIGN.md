# A Rocq (Coq 8.16.1) model of suggest-go/suggest

Source: `/repo` (Go, read as text only; nothing was built or run).  All Coq sources live in
`rocq/theories/` (logical name `Verif`).  Properties: `properties.jsonl`; status per property:
`MANIFEST.json` (generated by `tools/manifest.py`); mutation experiments: `seeded/LOG.jsonl`
(driver `tools/mutate.py`).

## 1. How the model is organised

| kind of file | content |
|---|---|
| `Store.v`, `Compression.v`, `Postings.v`, `Heap.v`, `Merger.v`, `GoMap.v`, `Index.v`, `Text.v`, `Analysis.v`, `Float64.v`, `Metric.v`, `MetricFloat.v`, `TopK.v`, `Suggest.v`, `Autocomplete.v`, `Service.v`, `Http.v`, `CountTrie.v`, `NGram.v`, `Mph.v`, `Decimal.v`, `NGramStore.v`, `LMAlias.v`, `Scanner.v`, `GoogleNGram.v`, ... | the model: definitions only, each citing the Go file and lines; simplifications are stated in the same comment |
| `*Spec.v` | small specifications that do not mention the model (LEB128 meaning, "value occurs in at least T lists", windows of a text, occurrences of an n-gram in a corpus, ...) |
| `*Proofs*.v`, `BaseLemmas.v`, `P_*Lemmas.v` | lemmas |
| `P_*.v` | the property theorems, `Print Assumptions` under each one, and an `Example ..._nonvacuous` that exhibits a concrete non-trivial case meeting the hypotheses |

Naming: `Cnn_...` is a theorem that contributes to property Cnn; `_partial`: the property under
extra conditions (visible as hypotheses); `_refuted`: the property *as stated* is false of the
code, and the theorem is the machine-checked counterexample (in most cases accompanied by a
theorem giving the exact behaviour).  A property with a refuted part is never called "proved" in
the manifest unless the property's own statement excludes that part.

## 2. Modelling conventions

* Go `uint32`, `uint16`, `byte`, `int`, `int64` are `Z` with explicit wrap (`mod 2^k`, two's
  complement) wherever the Go operation can wrap.
* A Go slice or string is a list.  Aliasing is modelled only where a property is about it (C53:
  slices with capacity over a shared heap, `append` growth arbitrary).
* Functions that return an error, panic, or loop give `res T := Ret v | Fail e | Panic | NoFuel`.
  Loops take fuel; `NoFuel` means "has not ended within this many steps".  Theorems either state the
  exact `Ret` (for every sufficiently large fuel, with the bound explicit), or, for divergence,
  `NoFuel` for *every* fuel.  `log.Fatal` is `Panic`.
* Go maps are association lists; wherever Go ranges over a map the theorem is quantified over all
  iteration orders (any permutation, chosen freshly each time).
* `sort.Slice`/`sort.Sort`: any function that returns a sorted permutation (`sorts_by_size` and
  similar); nothing about stability or algorithm is assumed, and if the comparator is not a strict
  weak order nothing but "permutation" is assumed.
* Goroutines, channels, mutexes and wait groups: small-step state machines with an explicit
  `choice` list as the schedule; theorems quantify over all schedules.  Steps are sequentially
  consistent; the data race on the service's map (C44) is modelled with an explicit
  "concurrent map access" abort.
* float64: ideal reals (`Coq.Reals`) for C35; IEEE binary64 by `Coq.Floats.SpecFloat` for everything
  computed (C36, C37, C41, C45, C50, C63, C67, ...).  amd64: no fused multiply-add; a conversion of
  an out-of-range float to `int` gives MinInt64.  Flocq appears in proofs only.
* `math.Log` is an arbitrary function `flog`.

### What is an oracle with an assumed contract

| component | contract |
|---|---|
| roaring bitmaps (`github.com/RoaringBitmap/roaring`) | `roaring_ok`: `FromBuffer` of what `WriteTo` wrote gives the same set; iteration ascending; `AdvanceIfNeeded` moves to the first value >= target (C13, C14, C24 ff.) |
| `encoding/gob` index header | reading back what was written returns the header value and consumes exactly its bytes; a strict prefix is an error (C24, C27) |
| `github.com/alldroll/rbtree` | in-order traversal is the list sorted by the comparator, equal items replaced as in its source (C59, C69) |
| `github.com/alldroll/cdb` | see C58: `Get` returns the value last put under the key, iteration in insertion order |
| `sort` | see above |
| `unicode.ToLower` | an arbitrary function on runes (`lowr`) |
| `math.Log`, `strconv.ParseFloat` | arbitrary functions |
| mmap | a mapped file is its bytes; mapping an empty file fails; a mapping of a file that is truncated and rewritten shows the current content (C44) |
| crash (C27) | process crash: the directory holds an arbitrary prefix of the operation history, with arbitrary `bufio` flush points; no reordering by the file system |

`bufio.Scanner`, `bufio.ScanLines`, `container/heap`, `strings.Split/Join/Trim/ToLower` (over
`lowr`), UTF-8 decoding and encoding, `fmt.Fprint`/`strconv` of unsigned decimals, `hash/fnv`
(FNV-1a 64, in `Mph.v`), and the run-time of the snowball stemmers (`github.com/snowballstem/snowball/go`, from its
published source, in `Snowball.v` and `SnowballSearch.v`) are *modelled*, not assumed.

### What is not modelled

* `sync.Pool` reuse outside `Pool.v` (C90, which shows that it cannot be seen; the other files give every search fresh objects); finalizers outside `Lifetime.v` (there: one-step finalizers, memory never reused, a variable in use exactly as long as the code reads it again, which is what the documentation of `runtime.SetFinalizer` promises);
  memory exhaustion; `make` with a huge announced length (except the 2^29 header wrap of C52).
* The HTTP server itself, the CORS and logging wrappers, percent-decoding of paths, failing writes of a response (C81-C84 begin at the decoded path and end at the response body); the text of a float (`ftext`, assumed to be a JSON number for finite floats); the texts of errors.
* Failing writes outside `WriteFaults.v` and `FaultyIndexer.v` (C103); there, too, what only `close`, `fsync` or `msync` would report, failing reads, and the inside of the cdb writer (trusted to report a failed write).
* CLI flag parsing, logging.  (Configuration files are C91; the models of C85 and C88 begin with the parsed descriptions.)
* In `Analysis.v` a token filter is an arbitrary function; the two stemming filters are in `StemFilter.v` (C75-C78).
* Network and signals (SIGHUP reindex is an `AddIndex` call at an arbitrary moment, C44).
* TopK `Merge` of a queue with itself.

## 3. Trusted base

1. Coq 8.16.1's kernel (`coqc`; `vcheck` also runs `coqchk`), including `vm_compute` conversions in
   witnesses (also re-checked by `coqchk` without the VM).
2. The axioms `Print Assumptions` lists.  327 of 436 theorems in the manifest at the time of writing are *closed
   under the global context*; the theorems about reals or about the accuracy of floats use the
   standard library's axioms of the reals and classical logic:
   `ClassicalDedekindReals.sig_forall_dec`, `ClassicalDedekindReals.sig_not_dec`,
   `FunctionalExtensionality.functional_extensionality_dep`, `Classical_Prop.classic`.
   No axiom is ours.  The table in section 6 is generated by `tools/assumptions.py`.
3. The faithfulness of the model to the Go text, checked by reading only, and the oracle contracts
   above.
4. Libraries: Coq standard library; Flocq 4 in `FloatProofs.v`, `MetricFloatProofs*.v`, `MetricScore.v`, `MetricWide.v`
   (proofs only; it adds no axioms beyond the list).

## 4. Plan and result per property

| id | modelled | proof | result |
|----|----------|-------|--------|
| C01-C03 | `byte_output.go`, `byte_input.go` | LEB128 specification; induction over groups and over write sequences | proved |
| C04 | cursor operations with int64 wrap | refinement to (data, position) for every operation sequence | proved except that `off+n` overflowing int64 panics (`_refuted`) |
| C05 | RAM and FS directories as histories | history invariant | FS proved; RAM re-creation keeps the old bytes (`_refuted`), fresh names proved |
| C06-C09 | binary, varint, skipping codecs | induction over the list / over blocks; header arithmetic | proved |
| C10 | constructor + encode loop | divergence for gap 0 for every fuel; decoder count witness; termination for every positive gap | refuted as stated; the positive-gap half proved |
| C11-C14 | three posting list iterators over encoded bytes; `codec.go` | refinement to cursor (list, index) for every call sequence | proved (bitmap relative to the roaring contract) |
| C15-C22 | ScanCount, CPMerge, MergeSkip, DivideSkip, intersector, optimizer, candidate packing | sweep/heap invariants against `occurs in at least T lists`; any collector | proved; DivideSkip for 0<=L<T (refuted when all lists are singletons); CPMerge wraps the collector's error |
| C23 | the same with empty lists | | ScanCount/CPMerge proved below the full threshold; MergeSkip, intersector refuted |
| C24-C27 | writer, commit, reader, search, crash prefixes | layout round trip under every map order and flush schedule | see manifest notes; refuted: repeated tokens, empty collection, first document without tokens, crash over an existing index |
| C28-C34, C65 | UTF-8, tokenizers, normalizer, alphabets | ring buffer invariant against the window specification | C28, C32, C33, C65 proved; C29-C31, C34 refuted in corners, exact behaviour proved |
| C35-C37 | metrics over R and binary64 | algebra; rounding error analysis with Flocq | C35 proved; C36/C37 refuted in general, proved up to 2^-46 in a stated range |
| C38-C40 | `container/heap`, `topKQueue` | heap invariant + refinement to the sorted top k | proved |
| C41-C43 | suggest/autocomplete: generator, workers, collectors, as state machine | schedule-independent invariant, measure for termination | C43 proved; C41/C42 refuted in corners |
| C44 | `Service` lock protocol | invariant over all interleavings | proved for RAM and undisturbed disc indexes; refuted when the mapped files are rewritten; `GetDictionaries` reads the map without the lock |
| C45, C66 | config and request validation | case analysis over SpecFloat and all strings | NaN accepted (refuted) |
| C46-C51, C63, C67 | count trie, n-gram builder, packed array, model, language model | multiset refinement; binary search invariant; exact score | see manifest notes |
| C52, C53 | stored models; aliasing | layout round trip; heap model of slices | see manifest notes |
| C54-C57 | MPH, indexer | partial correctness invariant; divergence by FNV modulo powers of two; search ends within a bound or never (P_Mph2) | see manifest notes |
| C58 | in-memory and cdb dictionaries (cdb: contract of the library) | induction over the entries | partial |
| C59, C60, C68 | Google n-gram files, `bufio.Scanner` + sentence splitter, dictionary files | step machine against `pieces` / `raw_lines` | exact for every chunking; 65536-byte tokens silently end the input (refuted) |
| C61, C62 | spellchecker `Predict`: context scorer, the two concurrent searches as state machines with the language model's collectors, merge, stable sort, cut, dictionary | invariants over every schedule; the completions are the best k; composition with C41/C42 | proved for limits from 1, except the number of entries (limit+1 possible, refuted); panics for limit 0 and below refute C62 |
| C64 | `pkg/vgram` (all files `+build ignore`: not part of the program): trie, walk, prune, builder over a contract for the missing `SplitIntoNGrams` | trie counts by induction over insertions; balance invariant; greedy choice by exchange | proved for the trie; builder partial |
| C69 | corpus -> counts -> files -> binary -> loaded model | composition of C46-C59 | proved under stated size conditions |
| C70 | the commands ngram-count, build-lm, eval: text -> files -> binary -> score of a line | composition of C60, C32, C69, C67 | proved under stated size conditions |
| C71 | dictionary -> tokens -> index -> directory -> reader -> search -> entries, for Suggest | composition of C29, C24, C41, C42 | proved under stated conditions |
| C72 | the same, for a query with the n-grams of an entry | C71's parts and exactness of score 1 | proved under stated conditions |
| C73 | the same, for Autocomplete | composition of C29, C24, C43, C34 | proved under stated conditions |
| C74 | indexer command, cdb dictionary (library as contract), disc service | equality with the in-memory model, schedule by schedule; then C71-C73 | proved under stated conditions |
| C75 | `ru/algorithm.go` over the snowball run-time (published source) | rule by rule against relations for the published algorithm; characters by induction | proved; exact for valid UTF-8, totality for all bytes; idempotence refuted |
| C76 | `en/algorithm.go` | rule by rule against a function for the published algorithm, on any byte string | proved; idempotence and capitals refuted |
| C77 | `stemmer_filter.go` | induction over the tokens | proved; "no stop words in the result" refuted |
| C78 | tables of both stemmers, the library's binary search | order and links by computation; the search by invariant, for any such table | proved |
| C79 | the Go heap as a graph with finalizers, threads' variables, mappings; every event of opening, slicing, reading, dropping, replacing, collecting | invariant over all histories (what is kept has its finalizer and is mapped); release by a measure on pending finalizers; refutations by executed histories | proved for holders of the whole; refuted for holders of a part and for Autocomplete during a replacement |
| C80 | `MMapReader` sequentially | case analysis | proved |
| C81 | encoding/json's writing of strings, arrays and items (`Json.v`) against a reader written from RFC 8259 (`JsonSpec.v`) | induction over characters; every text the writer makes is read back | proved; invalid UTF-8 refuted |
| C82 | the five handlers and the predict handler (`Handlers.v`) over the searches and Http.v | composition of C66, C71, C73, C61, C81 | partial (conditions of C71/C73); refuted for topK=0 on /predict/ |
| C83 | reindex runs as step machines over a changing config and changing files (`Reindex.v`) | invariants over histories | proved for runs that do not overlap; three refutations |
| C84 | the route tables and the router (`Routes.v`) | lemmas on splitting and cleaning paths | proved; names with a slash refuted |
| C85 | the paths of a configuration, path.Clean and path.Dir (`Paths.v`); files as lists of names (`PathsSpec.v`) | a path is walked element by element; Clean does not change where the walk ends | proved; collisions refuted |
| C86 | start, signals, shutdown (`ServerLife.v`): four kinds of goroutines as a step machine | invariant over all event sequences | proved; graceful shutdown, early SIGHUP, prompt SIGTERM refuted |
| C87 | training, dictionary, index and prediction end to end (`SpellBuild.v`: the dictionary the model writer makes, `BuildSpellChecker`) | composition of C69, C70, C74, C71, C50, C61, C62; the order of float scores is the order of counts when math.Log is strictly increasing on quotients of counts (`log_ok`, met by the identity: quotients below 2^28 stay apart after rounding) | partial: distinct n-grams per entry and query, a prefix n-gram, sizes; sentence symbols as predictions refuted |
| C88 | the indexer command (`Indexer.v`: `indexer`, `index_job`, signals and requests) over files, `outside` for creation, stat, kill and http.Post | induction over the descriptions with the files of the others framed; C71, C73, C74 for the content | partial (conditions of C71 or C95, and C74; descriptions that share no file); refuted: a failed run leaves the new dictionary with the old index |
| C89 | the three eval commands (`Eval.v`: sessions over the scanner machine, strings.TrimSpace, configureService) | induction over the scanner's steps to a walk over the lines (C68's `scan_lines`), then over the lines; C71 for the answers | proved; the content of suggest's answers under C71's conditions |
| C90 | the searcher, `CPMerge`, the intersector and the posting-list methods as programs over a shared memory (`Pool.v`: Get, Put, Load, Save, allocate), goroutines interleaving command by command, pools that hand out any used object or a new one, the collector dropping pooled objects | ownership: a program that, run alone, touches only what it holds (`wp`, with stale contents of everything taken from a pool universally quantified) keeps the invariant that every object is held by one goroutine or lies once in one pool (`PoolProofs.v`); the search program has that property and computes the pure `Search` of `Index.v` by simulation of slices in memory (`PoolProofs2.v`, `PoolProofs3.v`) |
| C91 | encoding/json's scanner and decoder for the two configuration types (`Config.v`), down to the reuse of slice cells and the folding of names, against the RFC 8259 reader of `JsonSpec.v` and a description of what a JSON value says (`ConfigSpec.v`) | the scanner reads every RFC text as the RFC reader does and, on UTF-8 without numeric escapes, nothing else (mutual inductions over the grammar with fuel bounds); the decoder's slots after all members are those of the named members (invariant over the members) | proved; a member named twice is merged, lone surrogates and invalid UTF-8 become U+FFFD (refuted) |
| C92 | the state machines of C41, C43 and C62 (`Suggest.v`, `Autocomplete.v`, `Spell.v`) over arbitrary, also damaged, indexes | invariant: what a goroutine that has searched holds is the outcome of that sub-index's search; every sub-index behind the producer has its goroutine; a failed goroutine stays failed until the result is made | proved |
| C93 | the whole of a deployment (`Deploy.v`): the configuration file (C91) read by the indexer (C88) and by the server, `AddIndexByDescription` for both drivers, the handlers over what was opened | composition: C91 gives the descriptions, C88 the files, C68/C71 the index in memory, C74 the lookups on disc, C82 the responses; the last description of a name wins (induction over the file) | partial: conditions of C71 or C95, C74, C82; unknown drivers and a missing n-gram size refuted |
| C94 | the posting lists, mergers, index and Suggest of C11-C27 and C41 for token lists with repetitions (`MergerAnySpec.v`, `SuggestAnySpec.v`: how often an id occurs in a list, how often it is collected) | the proofs of C11-C14, C17, C24, C27 redone for ascending lists (`IndexProofs`, `MergerAny`, `SearchAny`); the invariant of the workers for an abstract relation between a size and what is collected for it (`SuggestGen`), instantiated with the bounds on copies (`SuggestAny`) | partial: as C41; that an entry is returned once is refuted |
| C95 | the chain of C71 and C73 (indexer, commit, read, search, dictionary) for `dictionary_any` (`NGramIndexAnySpec.v`): any entries, below 2^32 n-grams together; `AutocompleteAnySpec.v` says which ids a call lists, and how often | the index of C94 for the documents of the dictionary (`NGramIndexAny`); the invariant of the Autocomplete workers for an abstract function from a size to what its search gives, instantiated by finite choice over the sizes (`AutocompleteAny`); `P_DeployAny` takes it through files, configuration and handlers (C74, C88, C93) | partial: as C71/C73; that [limit] different entries are returned is refuted |
| C96 | nothing new: two (or more) calls of the model of C71 and C73, over different oracles, indexes, dictionaries, limits and schedules | what passes the filter of C41 is a function of query, metric, similarity and entry; a list of all that pass, best first, is unique; prefixes of the list of C73; the tokens of a prefix (C34); `ToLower` of a concatenation | partial: conditions of C71/C73; full Suggest answers are excluded (ties, C41_same_answers_refuted) |
| C97 | `IndexerKill.v`: the disks a killed `suggest indexer` can leave: between jobs, while the dictionary is written (anything in it), after any operation of `Commit` with any flushes | frame; two runs from disks that differ only in the files of the jobs end alike; a cut document list under its header is simulated by the whole index, a search in it fails or is the same (`KillProofs1.v`); C93 | partial: process killed, no power cut; conditions of C93; updates are refuted |
| C98 | `LMDeploy.v`: `language-model ngram-count`, `build-lm`, `eval` and `spellchecker eval` as functions from a configuration path and a disk (C93) to a disk: reading the configuration (C91), creating all files before writing, mapping the inputs (an empty file cannot be mapped), the dictionary and binary files, the loaded model; `LMDeploySpec.v`: what a counts file is, the score of a sentence | frame lemmas for the disk; C70 for counting, C69 and C52 for building and loading, C74 for the dictionary, C87 for predictions, C89 for the sessions | partial: order at most longest sentence + 2 (else refuted), conditions of C70/C87, termination of the hash search |
| C99 | the same model as C71-C74 and C93, no new definitions of the program: `prefix_grams`/`entry_grams` may repeat or be empty | `AutocompleteAny.autocomplete_every`: the invariant of C95 with the sizes from the number of query n-grams on (repeated ones counted); distinct raw n-grams give that a prefix has no more n-grams than the entry; `SuggestAny` (C94) for repeated queries; `P_AnyQueryServer` takes both through disc, configuration and handlers ; `P_FullAnswer.full_complete` (scores finite by `MetricWide`, thresholds above 1 beat every similarity) for full answers | "the identical entry first" is refuted |
| C100 | the same model as C42, C71 and C93; the statement uses `longest` (the most n-grams of an entry) and the metric's bound `MinY`, or ideal similarities | `built_size`: the opened index has `longest + 1` sub-indices; C42's two refutations (capacity of the channel 0 or negative) at `longest + 1`, C71/C95 termination below; `min_tight`: an admissible size below the query's is similar enough up to 2^-46; through disc, configuration and handlers with `held` | proved |
| C101 | the same model; `returned` says that some call, over any index and schedule, returned a list | `MetricMono`: the bounds are compositions of roundings, which are monotone (Flocq), except Jaccard's threshold, a quotient of two roundings; `returned_items`: what is in an answer passed the filters for a similarity at least the requested one; `few_holds`: what passes is in an answer that is not full | partial: Jaccard refuted for neighbouring doubles |
| C102 | as C101; `leniency` orders the metrics | `MetricMono`, section N: each pair of neighbouring metrics, bound by bound: away from 1 the ideal bounds differ by more than the rounding, near 1 both round to the same integer; entries that repeat n-grams by `returned_any` (SuggestAny) | proved |
| C103 | `WriteFaults` models everything written to files over a machine that decides, system call by system call, whether an open succeeds and how many bytes a write takes; `bufio.Writer` explicit; `FaultyIndexer` the indexer command on it | each writer `does`: its bytes arrive (file ++ buffer) and all calls succeeded, or an error, a beginning arrived and a call failed; a commit on a failing machine is simulated by a history with arbitrary flushes cut at some point (so C24, C27, C97 apply) | proved (close/fsync errors not modelled: never called) |
| C104 | the same model as C52, C56, C98 and C103; `cut_short`: a proper beginning of what `StoreBinary` gives | reading at or across the end, segment by segment: the header line without its line feed leaves nothing behind it, a slice of the packed numbers does not fit, a cut number of the table is an error; a loader that did not fail is at the end of the buffer, where the next one fails | proved (spare capacity of slices not modelled: mapped files have none) |
| C105 | the model of C61-C62 (`Spell.v`), no new definitions of the program | `SpellAny`: the invariant of `SpellProofs` over any per-size answer lists, which `MergerAny` (C95) gives for repeated tokens; the second search from `SuggestAny` and `P_FullAnswer` (C99); `merge` adds no repetitions | "once" is refuted |
| C106 | the models of C87 and C105, no new definitions of the program | `P_SpellBuildAny`: the parts of the trained spellchecker (`from_parts`, C87) satisfy `parts_any`; C105 read back through the positions of the words | "once" is refuted over the pipeline |
| C107 | the models of C71-C72 and C95, no new definitions of the program | `P_LookupAny`: an entry with the query's own n-grams passes every threshold up to 1 (`identical_passes`); a raised threshold above 1 means a full answer above 1; `P_LookupServer`: over HTTP at the deployed server | |

(Properties above C60 were added as the model grew; they are described in `properties.jsonl` and
in the manifest notes.)

## 5. Findings (defects the model proves)

| where | what | theorem |
|---|---|---|
| `store/byte_input.go` | `Seek`/`ReadAt`/`Slice` with an offset near 2^63 pass the range check and panic | `C04_*_refuted` |
| `store/ram_directory.go` | creating an existing file does not truncate it | `C05_*_refuted` |
| `compression/skipping.go` | gap 0 is accepted and the encoder never ends | `C10_*_refuted` |
| `merger/divide_skip.go` | all-singleton lists with L = T lose/duplicate answers | `C18_*_refuted` |
| `merger/*` | empty posting list makes MergeSkip and the intersector fail | `C23_*_refuted` |
| `index/indexer_writer.go` | a first document without tokens panics; an empty collection cannot be committed and read back; a document with a repeated token is listed twice | `C24/C25_*_refuted` |
| `index` commit | a crash while overwriting an index leaves a mixture that opens without error | `C27_*_refuted` |
| `analysis` | normalizer after deduplication gives repeated tokens; n-gram size >= 9 panics on longer texts; short multi-byte texts give grams | `C29..C31_*_refuted` |
| `suggest/suggester.go` | panic or hang when every entry is too short for the query; NaN similarity never returns; tiny similarity panics; ties depend on the schedule; a query whose n-grams repeat can score an entry above 1 (query `+++` against entry `+`: Jaccard 3) | `C41/C42_*_refuted` |
| `suggest/autocomplete.go` | negative limit panics; repeated query grams | `C43_*` |
| `suggest/service.go` | disc rebuild mixes generations; `GetDictionaries` unsynchronised | `C44_*_refuted` |
| `suggest/search_config.go`, `http/utils.go` | NaN similarity accepted | `C45/C66_*_refuted` |
| `lm/count_trie.go` | a trie with only the empty sentence cannot be walked; sums wrap at 2^32 | `C46_*_refuted` |
| `lm/packed_array.go` | the node at position 2^32-3 is taken for "none" | `C48_*_refuted` |
| `lm/language_model.go` | `Next` with exactly `order` words conditions on the *first* words; back-off drops words at the *end* of the n-gram; sentences shorter than the order score 0; `Score` writes behind the caller's slice when it has spare capacity | `C51/C63/C67/C53_*_refuted` |
| `lm/binary.go` | a vector's loader reports its end position instead of its size; 2^29 entries wrap the header | `C52_*_refuted` |
| `mph/mph.go` | never ends for duplicate words, for two words of the same byte-sum parity, for 2^k words of which two are congruent byte by byte modulo 2^k (2 to 32 words with a word in both letter cases) and for most other small power-of-two dictionaries (eight colour names); lookups in an empty table panic | `C54/C55_*_refuted` |
| `lm/indexer.go` | the word `<nil/>` is taken for absence | `C57/C58_*_refuted` |
| `lm/sentence_retriever.go`, `dictionary/helpers.go` | a token of 65536 bytes silently ends the input; U+FFFD as separator makes the result depend on the chunks | `C60/C68_*_refuted` |
| `lm/ngram_writer.go`/`ngram_reader.go` | words with a space or tab do not read back; a 1-gram line without tab panics | `C59_*_refuted` |
| `cmd/suggest/cmd/indexer.go`, `dictionary/helpers.go` | a line of 65536 bytes: error for the disc driver, silent end of the dictionary for the RAM driver; an empty line: an entry for the RAM driver, probably an error (`io.EOF`) for the indexer | `C74_*_refuted` |
| `vgram/frequency_trie.go`, `gram_dictionary.go` | `Find` of an absent gram is a non-nil interface around a nil pointer: its methods panic; `qMin` is compared with a byte index; `qMin` 0 makes the builder's uint32 loop endless | `C64_absent_not_nil`, `C64_minimal_*` |
| `analysis/stemmer_filter.go`, `en/algorithm.go`, `ru/algorithm.go` | stop words are compared before stemming and case-sensitively: the result can hold stop words (`ons` -> `on`); the token `''s` becomes the empty token; stems are not stable (`agreed` -> `agre` -> `agr`); a capital Y of the input is lower-cased if another y was marked (`Yay` -> `yay`) | `C77_no_stop_words_refuted`, `C76_empty_stem`, `C75/C76_*_refuted` |
| `lm/binary.go`, `mph/mph.go` | a 1-gram file that lists a word twice with different counts makes two dictionary entries of it, and the hash construction never ends | `C54_*_refuted` |
| `spellchecker/spellchecker.go` | `candidates[:topK+1]` returns one entry more than the limit; limit 0 and negative limits panic; a unigram model makes every query of two words an error; short dictionaries panic (from Suggest) | `C61/C62_*_refuted` |
| `suggest/autocomplete.go`, `index/inverted_index.go`, `lm/ngram_model.go` | posting lists and vectors point into mapped memory without keeping the `Input` alive: when `AddIndex` replaces an on-disc index while `Autocomplete` merges its posting lists, two garbage collections unmap the file under it (SIGSEGV); the same for the result of `LanguageModel.Next` when the model itself is no longer used. A `runtime.KeepAlive` or a reference would do | `C79_*_refuted` |
| `spellchecker/api/predict_handler.go` | `GET /predict/<word>/?topK=0` passes the validation, and a goroutine of `Predict` panics: the whole server process dies | `C82_predict_zero_refuted` |
| `suggest/api/app.go`, `cmd/service.go` | a reindex never drops a dictionary that left the configuration; a failing run has replaced a part of the dictionaries; SIGHUP and POST /internal/reindex/ are not serialised: the older of two runs can win for good | `C83_*_refuted` |
| `suggest/api/app.go` | a dictionary with a slash in its name is listed and cannot be asked for; nor can queries with a slash, `.` and `..` | `C84_any_name_refuted` |
| `suggest/config.go`, `lm/config.go`, `lm/ngram_writer.go` | an index and a model of one name in one directory write the same `.cdb` file; two models in one directory write the same `1-gm`, `2-gm`, ... files; a name with a slash can be another dictionary's | `C85_*_refuted` |
| `suggest/api/app.go`, `http/http_server.go` | `Run` returns as soon as the listener is closed and main with it: accepted requests are cut off by the "graceful" shutdown; the PID file is written before the dictionaries are loaded and long before `signal.Notify`, so the indexer's SIGHUP kills a server that is starting; a SIGTERM during a reindex run waits for its end | `C86_*_refuted` |
| `lm/builder.go`, `dep/spellchecker.go` | the sentence symbols are entries of the spellchecker's dictionary: trained on "I, am? i!" with the index description of the examples it answers "s" with "<S>" and "</S>" | `C87_symbols_refuted` |
| `cmd/indexer.go` | a run that fails after the dictionary was written (an empty line in the source, an index directory that is not there) leaves the new dictionary beside the old index; both open without an error and completions of "A" are then unrelated words | `C88_mixed_refuted` |
| `cmd/indexer.go` | the number in the PID file is not checked: "-1" makes it signal every process the user may signal | `C88_pid_refuted` |
| `suggest/config.go`, `lm/config.go` | a member named twice is not simply the later one: `"alphabet": ["a", "b"], "alphabet": [null]` gives `["a"]` (encoding/json reuses the cells); half a surrogate pair is read as U+FFFD | `C91_repeated_refuted`, `C91_not_json_refuted` |
| `cmd/indexer.go`, `suggest/service.go` | a driver that is neither `DISC` nor `RAM` (`disc`, or none) is skipped by the indexer, which succeeds and signals the server; the server takes it for DISC and fails | `C93_driver_refuted` |
| `suggest/config.go` | `nGramSize` missing is 0: accepted, and the server panics when it loads the description | `C93_size_refuted` |
| `suggest/suggester.go`, `merger` | an entry that has an n-gram twice is collected, and returned, up to twice, and takes the place of another entry | `C94_each_once_refuted` |
| `suggest/autocomplete.go`, `merger` | an entry such as `a-a+` whose n-grams coincide after padding is returned twice by Autocomplete and takes the place of another entry with the prefix | `C95_different_refuted` |
| `cmd/indexer.go`, `index/indexer_writer.go` | the files of a dictionary are overwritten in place: a kill during an update leaves a mixture that opens without an error and answers wrongly, also when the source has not changed (the order of the document list is that of a Go map) | `C97_update_refuted`, `C97_reindex_refuted` |
| `index/indexer_writer.go` | the header is closed before the document list is: a kill leaves an index that opens but whose searches fail | `C97_cut_answers` |
| `cmd/build-lm.go`, `lm/ngram_reader.go` | an order larger than the longest sentence plus 2 gives an empty n-gram file, which cannot be mapped: build-lm never succeeds | `C98_order_refuted` |
| `lm/config.go`, `lm/ngram_writer.go` | the files of the n-grams are named by their order only: two models with one output directory overwrite each other's counts, and one is built from the text of the other without an error | `C98_two_models_refuted` |
| `analysis/ngram_tokenizer.go`, `analysis/normalizer.go` | n-grams are made different before characters outside the alphabet are replaced: a query such as `-+` counts one n-gram three times, scores exceed 1, and another entry ranks above the one equal to the query | `C99_exact_first_refuted` |
| `suggest/suggester.go` | a query that is one n-gram too long for every entry never returns (its goroutines leak), a longer one panics with a negative channel capacity; over HTTP the client waits for ever or loses the connection | `C100_answered`, `C100_request` |
| `metric/jaccard.go` | the threshold is not monotone in the similarity: an entry of similarity exactly 9/25 is not returned for 0.36 but is for the next larger double | `C101_lower_similarity_refuted` |
| `store/byte_output.go:71` | `Close` looks for an `io.Closer` in the `bufio.Writer`, which is none: the files are never closed (descriptors leak until a finalizer runs) and an error that only `close` reports is lost | outside C103, which is about `open` and `write` |
| `lm/packed_array.go:139` | the loader slices the mapped file by the sizes of the header without looking at its length: a model file cut inside the packed numbers kills the process instead of giving an error | `C104_error_refuted` |
| `lm/binary.go`, `cmd/language-model/cmd/build-lm.go` | the new dictionary is written in place before the model: a rebuild that fails (or is killed) in between leaves the new dictionary beside the old model, both load, and every sentence is scored wrongly without an error | `C104_mixed_refuted` |
| `pkg/spellchecker/collector.go`, `pkg/spellchecker/spellchecker.go` | a word that repeats an n-gram is collected once for every repetition, and the merge of the two searches removes only repetitions between them: such a word is predicted twice and crowds out others | `C105_once_refuted`, `C106_once_refuted` |
| encoding of responses | entries that are not UTF-8 cannot be told apart by a client | `C81_bytes_refuted` |

## 6. Print Assumptions per theorem

`closed` = closed under the global context.  The names are the standard library's:
`sig_forall_dec`, `sig_not_dec` (`ClassicalDedekindReals`), `functional_extensionality_dep`
(`FunctionalExtensionality`), `classic` (`Classical_Prop`).

| property | theorem | file | assumptions |
|---|---|---|---|
| C01 | `C01_varint_roundtrip` | `P_Store.v` | closed |
| C02 | `C02_varint_reader_is_leb128` | `P_Store.v` | closed |
| C03 | `C03_typed_stream_roundtrip` | `P_Store.v` | closed |
| C04 | `C04_input_cursor_partial` | `P_Store.v` | closed |
| C04 | `C04_input_never_panics_refuted` | `P_Store.v` | closed |
| C05 | `C05_fs_create_replaces` | `P_Store.v` | closed |
| C05 | `C05_ram_create_replaces_refuted` | `P_Store.v` | closed |
| C05 | `C05_ram_create_fresh_partial` | `P_Store.v` | closed |
| C06 | `C06_binary_roundtrip` | `P_Compression.v` | closed |
| C07 | `C07_varint_list_roundtrip` | `P_Compression.v` | closed |
| C08 | `C08_skipping_roundtrip` | `P_Compression.v` | closed |
| C09 | `C09_block_headers` | `P_Compression.v` | closed |
| C10 | `C10_encoder_terminates_refuted` | `P_Compression.v` | closed |
| C10 | `C10_negative_gap_panics_refuted` | `P_Compression.v` | closed |
| C10 | `C10_decoder_count_refuted` | `P_Compression.v` | closed |
| C10 | `C10_positive_gap_partial` | `P_Compression.v` | closed |
| C11 | `C11_varint_list_is_cursor` | `P_Postings.v` | closed |
| C12 | `C12_skipping_list_is_cursor` | `P_Postings.v` | closed |
| C13 | `C13_bitmap_list_is_cursor` | `P_Postings.v` | closed |
| C13 | `C13_any_list` | `P_Postings.v` | closed |
| C14 | `C14_format_invisible` | `P_Postings.v` | closed |
| C14 | `C14_repetitions` | `P_Postings.v` | closed |
| C15 | `C15_scancount_correct` | `P_Merger.v` | closed |
| C16 | `C16_cpmerge_correct` | `P_Merger.v` | closed |
| C17 | `C17_mergeskip_correct` | `P_Merger.v` | closed |
| C18 | `C18_divideskip_correct_partial` | `P_Merger.v` | closed |
| C18 | `C18_divideskip_correct_real_partial` | `P_Merger.v` | classic, functional_extensionality_dep, sig_forall_dec, sig_not_dec |
| C18 | `C18_divideskip_singletons_refuted` | `P_Merger.v` | classic, functional_extensionality_dep, sig_forall_dec, sig_not_dec |
| C19 | `C19_intersect_correct` | `P_Merger.v` | closed |
| C20 | `C20_mergers_agree` | `P_Merger.v` | closed |
| C21 | `C21_early_termination` | `P_Merger.v` | closed |
| C21 | `C21_limit_gets_smallest` | `P_Merger.v` | closed |
| C21 | `C21_error_unchanged_refuted` | `P_Merger.v` | closed |
| C22 | `C22_candidate_packing` | `P_Merger.v` | closed |
| C23 | `C23_empty_lists_partial` | `P_Merger.v` | closed |
| C23 | `C23_mergeskip_empty_refuted` | `P_Merger.v` | closed |
| C23 | `C23_intersect_empty_refuted` | `P_Merger.v` | closed |
| C24 | `C24_index_roundtrip_fs` | `P_Index.v` | closed |
| C24 | `C24_index_roundtrip_ram` | `P_Index.v` | closed |
| C24 | `C24_repeated_token_refuted` | `P_Index.v` | closed |
| C24 | `C24_empty_index_refuted` | `P_Index.v` | closed |
| C25 | `C25_add_any_document_refuted` | `P_Index.v` | closed |
| C25 | `C25_add_document_panics_iff` | `P_Index.v` | closed |
| C25 | `C25_no_tokens_never_found` | `P_Index.v` | closed |
| C26 | `C26_search_correct` | `P_Index.v` | closed |
| C26 | `C26_search_documents` | `P_Index.v` | closed |
| C27 | `C27_crash_safe_refuted` | `P_Index.v` | closed |
| C27 | `C27_crash_fresh_directory_partial` | `P_Index.v` | closed |
| C28 | `C28_ngram_windows` | `P_Analysis.v` | closed |
| C28 | `C28_distinct_and_complete` | `P_Analysis.v` | closed |
| C28 | `C28_characters_make_up_the_text` | `P_Analysis.v` | closed |
| C29 | `C29_tokens_distinct_refuted` | `P_Analysis.v` | closed |
| C29 | `C29_tokens_distinct_partial` | `P_Analysis.v` | closed |
| C30 | `C30_short_text_refuted` | `P_Analysis.v` | closed |
| C30 | `C30_short_text_exact` | `P_Analysis.v` | closed |
| C31 | `C31_never_panics_partial` | `P_Analysis.v` | closed |
| C31 | `C31_never_panics_refuted` | `P_Analysis.v` | closed |
| C32 | `C32_word_runs` | `P_Analysis.v` | closed |
| C32 | `C32_word_runs_filtered` | `P_Analysis.v` | closed |
| C32 | `C32_invalid_bytes_refuted` | `P_Analysis.v` | closed |
| C33 | `C33_normalizer` | `P_Analysis.v` | closed |
| C33 | `C33_idempotent` | `P_Analysis.v` | closed |
| C33 | `C33_invalid_byte_refuted` | `P_Analysis.v` | closed |
| C34 | `C34_prefix_tokens_partial` | `P_Analysis.v` | closed |
| C34 | `C34_short_query_refuted` | `P_Analysis.v` | closed |
| C34 | `C34_converse_refuted` | `P_Analysis.v` | closed |
| C65 | `C65_composite` | `P_Analysis.v` | closed |
| C65 | `C65_described` | `P_Analysis.v` | closed |
| C65 | `C65_listed` | `P_Analysis.v` | closed |
| C65 | `C65_listed_refuted` | `P_Analysis.v` | closed |
| C65 | `C65_sizes` | `P_Analysis.v` | closed |
| C65 | `C65_size_refuted` | `P_Analysis.v` | closed |
| C35 | `C35_filters_exact` | `P_Metric.v` | functional_extensionality_dep, sig_forall_dec, sig_not_dec |
| C35 | `C35_threshold_decides` | `P_Metric.v` | functional_extensionality_dep, sig_forall_dec, sig_not_dec |
| C35 | `C35_overlap_cap_refuted` | `P_Metric.v` | functional_extensionality_dep, sig_forall_dec, sig_not_dec |
| C36 | `C36_filters_exact_refuted` | `P_Metric.v` | closed |
| C36 | `C36_size_bounds_exact_refuted` | `P_Metric.v` | closed |
| C36 | `C36_nothing_similar_is_lost_partial` | `P_Metric.v` | classic, functional_extensionality_dep, sig_forall_dec, sig_not_dec |
| C36 | `C36_nothing_dissimilar_passes_partial` | `P_Metric.v` | classic, functional_extensionality_dep, sig_forall_dec, sig_not_dec |
| C36 | `C36_score_accurate` | `P_Metric.v` | classic, functional_extensionality_dep, sig_forall_dec, sig_not_dec |
| C36 | `C36_score_monotone` | `P_Metric.v` | classic, functional_extensionality_dep, sig_forall_dec, sig_not_dec |
| C36 | `C36_exact_metric` | `P_Metric.v` | closed |
| C37 | `C37_identical_passes_partial` | `P_Metric.v` | classic, functional_extensionality_dep, sig_forall_dec, sig_not_dec |
| C37 | `C37_identical_passes_refuted` | `P_Metric.v` | functional_extensionality_dep, sig_forall_dec |
| C38 | `C38_topk_keeps_best` | `P_TopK.v` | closed |
| C38 | `C38_operations_succeed` | `P_TopK.v` | closed |
| C38 | `C38_lowest_score` | `P_TopK.v` | closed |
| C38 | `C38_best_is_unique` | `P_TopK.v` | closed |
| C38 | `C38_same_is_equal` | `P_TopK.v` | closed |
| C38 | `C38_zero_panics` | `P_TopK.v` | closed |
| C38 | `C38_nan_refuted` | `P_TopK.v` | closed |
| C39 | `C39_merge_order_irrelevant` | `P_TopK.v` | closed |
| C40 | `C40_listing_is_repeatable` | `P_TopK.v` | closed |
| C40 | `C40_listing_twice` | `P_TopK.v` | closed |
| C41 | `C41_same_answers_refuted` | `P_Suggest.v` | closed |
| C41 | `C41_every_schedule_partial` | `P_Suggest.v` | classic, functional_extensionality_dep, sig_forall_dec, sig_not_dec |
| C41 | `C41_fewer_than_k_partial` | `P_Suggest.v` | classic, functional_extensionality_dep, sig_forall_dec, sig_not_dec |
| C41 | `C41_exact_metric` | `P_Suggest.v` | classic, functional_extensionality_dep, sig_forall_dec, sig_not_dec |
| C41 | `C41_consistent_thresholds_partial` | `P_Suggest.v` | classic, functional_extensionality_dep, sig_forall_dec, sig_not_dec |
| C41 | `C41_best_is_unique` | `P_Suggest.v` | closed |
| C41 | `C41_mutual_exclusion` | `P_Suggest.v` | closed |
| C41 | `C41_score_above_one_refuted` | `P_Suggest.v` | closed |
| C41 | `C41_repeated_tokens_partial` | `P_Suggest.v` | classic, functional_extensionality_dep, sig_forall_dec, sig_not_dec |
| C42 | `C42_terminates_partial` | `P_Suggest.v` | classic, functional_extensionality_dep, sig_forall_dec, sig_not_dec |
| C42 | `C42_returns_partial` | `P_Suggest.v` | classic, functional_extensionality_dep, sig_forall_dec, sig_not_dec |
| C42 | `C42_no_deadlock_any_index_partial` | `P_Suggest.v` | classic, functional_extensionality_dep, sig_forall_dec, sig_not_dec |
| C42 | `C42_short_entries_panic_refuted` | `P_Suggest.v` | classic, functional_extensionality_dep, sig_forall_dec, sig_not_dec |
| C42 | `C42_short_entries_hang_refuted` | `P_Suggest.v` | classic, functional_extensionality_dep, sig_forall_dec, sig_not_dec |
| C42 | `C42_nan_never_returns_refuted` | `P_Suggest.v` | closed |
| C42 | `C42_tiny_similarity_panics_refuted` | `P_Suggest.v` | closed |
| C43 | `C43_first_matches` | `P_Autocomplete.v` | classic, functional_extensionality_dep, sig_forall_dec, sig_not_dec |
| C43 | `C43_ids` | `P_Autocomplete.v` | closed |
| C43 | `C43_terminates` | `P_Autocomplete.v` | closed |
| C43 | `C43_no_deadlock` | `P_Autocomplete.v` | closed |
| C43 | `C43_no_panic` | `P_Autocomplete.v` | classic, functional_extensionality_dep, sig_forall_dec, sig_not_dec |
| C43 | `C43_mutual_exclusion` | `P_Autocomplete.v` | closed |
| C43 | `C43_empty_query` | `P_Autocomplete.v` | closed |
| C43 | `C43_negative_limit_refuted` | `P_Autocomplete.v` | closed |
| C43 | `C43_repeated_terms_refuted` | `P_Autocomplete.v` | closed |
| C44 | `C44_installed_together` | `P_Service.v` | closed |
| C44 | `C44_installs` | `P_Service.v` | closed |
| C44 | `C44_finished_adds_are_visible` | `P_Service.v` | closed |
| C44 | `C44_ram_one_build` | `P_Service.v` | closed |
| C44 | `C44_found_is_answered` | `P_Service.v` | closed |
| C44 | `C44_ram_answers_from_source` | `P_Service.v` | closed |
| C44 | `C44_disc_one_build_partial` | `P_Service.v` | closed |
| C44 | `C44_one_build_refuted` | `P_Service.v` | closed |
| C44 | `C44_no_map_race_partial` | `P_Service.v` | closed |
| C44 | `C44_listing_race_refuted` | `P_Service.v` | closed |
| C44 | `C44_terminates` | `P_Service.v` | closed |
| C44 | `C44_no_deadlock` | `P_Service.v` | closed |
| C45 | `C45_accepted_iff` | `P_Http.v` | classic, functional_extensionality_dep, sig_forall_dec, sig_not_dec |
| C45 | `C45_number_required_refuted` | `P_Http.v` | functional_extensionality_dep, sig_forall_dec |
| C45 | `C45_numbers_partial` | `P_Http.v` | classic, functional_extensionality_dep, sig_forall_dec, sig_not_dec |
| C66 | `C66_parse_int` | `P_Http.v` | closed |
| C66 | `C66_topk_param` | `P_Http.v` | closed |
| C66 | `C66_autocomplete_limit` | `P_Http.v` | closed |
| C66 | `C66_suggest_request` | `P_Http.v` | classic, functional_extensionality_dep, sig_forall_dec, sig_not_dec |
| C66 | `C66_predict_zero_refuted` | `P_Http.v` | closed |
| C66 | `C66_nan_request_refuted` | `P_Http.v` | closed |
| C46 | `C46_walk_partial` | `P_CountTrie.v` | closed |
| C46 | `C46_walk_sums` | `P_CountTrie.v` | closed |
| C46 | `C46_walk_refuted` | `P_CountTrie.v` | closed |
| C47 | `C47_build_counts_partial` | `P_CountTrie.v` | closed |
| C48 | `C48_lookup_partial` | `P_NGram.v` | closed |
| C48 | `C48_lookup_refuted` | `P_NGram.v` | closed |
| C49 | `C49_counts_partial` | `P_NGram.v` | closed |
| C49 | `C49_counts_refuted` | `P_NGram.v` | closed |
| C50 | `C50_next_partial` | `P_NGram.v` | closed |
| C51 | `C51_recent_partial` | `P_NGram.v` | closed |
| C51 | `C51_recent_refuted` | `P_NGram.v` | closed |
| C63 | `C63_score_partial` | `P_NGram.v` | closed |
| C63 | `C63_suffix_refuted` | `P_NGram.v` | closed |
| C67 | `C67_sentence_score` | `P_NGram.v` | closed |
| C67 | `C67_short_refuted` | `P_NGram.v` | closed |
| C54 | `C54_perfect_partial` | `P_Mph.v` | closed |
| C54 | `C54_empty_refuted` | `P_Mph.v` | closed |
| C55 | `C55_duplicates_refuted` | `P_Mph.v` | closed |
| C55 | `C55_two_words_refuted` | `P_Mph.v` | closed |
| C55 | `C55_congruent_words_refuted` | `P_Mph2.v` | closed |
| C55 | `C55_letter_case_refuted` | `P_Mph2.v` | closed |
| C55 | `C55_wait_or_never` | `P_Mph2.v` | closed |
| C55 | `C55_wait_or_never_powers` | `P_Mph2.v` | closed |
| C56 | `C56_roundtrip` | `P_Mph.v` | closed |
| C57 | `C57_word_ids_partial` | `P_Mph.v` | closed |
| C57 | `C57_nil_word_refuted` | `P_Mph.v` | closed |
| C58 | `C58_memory` | `P_Mph.v` | closed |
| C58 | `C58_nil_entry_refuted` | `P_Mph.v` | closed |
| C58 | `C74_indexer_partial` | `P_Cdb.v` | closed |
| C52 | `C52_model_partial` | `P_NGramStore.v` | closed |
| C52 | `C52_binary_partial` | `P_NGramStore.v` | closed |
| C52 | `C52_files_partial` | `P_NGramStore.v` | closed |
| C52 | `C52_count_refuted` | `P_NGramStore.v` | closed |
| C52 | `C52_large_refuted` | `P_NGramStore.v` | closed |
| C53 | `C53_score_writes` | `P_LMAlias.v` | closed |
| C53 | `C53_unchanged_partial` | `P_LMAlias.v` | closed |
| C53 | `C53_spare_refuted` | `P_LMAlias.v` | closed |
| C53 | `C53_sentence` | `P_LMAlias.v` | closed |
| C53 | `C53_next` | `P_LMAlias.v` | closed |
| C53 | `C53_scorer` | `P_LMAlias.v` | closed |
| C60 | `C60_sentences` | `P_Scanner.v` | closed |
| C60 | `C60_all_sentences_partial` | `P_Scanner.v` | closed |
| C60 | `C60_pieces_refuted` | `P_Scanner.v` | closed |
| C68 | `C68_entries` | `P_Scanner.v` | closed |
| C68 | `C68_all_lines_partial` | `P_Scanner.v` | closed |
| C68 | `C68_words_roundtrip` | `P_Scanner.v` | closed |
| C68 | `C68_all_lines_refuted` | `P_Scanner.v` | closed |
| C59 | `C59_lines` | `P_Google.v` | closed |
| C59 | `C59_model` | `P_Google.v` | closed |
| C59 | `C59_trie_partial` | `P_Google.v` | closed |
| C59 | `C59_any_word_refuted` | `P_Google.v` | closed |
| C69 | `C69_trained_model_partial` | `P_Trained.v` | closed |
| C69 | `C69_score_partial` | `P_Trained.v` | closed |
| C61 | `C61_prediction_partial` | `P_Spell.v` | classic, functional_extensionality_dep, sig_forall_dec, sig_not_dec |
| C61 | `C61_enough_completions` | `P_Spell.v` | classic, functional_extensionality_dep, sig_forall_dec, sig_not_dec |
| C61 | `C61_no_context` | `P_Spell.v` | classic, functional_extensionality_dep, sig_forall_dec, sig_not_dec |
| C61 | `C61_limit_refuted` | `P_Spell.v` | functional_extensionality_dep, sig_forall_dec |
| C61 | `C61_unigram_model_refuted` | `P_Spell.v` | closed |
| C62 | `C62_returns_partial` | `P_Spell.v` | classic, functional_extensionality_dep, sig_forall_dec, sig_not_dec |
| C62 | `C62_negative_limit_refuted` | `P_Spell.v` | closed |
| C62 | `C62_zero_limit_refuted` | `P_Spell.v` | closed |
| C62 | `C62_short_entries_refuted` | `P_Spell.v` | classic, functional_extensionality_dep, sig_forall_dec, sig_not_dec |
| C70 | `C70_text_to_scores_partial` | `P_Pipeline.v` | closed |
| C71 | `C71_index_builds_partial` | `P_NGramIndex.v` | closed |
| C71 | `C71_plain_dictionary` | `P_NGramIndex.v` | closed |
| C71 | `C71_plain_query` | `P_NGramIndex.v` | closed |
| C71 | `C71_suggest_partial` | `P_NGramIndex.v` | classic, functional_extensionality_dep, sig_forall_dec, sig_not_dec |
| C71 | `C71_suggest_returns_partial` | `P_NGramIndex.v` | classic, functional_extensionality_dep, sig_forall_dec, sig_not_dec |
| C71 | `C71_repeated_grams_partial` | `P_NGramIndex.v` | classic, functional_extensionality_dep, sig_forall_dec, sig_not_dec |
| C72 | `C72_lookup_partial` | `P_NGramIndex.v` | classic, functional_extensionality_dep, sig_forall_dec, sig_not_dec |
| C73 | `C73_autocomplete_partial` | `P_NGramIndex.v` | classic, functional_extensionality_dep, sig_forall_dec, sig_not_dec |
| C73 | `C73_autocomplete_returns` | `P_NGramIndex.v` | classic, functional_extensionality_dep, sig_forall_dec, sig_not_dec |
| C73 | `C73_prefixes_match` | `P_NGramIndex.v` | closed |
| C74 | `C74_indexer_partial` | `P_Cdb.v` | closed |
| C74 | `C74_disc_suggest_partial` | `P_Cdb.v` | classic, functional_extensionality_dep, sig_forall_dec, sig_not_dec |
| C74 | `C74_disc_autocomplete_partial` | `P_Cdb.v` | classic, functional_extensionality_dep, sig_forall_dec, sig_not_dec |
| C74 | `C74_drivers_agree_partial` | `P_Cdb.v` | classic, functional_extensionality_dep, sig_forall_dec, sig_not_dec |
| C74 | `C74_long_line_refuted` | `P_Cdb.v` | closed |
| C74 | `C74_empty_line_refuted` | `P_Cdb.v` | closed |
| C64 | `C64_prefixes` | `P_VGram.v` | closed |
| C64 | `C64_frequency` | `P_VGram.v` | closed |
| C64 | `C64_marker` | `P_VGram.v` | closed |
| C64 | `C64_walk` | `P_VGram.v` | closed |
| C64 | `C64_walk_pruned` | `P_VGram.v` | closed |
| C64 | `C64_prune` | `P_VGram.v` | closed |
| C64 | `C64_prune_child` | `P_VGram.v` | closed |
| C64 | `C64_prune_keeps_count` | `P_VGram.v` | closed |
| C64 | `C64_prune_idempotent` | `P_VGram.v` | closed |
| C64 | `C64_words_partial` | `P_VGram.v` | closed |
| C64 | `C64_words_pruned_partial` | `P_VGram.v` | closed |
| C64 | `C64_absent_not_nil` | `P_VGram.v` | closed |
| C64 | `C64_minimal_length_refuted` | `P_VGram.v` | closed |
| C64 | `C64_minimal_zero_never_ends` | `P_VGram.v` | closed |
| C75 | `C75_russian_stem` | `P_StemRu.v` | closed |
| C75 | `C75_stem_unique` | `P_StemRu.v` | closed |
| C75 | `C75_every_token` | `P_StemRu.v` | closed |
| C75 | `C75_stem_is_prefix` | `P_StemRu.v` | closed |
| C75 | `C75_yo_is_ye` | `P_StemRu.v` | closed |
| C75 | `C75_no_vowel` | `P_StemRu.v` | closed |
| C75 | `C75_idempotent_refuted` | `P_StemRu.v` | closed |
| C76 | `C76_english_stem` | `P_StemEn.v` | closed |
| C76 | `C76_not_longer` | `P_StemEn.v` | closed |
| C76 | `C76_valid_utf8` | `P_StemEn.v` | closed |
| C76 | `C76_short_tokens` | `P_StemEn.v` | closed |
| C76 | `C76_empty_stem` | `P_StemEn.v` | closed |
| C76 | `C76_empty_stem_valid` | `P_StemEn.v` | closed |
| C76 | `C76_other_scripts` | `P_StemEn.v` | closed |
| C76 | `C76_idempotent_refuted` | `P_StemEn.v` | closed |
| C76 | `C76_capitals_refuted` | `P_StemEn.v` | closed |
| C77 | `C77_english_filter` | `P_StemFilter.v` | closed |
| C77 | `C77_russian_filter` | `P_StemFilter.v` | closed |
| C77 | `C77_piecewise` | `P_StemFilter.v` | closed |
| C77 | `C77_no_stop_words_refuted` | `P_StemFilter.v` | closed |
| C78 | `C78_tables` | `P_StemFilter.v` | closed |
| C78 | `C78_search_forward` | `P_StemFilter.v` | closed |
| C78 | `C78_search_backward` | `P_StemFilter.v` | closed |
| C78 | `C78_search_any_table` | `P_StemFilter.v` | closed |
| C78 | `C78_unsorted_refuted` | `P_StemFilter.v` | closed |
| C79 | `C79_held_is_mapped` | `P_Lifetime.v` | closed |
| C79 | `C79_no_fault` | `P_Lifetime.v` | closed |
| C79 | `C79_dictionary` | `P_Lifetime.v` | closed |
| C79 | `C79_unmapped_once` | `P_Lifetime.v` | closed |
| C79 | `C79_released` | `P_Lifetime.v` | closed |
| C79 | `C79_parts_refuted` | `P_Lifetime.v` | closed |
| C79 | `C79_autocomplete_reindex_refuted` | `P_Lifetime.v` | closed |
| C80 | `C80_closed` | `P_Lifetime.v` | closed |
| C80 | `C80_read_at` | `P_Lifetime.v` | closed |
| C81 | `C81_response` | `P_Json.v` | closed |
| C81 | `C81_strings` | `P_Json.v` | closed |
| C81 | `C81_any_bytes` | `P_Json.v` | closed |
| C81 | `C81_no_markup` | `P_Json.v` | closed |
| C81 | `C81_bytes_refuted` | `P_Json.v` | closed |
| C82 | `C82_suggest_refused` | `P_Handlers.v` | classic, functional_extensionality_dep, sig_forall_dec, sig_not_dec |
| C82 | `C82_autocomplete_refused` | `P_Handlers.v` | closed |
| C82 | `C82_unknown_dictionary` | `P_Handlers.v` | classic, functional_extensionality_dep, sig_forall_dec, sig_not_dec |
| C82 | `C82_dictionaries` | `P_Handlers.v` | closed |
| C82 | `C82_home` | `P_Handlers.v` | closed |
| C82 | `C82_reindex_reported` | `P_Handlers.v` | closed |
| C82 | `C82_suggest_partial` | `P_Handlers.v` | classic, functional_extensionality_dep, sig_forall_dec, sig_not_dec |
| C82 | `C82_suggest_returns_partial` | `P_Handlers.v` | classic, functional_extensionality_dep, sig_forall_dec, sig_not_dec |
| C82 | `C82_autocomplete_partial` | `P_Handlers.v` | classic, functional_extensionality_dep, sig_forall_dec, sig_not_dec |
| C82 | `C82_predict` | `P_Handlers2.v` | classic, functional_extensionality_dep, sig_forall_dec, sig_not_dec |
| C82 | `C82_predict_zero_refuted` | `P_Handlers2.v` | classic, functional_extensionality_dep, sig_forall_dec, sig_not_dec |
| C83 | `C83_success_partial` | `P_Reindex.v` | closed |
| C83 | `C83_failure_partial` | `P_Reindex.v` | closed |
| C83 | `C83_never_vanishes` | `P_Reindex.v` | closed |
| C83 | `C83_only_real_versions` | `P_Reindex.v` | closed |
| C83 | `C83_monotone_partial` | `P_Reindex.v` | closed |
| C83 | `C83_ends` | `P_Reindex.v` | closed |
| C83 | `C83_removed_refuted` | `P_Reindex.v` | closed |
| C83 | `C83_all_or_nothing_refuted` | `P_Reindex.v` | closed |
| C83 | `C83_overlap_refuted` | `P_Reindex.v` | closed |
| C84 | `C84_suggest_server` | `P_Routes.v` | closed |
| C84 | `C84_spellchecker_server` | `P_Routes.v` | closed |
| C84 | `C84_method` | `P_Routes.v` | closed |
| C84 | `C84_no_slash` | `P_Routes.v` | closed |
| C84 | `C84_redirects_end` | `P_Routes.v` | closed |
| C84 | `C84_any_name_refuted` | `P_Routes.v` | closed |
| C85 | `C85_where` | `P_Paths.v` | closed |
| C85 | `C85_same_files` | `P_Paths.v` | closed |
| C85 | `C85_disjoint` | `P_Paths.v` | closed |
| C85 | `C85_slash_refuted` | `P_Paths.v` | closed |
| C85 | `C85_model_and_index_refuted` | `P_Paths.v` | closed |
| C85 | `C85_two_models_refuted` | `P_Paths.v` | closed |
| C86 | `C86_sighup` | `P_ServerLife.v` | closed |
| C86 | `C86_sigterm` | `P_ServerLife.v` | closed |
| C86 | `C86_ends` | `P_ServerLife.v` | closed |
| C86 | `C86_accepts` | `P_ServerLife.v` | closed |
| C86 | `C86_requests` | `P_ServerLife.v` | closed |
| C86 | `C86_why_it_ends` | `P_ServerLife.v` | closed |
| C86 | `C86_graceful_refuted` | `P_ServerLife.v` | closed |
| C86 | `C86_early_sighup_refuted` | `P_ServerLife.v` | closed |
| C86 | `C86_prompt_refuted` | `P_ServerLife.v` | closed |
| C87 | `C87_words` | `P_SpellBuild.v` | closed |
| C87 | `C87_predict_partial` | `P_SpellBuild.v` | classic, functional_extensionality_dep, sig_forall_dec, sig_not_dec |
| C87 | `C87_no_context_partial` | `P_SpellBuild.v` | classic, functional_extensionality_dep, sig_forall_dec, sig_not_dec |
| C87 | `C87_returns_partial` | `P_SpellBuild.v` | classic, functional_extensionality_dep, sig_forall_dec, sig_not_dec |
| C87 | `C87_builds_partial` | `P_SpellBuild.v` | closed |
| C87 | `C87_symbols_refuted` | `P_SpellBuild.v` | classic, functional_extensionality_dep, sig_forall_dec, sig_not_dec |
| C88 | `C88_untouched` | `P_Indexer.v` | closed |
| C88 | `C88_in_order_partial` | `P_Indexer.v` | closed |
| C88 | `C88_success_partial` | `P_Indexer.v` | closed |
| C88 | `C88_notices` | `P_Indexer.v` | closed |
| C88 | `C88_succeeds_partial` | `P_Indexer.v` | closed |
| C88 | `C88_served_partial` | `P_Indexer.v` | classic, functional_extensionality_dep, sig_forall_dec, sig_not_dec |
| C88 | `C88_pid` | `P_Indexer.v` | closed |
| C88 | `C88_no_files_signalled` | `P_Indexer.v` | closed |
| C88 | `C88_mixed_refuted` | `P_Indexer.v` | closed |
| C88 | `C88_pid_refuted` | `P_Indexer.v` | closed |
| C89 | `C89_session` | `P_Eval.v` | closed |
| C89 | `C89_interactive` | `P_Eval.v` | closed |
| C89 | `C89_trimmed` | `P_Eval.v` | closed |
| C89 | `C89_configured` | `P_Eval.v` | closed |
| C89 | `C89_suggest_partial` | `P_Eval.v` | classic, functional_extensionality_dep, sig_forall_dec, sig_not_dec |
| C89 | `C89_spell` | `P_Eval.v` | closed |
| C89 | `C89_lm` | `P_Eval.v` | closed |
| C90 | `C90_pooled_search_answers` | `P_Pool.v` | closed |
| C90 | `C90_searches_go_on` | `P_Pool.v` | closed |
| C90 | `C90_pooled_search_documents` | `P_Pool.v` | closed |
| C91 | `C91_index_configs` | `P_Config.v` | closed |
| C91 | `C91_model_config` | `P_Config.v` | closed |
| C91 | `C91_not_json` | `P_Config.v` | closed |
| C91 | `C91_unreadable` | `P_Config.v` | closed |
| C91 | `C91_not_json_refuted` | `P_Config.v` | closed |
| C92 | `C92_suggest` | `P_Errors.v` | closed |
| C92 | `C92_autocomplete` | `P_Errors.v` | closed |
| C92 | `C92_completions` | `P_Errors.v` | closed |
| C93 | `C93_configured_partial` | `P_Deploy.v` | closed |
| C93 | `C93_autocomplete_partial` | `P_Deploy.v` | classic, functional_extensionality_dep, sig_forall_dec, sig_not_dec |
| C93 | `C93_suggest_partial` | `P_Deploy.v` | classic, functional_extensionality_dep, sig_forall_dec, sig_not_dec |
| C93 | `C93_suggest_returns_partial` | `P_DeployAny.v` | classic, functional_extensionality_dep, sig_forall_dec, sig_not_dec |
| C93 | `C93_autocomplete_returns_partial` | `P_DeployAny.v` | classic, functional_extensionality_dep, sig_forall_dec, sig_not_dec |
| C93 | `C93_succeeds_partial` | `P_Deploy.v` | closed |
| C93 | `C93_refused` | `P_Deploy.v` | classic, functional_extensionality_dep, sig_forall_dec, sig_not_dec |
| C93 | `C93_unknown_name` | `P_Deploy.v` | classic, functional_extensionality_dep, sig_forall_dec, sig_not_dec |
| C93 | `C93_no_configuration` | `P_Deploy.v` | closed |
| C93 | `C93_as_described` | `P_Deploy.v` | closed |
| C93 | `C93_driver_refuted` | `P_Deploy.v` | closed |
| C93 | `C93_size_refuted` | `P_Deploy.v` | closed |
| C94 | `C94_each_once_refuted` | `P_Repeated.v` | functional_extensionality_dep, sig_forall_dec, sig_not_dec |
| C94 | `C94_index_files` | `P_Repeated.v` | closed |
| C94 | `C94_index_memory_partial` | `P_Repeated.v` | closed |
| C94 | `C94_crash_partial` | `P_Repeated.v` | closed |
| C94 | `C94_merge` | `P_Repeated.v` | closed |
| C94 | `C94_search` | `P_Repeated.v` | closed |
| C94 | `C94_suggest_partial` | `P_Repeated.v` | classic, functional_extensionality_dep, sig_forall_dec, sig_not_dec |
| C94 | `C94_fewer_than_k` | `P_Repeated.v` | classic, functional_extensionality_dep, sig_forall_dec, sig_not_dec |
| C94 | `C94_suggest_returns` | `P_Repeated.v` | classic, functional_extensionality_dep, sig_forall_dec, sig_not_dec |
| C94 | `C94_repeated_query_partial` | `P_Repeated.v` | classic, functional_extensionality_dep, sig_forall_dec, sig_not_dec |
| C95 | `C95_index_builds_partial` | `P_RepeatedDict.v` | closed |
| C95 | `C95_suggest_partial` | `P_RepeatedDict.v` | classic, functional_extensionality_dep, sig_forall_dec, sig_not_dec |
| C95 | `C95_suggest_returns_partial` | `P_RepeatedDict.v` | classic, functional_extensionality_dep, sig_forall_dec, sig_not_dec |
| C95 | `C95_autocomplete_partial` | `P_RepeatedDict.v` | classic, functional_extensionality_dep, sig_forall_dec, sig_not_dec |
| C95 | `C95_autocomplete_complete` | `P_RepeatedDict.v` | classic, functional_extensionality_dep, sig_forall_dec, sig_not_dec |
| C95 | `C95_autocomplete_returns_partial` | `P_RepeatedDict.v` | classic, functional_extensionality_dep, sig_forall_dec, sig_not_dec |
| C95 | `C95_suggest_request_partial` | `P_DeployAny.v` | classic, functional_extensionality_dep, sig_forall_dec, sig_not_dec |
| C95 | `C95_autocomplete_request_partial` | `P_DeployAny.v` | classic, functional_extensionality_dep, sig_forall_dec, sig_not_dec |
| C95 | `C95_different_refuted` | `P_RepeatedDict.v` | closed |
| C96 | `C96_entry_by_entry_partial` | `P_Relations.v` | classic, functional_extensionality_dep, sig_forall_dec, sig_not_dec |
| C96 | `C96_two_calls_partial` | `P_Relations.v` | classic, functional_extensionality_dep, sig_forall_dec, sig_not_dec |
| C96 | `C96_growing_partial` | `P_Relations.v` | classic, functional_extensionality_dep, sig_forall_dec, sig_not_dec |
| C96 | `C96_more_completions_partial` | `P_Relations.v` | classic, functional_extensionality_dep, sig_forall_dec, sig_not_dec |
| C96 | `C96_appending_partial` | `P_Relations.v` | classic, functional_extensionality_dep, sig_forall_dec, sig_not_dec |
| C96 | `C96_narrowing` | `P_Relations.v` | closed |
| C96 | `C96_narrowing_answers_partial` | `P_Relations.v` | classic, functional_extensionality_dep, sig_forall_dec, sig_not_dec |
| C96 | `C96_query_case` | `P_Relations.v` | closed |
| C96 | `C96_entry_case` | `P_Relations.v` | closed |
| C97 | `C97_untouched` | `P_Kill.v` | closed |
| C97 | `C97_rerun` | `P_Kill.v` | closed |
| C97 | `C97_deploys_partial` | `P_Kill.v` | closed |
| C97 | `C97_first_answers_partial` | `P_Kill.v` | classic, functional_extensionality_dep, sig_forall_dec, sig_not_dec |
| C97 | `C97_first_autocomplete_partial` | `P_Kill.v` | classic, functional_extensionality_dep, sig_forall_dec, sig_not_dec |
| C97 | `C97_first_suggest_partial` | `P_Kill.v` | classic, functional_extensionality_dep, sig_forall_dec, sig_not_dec |
| C97 | `C97_update_refuted` | `P_Kill.v` | closed |
| C97 | `C97_reindex_refuted` | `P_Kill.v` | closed |
| C98 | `C98_untouched` | `P_LMDeploy.v` | closed |
| C98 | `C98_no_configuration` | `P_LMDeploy.v` | closed |
| C98 | `C98_counts` | `P_LMDeploy.v` | closed |
| C98 | `C98_scores_partial` | `P_LMDeploy.v` | closed |
| C98 | `C98_predict_partial` | `P_LMDeploy.v` | classic, functional_extensionality_dep, sig_forall_dec, sig_not_dec |
| C98 | `C98_words_described` | `P_LMDeploy.v` | closed |
| C98 | `C98_order_refuted` | `P_LMDeploy.v` | closed |
| C98 | `C98_two_models_refuted` | `P_LMDeploy.v` | closed |
| C99 | `C99_autocomplete_partial` | `P_AnyQuery.v` | classic, functional_extensionality_dep, sig_forall_dec, sig_not_dec |
| C99 | `C99_prefix_completes` | `P_AnyQuery.v` | classic, functional_extensionality_dep, sig_forall_dec, sig_not_dec |
| C99 | `C99_autocomplete_returns` | `P_AnyQuery.v` | classic, functional_extensionality_dep, sig_forall_dec, sig_not_dec |
| C99 | `C99_short_suggest` | `P_AnyQuery.v` | closed |
| C99 | `C99_short_autocomplete` | `P_AnyQuery.v` | classic, functional_extensionality_dep, sig_forall_dec, sig_not_dec |
| C99 | `C99_suggest` | `P_FullAnswer.v` | classic, functional_extensionality_dep, sig_forall_dec, sig_not_dec |
| C99 | `C99_suggest_request` | `P_FullAnswerServer.v` | classic, functional_extensionality_dep, sig_forall_dec, sig_not_dec |
| C99 | `C99_suggest_partial` | `P_AnyQuery.v` | classic, functional_extensionality_dep, sig_forall_dec, sig_not_dec |
| C99 | `C99_autocomplete_request_partial` | `P_AnyQueryServer.v` | classic, functional_extensionality_dep, sig_forall_dec, sig_not_dec |
| C99 | `C99_suggest_request_partial` | `P_AnyQueryServer.v` | classic, functional_extensionality_dep, sig_forall_dec, sig_not_dec |
| C99 | `C99_completion_request` | `P_AnyQueryServer.v` | classic, functional_extensionality_dep, sig_forall_dec, sig_not_dec |
| C99 | `C99_exact_first_refuted` | `P_AnyQuery.v` | closed |
| C100 | `C100_answered` | `P_Answered.v` | classic, functional_extensionality_dep, sig_forall_dec, sig_not_dec |
| C100 | `C100_short_queries` | `P_Answered.v` | classic, functional_extensionality_dep, sig_forall_dec, sig_not_dec |
| C100 | `C100_reachable_returns` | `P_Answered.v` | classic, functional_extensionality_dep, sig_forall_dec, sig_not_dec |
| C100 | `C100_one_short_hangs` | `P_Answered.v` | classic, functional_extensionality_dep, sig_forall_dec, sig_not_dec |
| C100 | `C100_too_long_panics` | `P_Answered.v` | classic, functional_extensionality_dep, sig_forall_dec, sig_not_dec |
| C100 | `C100_request` | `P_Answered.v` | classic, functional_extensionality_dep, sig_forall_dec, sig_not_dec |
| C101 | `C101_lower_similarity_partial` | `P_Similarity.v` | classic, functional_extensionality_dep, sig_forall_dec, sig_not_dec |
| C101 | `C101_any_dictionary_partial` | `P_SimilarityAny.v` | classic, functional_extensionality_dep, sig_forall_dec, sig_not_dec |
| C101 | `C101_lower_similarity_refuted` | `P_Similarity.v` | functional_extensionality_dep, sig_forall_dec, sig_not_dec |
| C102 | `C102_metrics_nest` | `P_SimilarityAny.v` | classic, functional_extensionality_dep, sig_forall_dec, sig_not_dec |
| C102 | `C102_metrics_nest_partial` | `P_Similarity.v` | classic, functional_extensionality_dep, sig_forall_dec, sig_not_dec |
| C103 | `C103_index_files` | `P_WriteFaults.v` | closed |
| C103 | `C103_index_saved` | `P_WriteFaults.v` | closed |
| C103 | `C103_ngram_counts` | `P_WriteFaults.v` | closed |
| C103 | `C103_model_file` | `P_WriteFaults.v` | closed |
| C103 | `C103_command` | `P_WriteFaults.v` | closed |
| C103 | `C103_rerun` | `P_WriteFaults.v` | closed |
| C104 | `C104_cut_never_loaded` | `P_CutModel.v` | closed |
| C104 | `C104_built` | `P_CutFiles.v` | closed |
| C104 | `C104_deployed` | `P_CutFiles.v` | closed |
| C104 | `C104_failed_write` | `P_CutFiles.v` | closed |
| C105 | `C105_prediction` | `P_SpellAny.v` | classic, functional_extensionality_dep, sig_forall_dec, sig_not_dec |
| C105 | `C105_returns` | `P_SpellAny.v` | classic, functional_extensionality_dep, sig_forall_dec, sig_not_dec |
| C105 | `C105_no_words` | `P_SpellAny.v` | closed |
| C105 | `C105_once_refuted` | `P_SpellAny.v` | closed |
| C106 | `C106_predict` | `P_SpellBuildAny.v` | classic, functional_extensionality_dep, sig_forall_dec, sig_not_dec |
| C106 | `C106_returns` | `P_SpellBuildAny.v` | classic, functional_extensionality_dep, sig_forall_dec, sig_not_dec |
| C106 | `C106_no_words` | `P_SpellBuildAny.v` | closed |
| C106 | `C106_builds` | `P_SpellBuildAny.v` | closed |
| C106 | `C106_once_refuted` | `P_SpellBuildAny.v` | classic, functional_extensionality_dep, sig_forall_dec, sig_not_dec |
| C107 | `C107_lookup` | `P_LookupAny.v` | classic, functional_extensionality_dep, sig_forall_dec, sig_not_dec |
| C107 | `C107_lookup_request` | `P_LookupServer.v` | classic, functional_extensionality_dep, sig_forall_dec, sig_not_dec |
