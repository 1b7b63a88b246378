#!/usr/bin/env python3
# Generates /verif/properties.jsonl (one JSON object per line).
import json
P=[]
def p(id,title,statement,quant,why,anchors):
    P.append(dict(id=id,title=title,statement=statement,quantifier=quant,why_tests_cant=why,anchors=anchors))

# ---------------- store ----------------
p("C01","Variable-length integer write/read round trip",
  "Writing any uint32 with the store output's variable-length writer and reading it back with the store input's variable-length reader yields the same value, consumes exactly the bytes written (1 to 5 of them), and leaves every byte before and after them, and the reading position after them, as expected.",
  "every uint32 value, every prefix already in the buffer, every suffix following it (so every distance to the end of the buffer)",
  "2^32 values times every buffer tail; the reader has two code paths selected by how many bytes remain",
  ["pkg/store/byte_output.go: WriteVUInt32","pkg/store/byte_input.go: ReadVUInt32, readVarUInt32Slow"])
p("C02","Variable-length reader is one function of the bytes",
  "On arbitrary (possibly corrupt) bytes, the variable-length reader's answer is the little-endian base-128 meaning of the bytes up to the first one without a continuation bit, whether or not five bytes remain; a fifth byte with a continuation bit is reported as overflow, a truncated number is reported as an error, and on error the reading position does not move.",
  "every byte string and every reading position in it",
  "the unrolled fast path and the slow loop must agree on all byte strings, including adversarial ones",
  ["pkg/store/byte_input.go: ReadVUInt32, readVarUInt32Slow"])
p("C03","Typed write streams read back in order",
  "Any sequence of writes of uint16, uint32, variable-length uint32, single bytes and raw byte strings to an output, read back from an input over the resulting bytes with the same sequence of typed reads, returns exactly the written values and ends at the end of the data.",
  "every finite sequence of typed writes",
  "unbounded sequences of mixed writes; alignment and position bookkeeping interact",
  ["pkg/store/byte_output.go: WriteUInt16, WriteUInt32, WriteVUInt32, WriteByte, Write","pkg/store/byte_input.go: ReadUInt16, ReadUInt32, ReadVUInt32, ReadByte, Read"])
p("C04","Input cursor stays inside its data",
  "For every history of reads, seeks and slices on a byte input, each operation either returns the bytes of the underlying data at the current position and advances by their number, or returns an error; it never panics and never returns bytes from outside the data.",
  "every byte buffer and every finite history of input operations with arbitrary int64 offsets and lengths",
  "histories with extreme offsets are unbounded; the bound checks use machine arithmetic",
  ["pkg/store/byte_input.go: Seek, Read, ReadAt, ReadByte, ReadUInt16, ReadUInt32, ReadVUInt32, Slice"])
p("C05","Re-creating a file replaces its contents",
  "After a file is created in a directory and written, opening it yields exactly the bytes written since that creation, whatever was stored under that name before, for both directory kinds, and other files are unaffected.",
  "every history of create/write/open operations over every set of names",
  "histories are unbounded and the two directory implementations must agree on all of them",
  ["pkg/store/ram_directory.go: CreateOutput, OpenInput","pkg/store/fs_directory.go: CreateOutput, OpenInput","pkg/store/byte_output.go: Write"])
# ---------------- compression ----------------
p("C06","Fixed-width posting list encoding round trip",
  "Encoding a list of uint32 values with the binary encoder and decoding it returns the same list; the reported size is the number of bytes written.",
  "every list of uint32","unbounded lists", ["pkg/compression/binary.go: Encode, Decode"])
p("C07","Delta varint encoding round trip",
  "Encoding any list of uint32 values (sorted or not, with repetitions, of any length) with the variable byte encoder and decoding into a buffer of the same length returns the list, and the encoder's returned size is the number of bytes it wrote.",
  "every list of uint32 values","deltas wrap modulo 2^32 and lengths are unbounded",
  ["pkg/compression/varint.go: Encode, Decode, varIntEncode, varIntDecode, varIntDelta"])
p("C08","Skipping encoding round trip",
  "For every block size accepted by the skipping encoder, encoding a list and decoding it with a decoder of the same block size returns the same list.",
  "every accepted gap and every list of uint32",
  "every combination of list length and gap; block headers are 16 bit with a flag bit, so bounds have to hold for worst-case varints",
  ["pkg/compression/skipping.go: Encode, Decode, PackPos, UnpackPos, SkippingEncoder, SkippingDecoder"])
p("C09","Block headers never lose their length",
  "The block header of the skipping encoding always gives back the block's byte distance and last-block flag: the distance never spills into the flag bit for any accepted gap.",
  "every block of every list for every accepted gap","worst case depends on values at each position of each block",
  ["pkg/compression/skipping.go: PackPos, UnpackPos, maxSkippingGap, lastBlockFlag"])
p("C10","Encoders terminate or reject their configuration",
  "Constructing a skipping encoder either fails or yields an encoder that terminates on every list; likewise the decoder reports the number of values it decoded.",
  "every gap value the constructor accepts and every list","non-termination cannot be observed by a test; the count must be right for every length",
  ["pkg/compression/skipping.go: SkippingEncoder, Encode, Decode"])
# ---------------- posting lists ----------------
p("C11","Delta varint posting list is a cursor over the encoded list",
  "An iterator over a stored varint posting list behaves, for every sequence of Get/HasNext/Next/LowerBound/Len calls, exactly like a cursor over the plain sorted list: Next gives the following element, LowerBound(v) gives the first element at or after the current one that is ≥ v, exhaustion is reported as an error, and reaching the end never shows a stale value.",
  "every strictly ascending list of uint32, every finite sequence of iterator calls with arbitrary arguments",
  "call sequences are unbounded and the cursor state (remaining bytes, current value) must stay in step on all of them",
  ["pkg/index/posting_list.go: Init, Get, HasNext, Next, LowerBound, Len","pkg/merger/list_iterator.go: ListIterator"])
p("C12","Skipping posting list is a cursor over the encoded list",
  "The same as the previous property for the skip-block posting list: block skips never miss or repeat an element.",
  "every strictly ascending list of uint32 longer than the gap, every finite sequence of iterator calls",
  "LowerBound jumps over blocks using stored offsets; every position/argument pair relative to the block boundaries matters",
  ["pkg/index/skipping_posting_list.go: init, Get, HasNext, Next, LowerBound, moveToPosition, readSkipping"])
p("C13","Bitmap posting list is a cursor over the encoded list",
  "The same as the previous properties for the bitmap posting list, given a bitmap library that stores a set of uint32 and iterates it in order.",
  "every strictly ascending list of uint32, every finite sequence of iterator calls","unbounded call sequences",
  ["pkg/index/bitmap_posting_list.go: Init, Get, HasNext, Next, LowerBound, Len"])
p("C14","The posting list format is invisible",
  "Whatever the length of a posting list, the reader picks the format the writer used, and any two formats (or a plain in-memory slice iterator) driven by the same calls give the same answers.",
  "every strictly ascending list, every sequence of iterator calls",
  "format selection depends on length at three thresholds; agreement must hold for all lists and histories",
  ["pkg/index/codec.go: NewEncoder, resolvePostingList, encodingContext","pkg/index/posting_list.go: resolvePostingList","pkg/merger/list_iterator.go: sliceIterator"])
# ---------------- mergers ----------------
MW="the number, lengths, overlaps and order of the lists are unbounded, and the algorithms skip elements based on arithmetic invariants"
p("C15","ScanCount solves the T-occurrence problem",
  "Given sorted posting lists and a threshold T ≥ 1, the scan-count merger passes to the collector exactly the values that occur in at least T lists, in ascending order, each once, with its exact number of occurrences.",
  "every family of strictly ascending lists and every threshold",MW,["pkg/merger/scan_count.go: Merge","pkg/merger/list_merger.go: MergeCandidate"])
p("C16","CPMerge solves the T-occurrence problem",
  "The same for the CPMerge merger: the candidate list from the short lists, pruned with binary search in the long lists, misses no value and reports exact counts.",
  "every family of strictly ascending lists and every threshold",MW,["pkg/merger/cp_merge.go: Merge"])
p("C17","MergeSkip solves the T-occurrence problem",
  "The same for the MergeSkip merger: popping T-1 entries and skipping to the next heap top loses no value.",
  "every family of non-empty strictly ascending lists and every threshold ≥ 1",MW,["pkg/merger/merge_skip.go: Merge"])
p("C18","DivideSkip solves the T-occurrence problem",
  "The same for the DivideSkip merger, for every value of its tuning parameter.",
  "every family of strictly ascending lists, every threshold and every mu",MW+"; the long/short split is computed with floating point",
  ["pkg/merger/divide_skip.go: Merge"])
p("C19","Intersection of lists",
  "When the threshold equals the number of lists, the intersector reports exactly the values present in all of them, ascending, each with count equal to the number of lists.",
  "every non-empty family of non-empty strictly ascending lists",MW,["pkg/merger/list_intersector.go: Intersect"])
p("C20","All mergers agree",
  "ScanCount, CPMerge, MergeSkip, DivideSkip and (at full threshold) the intersector give the collector the same sequence of candidates on the same input, also through the optimizing wrapper.",
  "every family of sorted lists, every threshold, every collector",MW,
  ["pkg/merger/*.go: Merge","pkg/merger/list_merger.go: mergerOptimizer"])
p("C21","Early termination keeps the smallest answers",
  "If the collector stops the merge after k candidates, it has received exactly the k smallest qualifying values, the merge reports success, and a collector error is passed to the caller unchanged.",
  "every family of lists, threshold, and stateful collector",
  "the collector is an arbitrary stateful callback",["pkg/merger/collector.go: CollectStrategy, ErrCollectionTerminated","pkg/merger/*.go"])
p("C22","Candidate packing is lossless",
  "A merge candidate returns the position and overlap it was built from, and incrementing its overlap changes nothing else until the documented 16-bit limit, at which it panics instead of corrupting the position.",
  "every 32-bit position and 16-bit overlap","2^48 values; carry into the position bits must be excluded",
  ["pkg/merger/list_merger.go: NewMergeCandidate, Position, Overlap, increment"])
p("C23","Mergers do not fail on empty posting lists",
  "An empty posting list in the input neither adds answers, nor loses answers, nor causes an error or panic in any merger.",
  "every family of sorted lists some of which may be empty, every threshold ≥ 0",MW,
  ["pkg/merger/merge_skip.go","pkg/merger/list_intersector.go","pkg/merger/cp_merge.go"])
# ---------------- index ----------------
p("C24","An index read back is the index written",
  "After adding documents and committing, a reader of the same directory returns, for every document size and term, exactly the ascending list of ids of the documents of that size containing the term (each id once), and nothing for other sizes and terms.",
  "every finite sequence of documents with any token sets, every iteration order of the writer's internal tables",
  "Go's randomized map iteration makes file layout nondeterministic; all corpora and layouts must work",
  ["pkg/index/indexer_writer.go: AddDocument, Commit","pkg/index/index_reader.go: Read","pkg/index/inverted_index.go: Get"])
p("C25","Any document can be added",
  "Adding a document never panics, whatever its token list, and a document without tokens is simply never found.",
  "every sequence of documents","depends on the order in which sizes are first seen",
  ["pkg/index/indexer_writer.go: AddDocument"])
p("C26","Index search finds the T-occurrence answers",
  "Searching an index for a list of terms with threshold T returns exactly the documents contained in the posting lists of at least T of the terms; the early exit based on missing terms loses nothing.",
  "every index, query term list and threshold ≥ 1",MW,
  ["pkg/index/searcher.go: Search, filterTermsByExistence"])
p("C27","Interrupted commit is never taken for a good index",
  "If the process dies at any point while committing an index, then opening the directory afterwards either yields the complete previous index, the complete new one, or an error.",
  "every crash point of every commit","crash points and flush orders cannot be enumerated by tests",
  ["pkg/index/indexer_writer.go: Commit","pkg/store/fs_directory.go: CreateOutput"])
# ---------------- analysis ----------------
p("C28","N-gram tokenizer returns the distinct windows",
  "The n-gram tokenizer returns exactly the distinct substrings of n consecutive characters, each once, in order of first occurrence.",
  "every text (including invalid UTF-8) of at least n characters, every n from 1 to 8",
  "all strings over all encodings; a ring buffer of byte offsets is maintained across multi-byte characters",
  ["pkg/analysis/ngram_tokenizer.go: Tokenize"])
p("C29","A document's tokens are distinct",
  "The suggest tokenizer never returns the same token twice for a text, so set sizes and overlaps computed from them are set cardinalities.",
  "every text and index description","all strings; the filter runs after deduplication",
  ["pkg/suggest/tokenizer.go","pkg/analysis/normalizer.go","pkg/analysis/ngram_tokenizer.go"])
p("C30","Short texts give no n-grams",
  "A text with fewer than n characters yields no n-gram tokens.",
  "every text and n","length is compared in bytes although windows are in characters",["pkg/analysis/ngram_tokenizer.go: Tokenize"])
p("C31","The n-gram tokenizer never panics",
  "Tokenizing any text with any configured n-gram size returns normally.",
  "every text and every configured size","the ring buffer has a fixed capacity",["pkg/analysis/ngram_tokenizer.go: Tokenize","pkg/suggest/config.go: NGramSize"])
p("C32","Word tokenizer splits into maximal runs",
  "The word tokenizer returns exactly the maximal runs of alphabet characters of the lower-cased text, in order; concatenated with the separators they give back the text.",
  "every text and alphabet","all strings, multi-byte characters and invalid bytes",["pkg/analysis/word_tokenizer.go: Tokenize"])
p("C33","Normalizer only replaces foreign characters",
  "The normalizer filter keeps characters of the alphabet, replaces every other character by the pad, and changes neither the number nor the order of tokens.",
  "every token list, alphabet and pad","all strings",["pkg/analysis/normalizer.go: Filter","pkg/alphabet/*.go: Has, MapChar"])
p("C34","Prefixes have subsets of grams",
  "If a query is a prefix of a dictionary entry, every autocomplete token of the query is a token of the entry (so a complete entry is never missed), and conversely autocompletion only returns entries the query is a prefix of.",
  "every pair of texts, every n","all string pairs",["pkg/suggest/tokenizer.go: NewAutocompleteTokenizer","pkg/analysis/wrap_tokenizer.go"])
# ---------------- metric ----------------
p("C35","Similarity filters are exact in real arithmetic",
  "For each metric, a document of size B overlapping a query of size A in m tokens has similarity ≥ α iff m is at least the metric's threshold for (α, A, B), and then B lies between the metric's lower and upper size bounds; so size and count filtering lose and add nothing.",
  "every α in (0,1], all sizes A, B ≥ 1 and overlaps m ≤ min(A,B)",
  "infinitely many parameter combinations; boundary equalities matter",["pkg/metric/*.go: MinY, MaxY, Threshold, Distance"])
p("C36","Similarity filters are exact as computed",
  "The same with the IEEE double arithmetic of the code: an entry whose computed score is at least the requested similarity is within the computed bounds and threshold.",
  "every double similarity in (0,1] and all sizes",
  "rounding of each of the formulas at every boundary",["pkg/metric/*.go","pkg/suggest/scorer.go"])
p("C37","An identical entry is never filtered out",
  "For every similarity in (0,1], an entry with exactly the query's token set passes the size and threshold filters as computed in floating point.",
  "every double similarity in (0,1] and every size below 2^31","rounding at every size",["pkg/metric/*.go"])
# ---------------- suggest ----------------
p("C38","Top-k queue keeps the k best",
  "After any sequence of insertions into a top-k queue its candidates are the k best inserted (by score, ties by smaller id), listed best first, and the lowest retained score is reported correctly.",
  "every k ≥ 1 and every sequence of (id, score) insertions","insertion sequences are unbounded; heap operations interleave with comparisons",
  ["pkg/suggest/topk.go: Add, GetCandidates, GetLowestScore, CanTakeWithScore, IsFull"])
p("C39","Merging queues is order-independent",
  "Merging top-k queues filled by different workers in any order and partition gives the same list as inserting all candidates into one queue.",
  "every distribution of candidates over workers and every merge order","all partitions and schedules",["pkg/suggest/topk.go: Merge"])
p("C40","Reading the queue does not disturb it",
  "Listing the candidates of a queue twice gives the same list, and insertions after a listing behave as if it had not happened.",
  "every history of insertions, listings and merges","the listing sorts the heap array in place",["pkg/suggest/topk.go: GetCandidates"])
p("C41","Suggest returns the same best answers under every schedule",
  "Whatever the scheduling of its workers, a suggest query returns the k best dictionary entries among those with similarity at least the requested one.",
  "every index, query, similarity, k, and every interleaving of the workers",
  "interleavings with a shared rising threshold are unbounded",["pkg/suggest/suggester.go: Suggest","pkg/suggest/collector.go"])
p("C42","Suggest always terminates without panicking",
  "Every suggest query with an accepted search configuration returns (a result or an error): it never panics, deadlocks or runs forever.",
  "every index (also empty), query, accepted configuration and schedule","a deadlock depends on sizes and schedules",["pkg/suggest/suggester.go: Suggest","pkg/suggest/config.go: NewSearchConfig"])
p("C43","Autocomplete returns the first entries containing the query's grams",
  "Whatever the scheduling, an autocomplete query with limit L returns the entries that contain every gram of the query, restricted to the L smallest ids.",
  "every index, query, limit and interleaving","interleavings with per-size collection are unbounded",["pkg/suggest/autocomplete.go: Autocomplete","pkg/suggest/collector.go: firstKCollector"])
p("C44","Reindexing is atomic for queries",
  "A query served concurrently with a reindex sees the index and dictionary of the same build, never a mixture.",
  "every interleaving of queries, listings and reindexes","schedules are unbounded",["pkg/suggest/service.go: AddIndex, Suggest, Autocomplete, GetDictionaries"])
p("C45","Search configurations are validated",
  "A search configuration is accepted iff its result count is positive and its similarity is a number in (0,1].",
  "every integer and every double (including NaN and infinities)","2^64 doubles",["pkg/suggest/search.go: NewSearchConfig"])
# ---------------- lm ----------------
p("C46","Count trie sums counts",
  "Walking a count trie visits each stored n-gram path once with the sum of the counts put under it.",
  "every sequence of puts","unbounded histories",["pkg/lm/count_trie.go: Put, Walk"])
p("C47","N-gram counts are occurrence counts",
  "The n-gram builder counts, for each order up to n, exactly the number of windows of that many consecutive words in the wrapped sentences equal to the n-gram.",
  "every list of sentences and order","all corpora",["pkg/lm/ngram_builder.go: Build","pkg/lm/ngram_builder.go: buildNGrams"])
p("C48","Packed array lookups",
  "Looking up a (context, word) pair in the packed n-gram vector returns the stored count if it was stored and nothing otherwise; the successors of a context are exactly the words stored under it.",
  "every set of stored pairs and every query","a two-level packed container search with binary search; all key distributions",
  ["pkg/lm/packed_array.go: GetCount, GetContextOffset, SubVector, find, CreatePackedArray"])
p("C49","Model counts of n-grams",
  "The model's lookup of an n-gram yields its count when all its prefixes were counted.",
  "every n-gram file content closed under prefixes and every n-gram","all corpora",["pkg/lm/ngram_model.go","pkg/lm/ngram_vector_builder.go: Put, Build"])
p("C50","Next-word scoring agrees with full scoring",
  "The score of a word given by the next-word scorer for a context equals the model's score of the context extended by the word when that n-gram was seen, and the unknown score otherwise.",
  "every model, context and word","all corpora",["pkg/lm/scorer_next.go: ScoreNext","pkg/lm/ngram_model.go: Next, Score"])
p("C51","Next uses the most recent words",
  "Asking the language model for continuations of a word sequence conditions on its last order-1 words.",
  "every sequence of words of any length","length relative to the order matters",["pkg/lm/language_model.go: Next"])
p("C52","Stored models load back",
  "Loading a stored n-gram model yields a model with the same order and answers, and each vector's loader consumes and reports exactly its own bytes.",
  "every model","sizes and layouts unbounded",["pkg/lm/ngram_model.go: Store, Load","pkg/lm/packed_array.go: Store, Load"])
p("C53","Scoring leaves the caller's words alone",
  "Scoring or extending a sentence never changes data reachable from the caller's slices.",
  "every slice with any spare capacity","aliasing through append depends on capacity",["pkg/lm/language_model.go: ScoreWordIDs, ScoreSentence, rightWrapSentence, leftWrapSentence"])
p("C54","Minimal perfect hash is injective",
  "If building the hash table succeeds, looking up the i-th word yields i.",
  "every word list for which the construction ends","displacement search over all seeds",["pkg/mph/mph.go: Build, Get"])
p("C55","Minimal perfect hash construction terminates",
  "Building the hash table of a list of distinct words ends.",
  "every list of distinct words","non-termination cannot be tested",["pkg/mph/mph.go: Build, findSlots"])
p("C56","Stored hash tables load back",
  "Loading a stored hash table gives a table answering every lookup as the original.",
  "every table","all sizes",["pkg/mph/mph.go: Store, Load"])
p("C57","Word ids",
  "The indexer maps a word of the dictionary to its id and any other string to the unknown id, and maps ids back to their words.",
  "every dictionary and every string","hash collisions on unknown strings must be detected for all strings",["pkg/lm/indexer.go: Get, Find"])
p("C58","Dictionary lookups",
  "A dictionary's Get, Iterate and Size describe the same list of entries.",
  "every list of entries","all sizes",["pkg/dictionary/memory_dictionary.go","pkg/dictionary/cdb_dictionary.go"])
p("C59","Google n-gram files round trip",
  "N-grams written in the Google format and read back give the same n-grams and counts.",
  "every set of n-grams over whitespace-free words","all contents",["pkg/lm/ngram_writer.go: Write","pkg/lm/ngram_reader.go: Read"])
p("C60","Sentence splitting",
  "Retrieving sentences from a text yields the tokens of its maximal separator-free pieces, in order, whatever the buffering of the underlying reader.",
  "every text, set of stop characters and chunking","all chunkings",["pkg/lm/sentence_retriever.go: Retrieve"])
p("C61","Spellchecker respects its limit",
  "A spellchecker prediction returns at most the requested number of entries, without duplicates, ordered by language model score when a context is known.",
  "every index, model, query and limit","all data",["pkg/spellchecker/spellchecker.go: Predict"])
p("C62","Spellchecker terminates without panicking",
  "A prediction with any limit returns.",
  "every limit including zero","all data",["pkg/spellchecker/spellchecker.go: Predict","pkg/suggest/topk.go: Add"])
p("C63","Back-off score",
  "The score of an n-gram is the relative frequency of the longest seen suffix discounted by 0.4 per dropped word.",
  "every model and n-gram","all corpora",["pkg/lm/ngram_model.go: Score, calcScore"])
p("C64","Gram frequency trie",
  "After any sequence of additions the frequency of a gram is the number of added grams that start with it (modulo 2^32), and a gram that starts none is not found; its marker, if it has one, counts the additions of exactly that gram; walking visits every gram found exactly once; pruning with a threshold keeps the frequencies, moves to each marker the frequencies of a largest possible set of children that keeps it within the threshold, keeps marker plus children equal to the frequency, and pruning again changes nothing. Built from words, the frequency of a gram of the allowed lengths is the number of its occurrences in the words.",
  "every sequence of grams or words, every query, threshold and iteration order","all histories, all map orders",["pkg/vgram/frequency_trie.go: Find, Add, Walk, Prune","pkg/vgram/gram_dictionary.go: Build, addWord"])
p("C65","Alphabets",
  "A character belongs to a composite alphabet iff it belongs to one of its parts; the number of characters and membership agree with the listed ranges.",
  "every character","all 2^32 characters",["pkg/alphabet/*.go"])
p("C66","Request parameters",
  "A request's result count is accepted iff it is absent or a decimal numeral that is not negative and fits a machine integer; a suggest request is accepted iff count, metric name and similarity are each valid, and the search runs with exactly those values; an autocomplete request never passes a negative limit on.",
  "every string given for each parameter","all strings; boundary numerals of any length",["internal/http/utils.go: FormTopKValue, FormSimilarityValue, FormIntValue, FormFloatValue","internal/suggest/api/suggest_handler.go: buildSearchConfig","internal/suggest/api/autocomplete_handler.go: handle","internal/spellchecker/api/predict_handler.go: handle"])
p("C67","Sentence score",
  "The language model's score of a sequence of words is the sum of the model's scores of all runs of as many words as the model's order in the sequence put between the start and end symbols; so every sentence's score depends on its words.",
  "every model and sequence of words of every length","all corpora and lengths",["pkg/lm/language_model.go: ScoreWordIDs, ScoreSentence, wrapSentence","pkg/lm/generator.go: splitIntoNGrams"])
p("C68","Dictionary files become dictionaries",
  "Opening a text file as an in-memory dictionary gives exactly one entry per line of the file, in order, or an error; never silently fewer.",
  "every file content and every way the reads return","all contents and read sizes",["pkg/dictionary/helpers.go: OpenRAMDictionary","pkg/suggest/service.go: NewRAMBuilder"])
p("C69","A model trained on a corpus answers with the corpus's counts",
  "Counting the n-grams of a corpus of sentences, writing the counts, compiling them to the binary model and loading it gives a model in which every known word has its own number, numbers follow descending frequency, and every run of at most order words has exactly its number of occurrences in the corpus; scores are computed from those counts.",
  "every corpus, order, iteration order of the count map, and hash construction","all corpora, all hash constructions, whole-pipeline composition",["pkg/lm/binary.go: StoreBinaryLMFromGoogleFormat, RetrieveLMFromBinary","pkg/lm/ngram_builder.go: Build","pkg/lm/ngram_writer.go: WriteNGrams","pkg/lm/ngram_reader.go: Read","pkg/lm/language_model.go: Score"])
p("C70","From a text to the scores of sentences",
  "Counting a text with ngram-count, building the model with build-lm and evaluating a line with eval gives the sum, over the runs of as many consecutive words as the order in the line put between the two symbols, of the logarithm of the discounted relative frequency in the text of the run's longest prefix that occurs; nothing panics; words and sentences are those of the configured alphabets.",
  "every text, configuration, line, way the reads return, map order and hash construction","whole-pipeline composition over all texts",["cmd/language-model/cmd/ngram-count.go","cmd/language-model/cmd/build-lm.go","cmd/language-model/cmd/eval.go","pkg/lm/language_model.go: ScoreSentence","pkg/lm/sentence_retriever.go"])
p("C71","From a dictionary to suggestions",
  "Indexing a dictionary (in memory, or committed to disc and read back) and asking for suggestions answers with entries of the dictionary and their scores: at most topK, best first, each similar enough to the query in terms of the n-grams of query and entry; every entry similar enough is there unless topK entries with no smaller score are; and the call returns under every scheduling.",
  "every dictionary, query, tokenizer configuration, metric, similarity, topK, map order, write splitting and goroutine schedule","whole-pipeline composition over all dictionaries and schedules",["pkg/suggest/indexer.go: Index","pkg/suggest/ngram_index_builder.go","pkg/suggest/ngram_index.go","pkg/suggest/service.go: Suggest","pkg/suggest/suggester.go: Suggest"])
p("C72","An indexed entry can be looked up",
  "Asking for a text that has the n-grams of an entry finds the entry, for every metric and similarity: the first answer has score 1 and the entry is among the answers unless topK earlier entries also have score 1.",
  "every dictionary, entry, metric, similarity, topK and schedule","all dictionaries and schedules; rounding of every score",["pkg/suggest/service.go: Suggest","pkg/suggest/indexer.go: Index","pkg/metric/*.go"])
p("C73","From a dictionary to autocompletions",
  "Indexing a dictionary and asking for completions answers with exactly the first limit entries, in dictionary order, that have all n-grams of the query; every entry that starts with the query is such an entry.",
  "every dictionary, query, tokenizer configuration, limit, map order, write splitting and goroutine schedule","whole-pipeline composition over all dictionaries and schedules",["pkg/suggest/service.go: Autocomplete","pkg/suggest/autocomplete.go","pkg/suggest/indexer.go: Index"])
p("C74","The two drivers serve the same dictionary",
  "The indexer stores the lines of a source file as a dictionary on disc that answers every key like the dictionary in memory, and writes the index of exactly these entries; a service over the files answers like a service that loaded the file into memory: the same completions, and for suggestions the entries of C71.",
  "every source file, configuration, read splitting, map order, write splitting and goroutine schedule","all files; whole-pipeline composition",["cmd/suggest/cmd/indexer.go: indexJob, dictionaryReader.Iterate","pkg/dictionary/helpers.go: BuildCDBDictionary, OpenRAMDictionary","pkg/dictionary/cdb_dictionary.go","pkg/suggest/service.go: AddRunTimeIndex, AddOnDiscIndex"])
p("C75","Russian stems",
  "The Russian stemmer turns every word in valid UTF-8 into the one word the published Snowball algorithm prescribes; on any bytes it ends without a panic, never lengthens a token and never empties a non-empty one; the stem begins the word written with ye for yo; words differing only in yo and ye get the same stem; a word without Russian vowels is unchanged. (Stemming a stem may change it again.)",
  "every token (any Go string), whatever was stemmed before","all strings, of any length, valid UTF-8 or not",["pkg/analysis/ru/algorithm.go: Stem, r_*","pkg/analysis/stemmer_filter.go: NewRussianStemmerFilter"])
p("C76","English stems",
  "The English stemmer turns every token, also of malformed UTF-8, into the one the published Porter2 algorithm prescribes; it never panics, never lengthens a token, keeps valid UTF-8 valid, leaves tokens of fewer than three characters and tokens without ASCII characters alone; and its result is empty only for the empty token and an apostrophe followed by 's or 's'. (Stems are not always stable, capital Y becomes small when another y was marked.)",
  "every token (any Go string), whatever was stemmed before","all strings, of any length, valid UTF-8 or not",["pkg/analysis/en/algorithm.go: Stem, r_*","pkg/analysis/stemmer_filter.go: NewEnglishStemmerFilter"])
p("C77","Stemmer filters",
  "A stemmer filter drops exactly the tokens equal to a stop word and replaces each other token by its own stem, in order: results do not depend on the neighbours. (The result may contain stop words: a stem can be one, and the comparison is case-sensitive.)",
  "every list of tokens","all lists and strings",["pkg/analysis/stemmer_filter.go: Filter, stopWordsToSet","pkg/analysis/ru/stop_words.go","pkg/analysis/en/stop_words.go"])
p("C78","Tables of endings",
  "Every table of endings of the two stemmers is in the order and has the links the library's binary search relies on, so that the search finds the longest entry at the cursor in every text.",
  "every table, text and position","all texts; the search is only right for tables in order",["pkg/analysis/ru/algorithm.go: A_0 .. A_7","pkg/analysis/en/algorithm.go: A_0 .. A_10"])
p("C79","Mapped files stay mapped while in use and are unmapped once",
"While a thread still uses an opened input, an index, a part of an index, a language model or an on-disc dictionary - directly or through an object that leads to it - the memory its file is mapped to stays mapped, whenever the garbage collector runs and whatever other threads do (replacing the index in the service included): reads of it, or of posting lists and vectors cut out of it, do not fault, and dictionary lookups do not fail with 'MMap file is closed'. Every mapping is unmapped at most once; once nothing is in use any more the collector can unmap everything. (Refuted for holders of a part only: a posting list's bytes or the result of LanguageModel.Next do not keep the file mapped, and Service.Autocomplete, while merging, uses nothing but posting lists: replacing the index meanwhile can make it read unmapped memory. Service.Suggest keeps the index.)",
"all histories of opening, loading, slicing, reading, dropping, replacing and collecting, by any number of threads",
"a fault needs two collections between particular instructions; tests do not control the collector",
["pkg/utils/mmap_reader.go:NewMMapReader,Close","pkg/store/fs_directory.go:OpenInput","pkg/index/index_reader.go:Read","pkg/index/inverted_index.go:Get","pkg/lm/binary.go:RetrieveLMFromBinary","pkg/lm/packed_array.go:Load","pkg/suggest/autocomplete.go:Autocomplete","pkg/suggest/suggester.go:Suggest","pkg/index/searcher.go:Search"])
p("C80","The mapped file reader is bounded and fails after Close",
"MMapReader.ReadAt copies the bytes from the offset on, as many as asked for or as there are, reporting io.EOF exactly if there are fewer; offsets below 0 or behind the end are ErrMMapInvalidOffset, the end itself is not. After Close every ReadAt, Bytes and further Close is ErrMMapIsClosed, and only the first Close unmaps.",
"all contents, buffer sizes, offsets and states","all offsets around all sizes",
["pkg/utils/mmap_reader.go:Close,ReadAt,Bytes"])

p("C81","Response bodies can be read back",
"A client that reads the body of a search response by the JSON standard finds exactly the items of the answer, in order, every byte of every value that is valid UTF-8 included; the same for the lists of names and predictions. A body exists exactly when every score is a finite number. No entry can put markup or control characters into a body. (Bytes that are not UTF-8 are read as U+FFFD, so distinct entries can look alike.)",
"every list of items, every string","all strings: quotes, controls, markup, malformed UTF-8",
["internal/suggest/api/suggest_handler.go:handle","internal/suggest/api/dict_handler.go","internal/spellchecker/api/predict_handler.go","pkg/suggest/service.go:ResultItem"])
p("C82","What the HTTP API answers",
"A request with a bad parameter gets 400, and only such a request does; a good request for a name that is not served gets 500; a good request for a served dictionary gets 200 and the entries of C71 (or C73) with their scores in a JSON body; the list of dictionaries has each name once; the home page has the program's name and version; the answer to a reindex request tells whether the job succeeded; a prediction request answers as the spellchecker does. (Refuted: GET /predict/x/?topK=0 passes the validation and a goroutine of the server panics.)",
"every request, dictionary, schedule and state of the service","all parameter texts, dictionaries and schedules",
["internal/suggest/api/suggest_handler.go","internal/suggest/api/autocomplete_handler.go","internal/suggest/api/dict_handler.go","internal/suggest/api/reindex_handler.go","internal/spellchecker/api/predict_handler.go","internal/http/utils.go"])
p("C83","Reindexing a running server",
"A reindex run that succeeds, no other running at a time, leaves every configured name served with a version its files had during the run and every other name as it was; one that fails has renewed exactly the names before the first description that cannot be opened. Whatever runs at a time, a name once served stays served and everything served was once in the files; if runs do not overlap, no name goes back to an older version; a run ends. (Refuted: removed names stay served; a failed run is half applied; of two overlapping runs the older can win.)",
"all histories of config changes, file changes and steps of any number of reindex runs","all interleavings of runs with changes of the files",
["internal/suggest/api/app.go:Start","cmd/suggest/cmd/suggest.go","internal/suggest/api/reindex_handler.go","pkg/suggest/service.go:AddIndexByDescription"])
p("C84","Routing",
"A request reaches a handler exactly when it is one of the documented ones - method and path with a final slash - and the handler gets exactly the dictionary name and the query of the path; with another method it gets 405; without the final slash one redirect to the path with it; redirects end after two. (Refuted: names and queries with a slash in them, and the queries '.' and '..', cannot be asked for.)",
"every method and path","all paths, clean or not",
["internal/suggest/api/app.go:Start","internal/spellchecker/api/app.go:Start"])

p("C85","Where the files of a configuration are",
"The source and the files of every configured dictionary and language model are found relative to the directory of the configuration file (absolute paths as they are), whatever directory the process was started in and however the configuration's path was written: the indexer and the server agree on every file. Descriptions of a configuration share a file only if they have both name and output directory in common, and a description's own files are different ones. (Refuted without conditions: a name with a slash can collide with another's; an index and a model of one name in one directory share the .cdb file; two models in one directory share their n-gram files whatever their names.)",
"all configurations, paths and working directories","all ways to write a path: . , .. , double slashes, absolute and relative",
["pkg/suggest/config.go:GetDictionaryFile,GetIndexPath,GetSourcePath,GetHeaderFile,GetDocumentListFile,ReadConfigs","pkg/lm/config.go:GetDictionaryPath,GetBinaryPath,GetOutputPath,GetSourcePath,ReadConfig","pkg/lm/ngram_writer.go","pkg/store/fs_directory.go"])
p("C86","Signals, start and end of the search server",
"From the moment the server listens to signals, after a SIGHUP a reindex run begins or stays due as long as the process lives (several at a time may be answered by one run), no SIGTERM is lost, and after one was taken nothing but three steps of its own goroutines stands between the process and its end, whatever requests are running. No request is accepted before the dictionaries were loaded or after shutdown began; every accepted one is in progress or was answered once. The process ends with success only after SIGTERM or an interrupt, and only a signal before it listens kills it. (Refuted: requests in flight at the end are cut off; a SIGHUP while it starts kills it although its PID file is there; a SIGTERM waits for the reindex run in progress.)",
"all interleavings of signals, requests and the server's goroutines","all moments a signal or request can arrive at",
["internal/suggest/api/app.go:Run,listenToSystemSignals,writePIDFile","internal/http/http_server.go:Run"])
p("C87","From the training text to the predictions",
"A spellchecker whose model was trained on a text (n-gram counting, building of the model, start) has exactly the words of the text and the two sentence symbols as its dictionary, the more frequent first. For a query whose last word is to be completed it predicts words of the text, each once, at most limit + 1 of them, each a completion of the last word or as similar to it as requested; where the words before it are followed by anything in the text, words that follow them more often come first and a completion is left out only for limit words that follow them at least as often; otherwise the most frequent completions come first. Training and start succeed, and calls return for every schedule. (Refuted: the sentence symbols themselves are offered as predictions.)",
"all texts, alphabets, separators, orders from 2, index descriptions, queries, limits, similarities and schedules",
"the claim composes scanner, counts, sorted files, hash function, packed vectors, index and two concurrent searches; a test fixes one text",
["internal/spellchecker/dep/spellchecker.go:BuildSpellChecker","pkg/spellchecker/spellchecker.go:Predict","pkg/lm/binary.go:StoreBinaryLMFromGoogleFormat,RetrieveLMFromBinary","pkg/lm/indexer.go","pkg/lm/ngram_model.go:Next","pkg/dictionary/helpers.go:BuildCDBDictionary"])

p("C88","The indexer command",
"A run of the indexer writes nothing but the dictionary and index files of the selected descriptions with the DISC driver. The descriptions are done in the order of the configuration up to the first failure: what is opened afterwards for those done is the dictionary and the index of the lines of their sources, those after the failing one keep the files they had, nobody is told and the command fails. A run that reports success, or has signalled or posted to anybody, has done all selected descriptions; the signal goes to the number in the PID file, which is the server's PID for the file the server writes, and is sent before the request; success also means that the server answered OK. When the files can be written, the sources are good, and signal and request are accepted, the run succeeds. (Not claimed: that a failed run leaves the description it failed on as it was; it can leave the new dictionary with the old index.)",
"for every configuration, selection, file system content, behaviour of file creation, kill and HTTP server, chunking of reads and map iteration order",
"the outcome depends on every earlier file operation and on where the run stops; tests index one small dictionary once",
["cmd/suggest/cmd/indexer.go indexCmd, indexJob, buildDictionaryJob, tryToSendReindexSignal, tryToSendReindexRequest","pkg/dictionary/helpers.go BuildCDBDictionary","pkg/suggest/indexer.go Index","internal/suggest/api/app.go writePIDFile"])
p("C89","The eval commands",
"An eval session answers the lines of its input in order, each line once, by the call the command makes for it, blank lines (for suggest: nothing but Unicode white space; for the language model: no words) being skipped with a new prompt; what was printed for the lines so far does not depend on later input or on how the reads return. It ends with success exactly when the input ends and every question was answered, with an error before a line of 65536 bytes or more, and otherwise only as the first call that gave no answer. suggest eval serves the last description with the given name and starts exactly if there is one and all with that name load; its answers are the similar entries of that dictionary, best first (under the conditions of C71).",
"for every input, chunking of reads, configuration, dictionary, query sequence and schedule of the searches",
"a session is an unbounded sequence of lines with concurrent searches; a test types a few",
["cmd/suggest/cmd/eval.go evalCmd, configureService","cmd/spellchecker/cmd/eval.go evalCmd","cmd/language-model/cmd/eval.go evalCmd"])
p("C90","Searches share pooled objects",
"Searches reuse posting-list iterators and candidate buffers of earlier searches, in whatever state those left them, also after an error or a panic. Whatever number of searches runs, however their memory accesses interleave, whichever used object a pool hands out and whatever the garbage collector drops: every search that ends returns, and has told its collector, exactly what it would alone on fresh objects; none ever uses an object another one holds; and none is held up.",
"all sets of concurrent searches, interleavings, choices of the pools, growth of buffers, indexes, terms, thresholds and collectors",
"a stale field or a shared buffer shows only for particular histories and interleavings",
["pkg/index/codec.go:resolvePostingList,releasePostingList","pkg/index/searcher.go:Search","pkg/index/posting_list.go:Init","pkg/index/skipping_posting_list.go:Init","pkg/index/bitmap_posting_list.go:Init","pkg/merger/cp_merge.go:Merge,bufPool"])
p("C91","Configurations are read as they are written",
"A configuration file that is a JSON text (RFC 8259) in which no object names a member twice gives exactly the descriptions it says, in order, with the file's directory as the base of relative paths: members are found whatever the case of their names, unknown ones are ignored, absent ones and null mean the empty value, strings are the code points they denote, numbers must be integers of the field's range. A JSON text that says something else than descriptions is refused as a whole, and so is a text that is not JSON, if it is UTF-8 and has no numeric escapes.",
"all configuration paths and all texts, of any nesting, spacing, escapes and order of members",
"the grammar has infinitely many texts; the tests read one file",
["pkg/suggest/config.go:ReadConfigs,IndexDescription","pkg/lm/config.go:ReadConfig,Config"])
p("C92","A failed search is not taken for a complete one",
"A fuzzy search, an autocompletion or a spellchecker's completion that returns a result has searched every sub-index it was to search to the end: if a posting list cannot be read, or a search of a sub-index ends in any other error, the whole call returns an error and no result, in whatever order the goroutines work; and an error is returned only if one of the searches failed.",
"all indexes (also damaged ones), queries, metrics, similarities, limits and schedules",
"the error comes up in one of many goroutines at any point of the others",
["pkg/suggest/suggester.go:Suggest","pkg/suggest/autocomplete.go:Autocomplete","pkg/index/searcher.go:Search","pkg/spellchecker/spellchecker.go:Predict"])
p("C93","What the configuration says is what is served",
"If a configuration file is JSON, its descriptions use the drivers DISC and RAM, share no files, and their sources are dictionaries, then after a run of the indexer that succeeded (or told the server) the server started or told to reindex with the same file loads all of them, holds exactly the names of the file besides those it held, and answers suggest and autocomplete requests to a name with what the source file of the last description of that name, with its n-gram size, alphabet, pad and wraps, implies, whichever driver it has. The run succeeds if its files can be written, the PID file is the server's and the server answers. (Refuted: an unknown driver such as disc is skipped by the indexer without an error but not by the server, which then fails; a description without n-gram size is accepted and makes the server panic.)",
"all configuration texts, sources, disks, requests and schedules meeting the conditions",
"the two programs share nothing but the file and the disk; a test covers one configuration",
["pkg/suggest/config.go:ReadConfigs","cmd/suggest/cmd/indexer.go:indexJob","internal/suggest/api/app.go:configureService","pkg/suggest/service.go:AddIndexByDescription,AddRunTimeIndex,AddOnDiscIndex","pkg/suggest/tokenizer.go:NewSuggestTokenizer,NewAutocompleteTokenizer","internal/suggest/api/suggest_handler.go:handle","internal/suggest/api/autocomplete_handler.go:handle"])
p("C94","Entries that repeat an n-gram",
"A dictionary entry may have an n-gram more than once (characters outside of the alphabet are replaced after the tokenizer removed the duplicates). An index of such entries is read back with, for every n-gram, the entries that have it, at most as often as they have it; a search of the index collects every entry with at least T of the query's n-grams with their exact number, nothing with fewer, and no entry more often than it repeats an n-gram; so Suggest, under every schedule of its workers, returns without an error at most k answers, best first, each an entry of sufficient similarity with the score of at most its number of common n-grams, entries without repetitions exactly as if there were no others, and no entry more often than it repeats an n-gram. It is not true that every entry is returned at most once.",
"all lists of entries with any token lists, all queries, metrics, similarities from 2^-15 to 1, all k, all schedules; all directories, flushes and crash points for the index",
"the entries a test uses are words over the alphabet, for which nothing is repeated; what is collected depends on all lists and on the schedule",
["pkg/index/indexer_writer.go:AddDocument,Commit","pkg/index/codec.go:Encode","pkg/merger/cp_merge.go:Merge","pkg/merger/list_intersector.go:Intersect","pkg/suggest/suggester.go:Suggest","pkg/suggest/tokenizer.go:NewSuggestTokenizer"])
p("C95","Dictionaries with any entries, end to end",
"An index of a dictionary whose entries repeat n-grams (two different characters outside the alphabet give the same padded n-gram, as in a-a+) can be built in memory and on disc, and the service answers from it: Suggest returns no error and at most topK items, best first, each an entry that is similar enough, no entry more often than it repeats an n-gram, and every entry that is similar enough with its own score unless topK items have no smaller score; Autocomplete returns, in dictionary order, entries that have all n-grams of the prefix, each no more often than it repeats an n-gram, up to the limit, and with fewer items than the limit none is missing. It does not always return as many different entries as the limit allows: a repeated entry takes the place of another. Both calls return on every schedule.",
"every dictionary with below 2^32 entries and n-grams, every query with distinct n-grams, metric, similarity, limit, map order, flush pattern and goroutine schedule",
"a test dictionary has few padded collisions and runs one schedule; the copies depend on the sizes, the merge algorithm and the queue",
["pkg/suggest/service.go: Suggest, Autocomplete","pkg/suggest/ngram_index_builder.go: Build","pkg/suggest/suggester.go: Suggest","pkg/suggest/autocomplete.go: Autocomplete","pkg/merger/cp_merge.go","pkg/merger/list_intersector.go","pkg/analysis/normalizer.go"])

p("C96","How the answers of different requests relate",
"Whether an entry is an answer to a Suggest request depends on the query, the metric, the similarity and the entry alone: a call that returns fewer items than asked for returns exactly the entries that pass, whatever else the dictionary holds, and two such calls on one dictionary return the same list, whatever the limit, the driver of the index, the map order and the schedule; so entries added to a dictionary take no answers away. Autocomplete with a larger limit only extends the list, entries appended to the dictionary come after the completions there are, and typing on narrows the completions. Letter case matters neither in the query nor in the entries.",
"every pair of requests, dictionaries and indexes of them, limits, map orders and goroutine schedules (Suggest: those that return fewer items than asked for; ties are cut by the schedule otherwise)",
"a relation between two runs over different indexes and schedules; a test compares a few pairs",
["pkg/suggest/service.go: Suggest, Autocomplete","pkg/suggest/suggester.go: Suggest","pkg/suggest/autocomplete.go: Autocomplete","pkg/suggest/ngram_index_builder.go: Build","pkg/analysis/tokenizer.go","pkg/analysis/ngram_tokenizer.go"])

p("C97","Killing the indexer",
"The indexer command may be killed at any point and any number of times: it never changes anything but the files of the dictionaries it is to index, and running it once more to the end gives the same disk, file by file, and the same notices as if it had never been killed. If it is killed during the first deployment (there were no files yet), a server started on what it left either does not start or answers every suggest and autocomplete request with an error or with what the complete index gives. (Refuted for updates: a kill between the files leaves the new dictionary with the old index, which is opened without an error and answers with wrong words; even with an unchanged source a new document list under the old header loses answers.)",
"every configuration, disk, history of attempts (killed after any operation and with any part of the buffers written, or ended), request and schedule",
"a test can stop the process at a few points only; the states in between depend on the buffers and the order of a Go map",
["cmd/suggest/cmd/indexer.go:indexJob,buildDictionary","pkg/index/indexer_writer.go:Commit","pkg/store/fs_directory.go","pkg/index/index_reader.go:Read","pkg/dictionary/helpers.go:BuildCDBDictionary","pkg/suggest/service.go:AddOnDiscIndex"])

p("C98","What the language-model configuration says is what is counted, scored and predicted",
"For every configuration file of a language model and every text: the ngram-count command writes, for each order up to the configured one, exactly the n-grams of the sentences of the text (between the configured start and end symbols) with the number of their occurrences, and changes no other file; if build-lm after it succeeds, eval answers every line of its input that has words with the back-off score of its words over those counts, in order, and the spellchecker's eval answers each line with at most 6 different words of the text or its symbols, each a completion of the last word or similar to it, the more frequent continuation first. Neither command ever changes any file but those of the model. (Refuted: with an order above the longest sentence plus 2, build-lm never succeeds; and two models of different names with one output directory share the files of the n-grams, so that one can be built, without an error, from the text of the other.)",
"every configuration file, text, disk, standard input, scanner chunking, map order, hash seed and goroutine schedule",
"three commands that communicate by files: the unit tests train in memory on one text",
["cmd/language-model/cmd/ngram-count.go","cmd/language-model/cmd/build-lm.go","cmd/language-model/cmd/eval.go","cmd/spellchecker/cmd/eval.go","internal/spellchecker/dep/spellchecker.go","pkg/lm/config.go","pkg/lm/ngram_writer.go","pkg/lm/ngram_reader.go"])

p("C99","Every query is answered, whatever its characters",
"Queries may repeat n-grams, too: characters outside the alphabet are replaced only after the n-grams are made different, so that -+ has one padded n-gram three times; and short queries have no n-gram at all. Every such query is answered without an error on every schedule (Suggest: if the longest entry could be similar enough, see C100), over the library, from disc and over HTTP. Autocomplete returns entries with all n-grams of the query and no fewer n-grams than it, in the order of the dictionary, each no more often than it repeats an n-gram, and an entry that starts with the query is always among them if there are fewer than the limit. Suggest returns entries best first, scored with at most their common n-grams (a repeated one counts every time), none more often than it repeats an n-gram, and with fewer than topK answers every entry that is similar enough; a full answer leaves out only entries no more similar than its items' scores (both for entries with no more common n-grams than n-grams). A query without n-grams gets no items. (Refuted for such queries: that the entry equal to the query comes first, and that scores are at most 1.)",
"every dictionary with below 2^32 entries and n-grams, n-gram size from 1 to 8, every query of at most 65535 n-grams, metric, similarity, limit, map order, flush pattern and goroutine schedule",
"tests query words of the alphabet; the effect of a repeated n-gram depends on the sizes, the filter bounds, the merge algorithm and the order of the goroutines",
["pkg/suggest/service.go: Suggest, Autocomplete","pkg/suggest/suggester.go: Suggest","pkg/suggest/autocomplete.go: Autocomplete","pkg/analysis/ngram_tokenizer.go: Tokenize","pkg/analysis/normalizer.go","pkg/merger/cp_merge.go","pkg/merger/list_intersector.go","internal/suggest/api/suggest_handler.go"])

p("C100","Exactly which Suggest requests are answered",
"Let L be the number of n-grams of the longest entry of a dictionary. A Suggest call, and a /suggest request, for a query with n-grams is answered on every fair schedule if an entry of L n-grams could be similar enough to the query; in particular whenever the query has no more than L n-grams, and always with the overlap metric. If L n-grams are too few but L + 1 would be enough, it never returns, whatever the schedule: client and goroutines wait for ever. If not even L + 1 would be enough, it panics, and over HTTP the connection is closed without an answer. Nothing else happens.",
"every dictionary, query with 1 to 65535 n-grams, metric, similarity, topK, map order, flush pattern and goroutine schedule",
"a test sees one query and one schedule, and cannot tell a call that never returns from a slow one; the boundary between the three cases depends on floating-point bounds",
["pkg/suggest/suggester.go: Suggest","pkg/suggest/service.go: Suggest","pkg/metric/metric.go","pkg/index/indices.go: Size","internal/suggest/api/suggest_handler.go"])

p("C101","Asking for less similarity loses no answer",
"Of two Suggest calls with the same dictionary, query and metric, whatever their limits, indexes and schedules, the one with the smaller similarity returns every answer of the other, with the same score, unless it is full (returned as many as asked for).",
"every dictionary, query, metric, pair of similarities, limit, map order, flush pattern and goroutine schedule",
"the answers are decided by three floating-point bounds per entry size, computed anew for each similarity; whether they are monotone is a question about rounding for all sizes and doubles",
["pkg/metric/metric.go","pkg/metric/jaccard.go","pkg/metric/dice.go","pkg/metric/cosine.go","pkg/metric/overlap.go","pkg/suggest/suggester.go: Suggest"])

p("C102","The metrics form a chain",
"At the same similarity, every answer with the exact metric is an answer with Jaccard, every answer with Jaccard one with Dice, every answer with Dice one with cosine, and every answer with cosine one with overlap (for entries and queries of up to 32767 n-grams), whatever the limits, indexes and schedules of the two calls, as long as they are not full.",
"every dictionary an index is built for (entries may repeat n-grams), query of 1 to 65535 n-grams, pair of metrics, similarity from 2^-15 to 1, limit, map order, flush pattern and goroutine schedule",
"the chain holds for the ideal similarities; that rounding never breaks it is a statement about all sizes and doubles",
["pkg/metric/metric.go","pkg/metric/jaccard.go","pkg/metric/dice.go","pkg/metric/cosine.go","pkg/metric/overlap.go","pkg/metric/exact.go","pkg/suggest/suggester.go: Suggest"])

p("C103","A failed write is never taken for success",
"When the operating system refuses to open a file or to take some bytes of a write (a full disk, a quota, an I/O error), at whatever point and even if later writes succeed again, the operation that writes reports an error: committing an index, storing n-gram counts, storing a binary language model, and the indexer command, which then neither signals nor calls the server. If it reports success, every open and write succeeded, the files hold what they hold on a disk that does not fail (so an index opens and answers as C24 says), and nothing else was touched. What a failed indexer command leaves is what a killed one could have left (C97), and running it again where nothing fails repairs everything.",
"every collection, trie, model and configuration, every earlier content of the directory, every choice of which system calls fail and of how many bytes each write takes, every way a library cuts its output into writes",
"writes go through a buffer of 4096 bytes, so an error shows up at some later write or at the close; the calls at which it can happen are as many as the output is long",
["pkg/store/byte_output.go","pkg/store/fs_directory.go","pkg/index/indexer_writer.go: Commit","pkg/index/codec.go","pkg/compression/varint.go","pkg/compression/skipping.go","pkg/compression/bitmap.go","pkg/lm/ngram_writer.go","pkg/lm/binary.go","pkg/lm/ngram_model.go","pkg/lm/packed_array.go","pkg/mph/mph.go","cmd/suggest/cmd/indexer.go"])

p("C104","A language model file that was cut short is never loaded",
"If the binary file of a language model is any proper beginning of what the build wrote (the writer was killed, the disk was full, the copy was cut), then loading it does not succeed, wherever it was cut: neither the language model nor the spell checker is built from it and the evaluating command answers no sentence and does not exit with success. When writing a model into a file that did not exist or was empty ends with an error, what is in the file afterwards is the complete model or cannot be loaded. (Not claimed: that the loader reports an error instead of dying; and that dictionary and model come from the same build.)",
"all models built from n-gram files (counts of 32 bits, fewer than 2^28 lines, at most 255 orders), all hash tables, all positions of the cut, all configurations and disks around it, and all decisions of a failing disk while the model is written",
"There is a cut position for every byte of every model; a loader that accepts one of them scores with a wrong model without an error.",
["pkg/lm/ngram_model.go: Load","pkg/lm/packed_array.go: Load","pkg/mph/mph.go: Load","pkg/lm/binary.go: RetrieveLMFromBinary, StoreBinaryLMFromGoogleFormat","pkg/store/byte_input.go"])
p("C105","The spellchecker with words that repeat n-grams",
"Words of the dictionary and the last word of the query may repeat n-grams, and the last word may have none. For a limit of at least 1, and if an entry as long as the longest could be similar enough to a word with n-grams, a prediction returns words on every schedule of its two searches, after a bounded number of steps: at most limit + 1, each a word of the dictionary that has all n-grams of the last word's beginning or shares an n-gram with the last word, best next-word score first if the context is known, none more often than it repeats an n-gram. Every word with all these n-grams, and as many, is returned unless limit others with no smaller score are; if no word of the dictionary repeats n-grams and fewer than limit are returned, every clearly similar word is. (Refuted: that a word is offered only once: a word that repeats an n-gram can fill the answer and crowd out other completions.)",
"every dictionary of words, language model with numeric scores, query, limit from 1, similarity and pair of goroutine schedules",
"tests predict with words that have distinct n-grams; a repeated one changes what the merge counts and what the queues hold, depending on the order of the goroutines",
["pkg/spellchecker/spellchecker.go: Predict","pkg/spellchecker/scorer.go","pkg/suggest/autocomplete.go","pkg/suggest/suggester.go: Suggest","pkg/merger/list_intersector.go","pkg/suggest/topk.go"])
p("C106","From the training text to the predictions, with words that repeat n-grams",
"A spellchecker is trained on a text of words and started, whatever n-grams its words and the words of the query repeat, also if the last word of the query has none. For a limit of at least 1, and if a word of the text is long enough to be similar to a last word with n-grams, a prediction returns on every schedule, after a bounded number of steps, at most limit + 1 words: each is a word of the text (or a symbol that ends a sentence) that has all n-grams of the last word's beginning or shares an n-gram with it, and none is there more often than it repeats an n-gram. If the preceding words are followed by anything in the text, the words that follow them more often come first. Every word with all these n-grams, and as many, is returned unless limit others that follow the context at least as often are; if no word of the text repeats n-grams and fewer than limit are returned, every clearly similar word is. (Refuted: that each word is offered once, over the whole pipeline: all answers can be the same word.)",
"every training text (below 2^28 words, files below 4 GB), configuration of the tokenizers, dictionary with fewer than 2^32 n-grams, query, limit, similarity, pair of goroutine schedules, behaviour of the libraries' unspecified orders",
"the training tools and the spellchecker are separate programs joined by files; tests use fixed files with words of distinct n-grams",
["pkg/spellchecker/spellchecker.go: Predict","pkg/spellchecker/scorer.go","pkg/lm/binary.go: StoreBinaryLMFromGoogleFormat, RetrieveLMFromBinary","pkg/lm/ngram_model.go: Next","internal/spellchecker/dep/spellchecker.go: BuildSpellChecker","pkg/suggest/autocomplete.go","pkg/suggest/suggester.go: Suggest","pkg/merger/list_intersector.go","cmd/spellchecker/cmd/eval.go"])
p("C107","Looking an entry up whose n-grams repeat",
"In every dictionary, whatever n-grams its entries repeat (before or after the characters outside the alphabet are replaced), searching for an entry - under any spelling with the same n-grams, with every metric, every similarity from 1/32768 to 1 and every limit from 1 - finds it: the answer is not empty, its first item has a score that is not below 1, and the entry is in it with score 1, unless the answer is full of items none of which has a smaller score, those with score 1 being this entry or ones before it.",
"every dictionary with fewer than 2^32 n-grams, index in memory or on disc, query with 1 to 65535 n-grams, metric, similarity, limit and goroutine schedule",
"an exact search that misses its entry happens only for particular repetitions, sizes, similarities and orders of the goroutines",
["pkg/suggest/service.go: Suggest","pkg/suggest/suggester.go: Suggest","pkg/suggest/topk.go","pkg/merger/list_intersector.go","pkg/analysis/ngram_tokenizer.go","pkg/metric/jaccard.go"])

with open('/verif/properties.jsonl','w') as f:
    for o in P: f.write(json.dumps(o,ensure_ascii=False)+"\n")
print(len(P))
