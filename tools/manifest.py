#!/usr/bin/env python3
"""Writes /verif/MANIFEST.json from the table below."""
import json
C = []
def claim(p, status, theorems, note):
    C.append({"property": p, "status": status, "theorems": theorems, "note": note})

claim("C01","proved",["C01_varint_roundtrip"],"every uint32")
claim("C02","proved",["C02_varint_reader_is_leb128"],"reader decodes exactly LEB128, all byte strings")
claim("C03","proved",["C03_typed_stream_roundtrip"],"any sequence of typed writes reads back")
claim("C04","partial",["C04_input_cursor_partial","C04_input_never_panics_refuted"],"every operation sequence agrees with the cursor spec, except that Seek/ReadAt/Slice on int64 overflow panic (refuted, witness given)")
claim("C05","partial",["C05_fs_create_replaces","C05_ram_create_replaces_refuted","C05_ram_create_fresh_partial"],"FS directory: proved; RAM directory: re-creating a file is refuted, fresh names proved")
claim("C06","proved",["C06_binary_roundtrip"],"")
claim("C07","proved",["C07_varint_list_roundtrip"],"")
claim("C08","proved",["C08_skipping_roundtrip"],"")
claim("C09","proved",["C09_block_headers"],"")
claim("C10","partial",["C10_encoder_terminates_refuted","C10_negative_gap_panics_refuted","C10_decoder_count_refuted","C10_positive_gap_partial"],"the property is false of the code (gap 0, negative gaps, the decoder's count); proved for gaps from 1, the count for lengths that are a multiple of the gap")
claim("C11","proved",["C11_varint_list_is_cursor"],"refinement for all call sequences")
claim("C12","proved",["C12_skipping_list_is_cursor"],"all accepted positive gaps, all call sequences")
claim("C13","proved",["C13_bitmap_list_is_cursor","C13_any_list"],"relative to the stated contract of the roaring library")
claim("C14","proved",["C14_format_invisible","C14_repetitions"],"relative to the roaring contract")

claim("C15","proved",["C15_scancount_correct"],"at most 65535 lists (documented overlap limit), non-empty lists; every collector and sorter")
claim("C16","proved",["C16_cpmerge_correct"],"at most 65535 lists, non-empty lists, T >= 1")
claim("C17","proved",["C17_mergeskip_correct"],"includes termination")
claim("C18","partial",["C18_divideskip_correct_partial","C18_divideskip_correct_real_partial","C18_divideskip_singletons_refuted"],"right whenever 0 <= L < T; for exact arithmetic whenever mu > 0 and the longest list has 2 elements; refuted when all lists are singletons")
claim("C19","proved",["C19_intersect_correct"],"non-empty family of non-empty lists")
claim("C20","proved",["C20_mergers_agree"],"DivideSkip under 0 <= L < T; CPMerge up to error wrapping")
claim("C21","partial",["C21_early_termination","C21_limit_gets_smallest","C21_error_unchanged_refuted"],"all proved except that CPMerge wraps the collector error (refuted)")
claim("C22","proved",["C22_candidate_packing"],"")
claim("C23","partial",["C23_empty_lists_partial","C23_mergeskip_empty_refuted","C23_intersect_empty_refuted"],"ScanCount and CPMerge below the full threshold proved; MergeSkip and the intersector refuted")

claim("C24","partial",["C24_index_roundtrip_fs","C24_index_roundtrip_ram","C24_repeated_token_refuted","C24_empty_index_refuted"],"every collection of ascending ids with distinct tokens whose first document has a token; every map iteration order, flush schedule and earlier directory history; refuted for repeated tokens and for the empty collection")
claim("C25","partial",["C25_add_any_document_refuted","C25_add_document_panics_iff","C25_no_tokens_never_found"],"refuted: panics exactly when the first document has no tokens")
claim("C26","proved",["C26_search_correct","C26_search_documents"],"with the CPMerge merger the library uses; at most 65535 query terms, T >= 1")
claim("C27","partial",["C27_crash_safe_refuted","C27_crash_fresh_directory_partial"],"refuted over an existing index; proved for a fresh directory up to lookups answering with an error")

claim("C28","proved",["C28_ngram_windows","C28_distinct_and_complete","C28_characters_make_up_the_text"],"")
claim("C29","partial",["C29_tokens_distinct_refuted","C29_tokens_distinct_partial"],"refuted: the normalizer runs after deduplication; proved when the text only has alphabet characters")
claim("C30","partial",["C30_short_text_refuted","C30_short_text_exact"],"refuted for multi-byte texts; exact behaviour proved")
claim("C31","partial",["C31_never_panics_partial","C31_never_panics_refuted"],"sizes 1..8 never panic; 0 always; >=9 exactly for texts of >= 7 characters")
claim("C32","proved",["C32_word_runs","C32_word_runs_filtered","C32_invalid_bytes_refuted"],"without invalid bytes or without U+FFFD in the alphabet; always behind the filter tokenizer; the remaining case is refuted")
claim("C33","proved",["C33_normalizer","C33_idempotent","C33_invalid_byte_refuted"],"invalid byte with U+FFFD in the alphabet is rewritten (refuted there)")
claim("C34","partial",["C34_prefix_tokens_partial","C34_short_query_refuted","C34_converse_refuted"],"subset proved for valid UTF-8 queries of >= n characters; short queries and the converse refuted")
claim("C65","proved",["C65_composite","C65_described","C65_listed","C65_listed_refuted","C65_sizes","C65_size_refuted"],"membership = listed except for the Russian io; Size counts repetitions")

claim("C35","proved",["C35_filters_exact","C35_threshold_decides","C35_overlap_cap_refuted"],"all metrics over the reals; the overlap metric's 32767 size cap is the one exception (refuted there)")
claim("C36","partial",["C36_filters_exact_refuted","C36_size_bounds_exact_refuted","C36_nothing_similar_is_lost_partial","C36_nothing_dissimilar_passes_partial","C36_score_accurate","C36_score_monotone","C36_exact_metric"],"refuted for every metric but Exact; exact up to a relative 2^-46 for sizes < 2^26 and similarity >= 2^-15; the score is accurate to 2^-50")
claim("C37","partial",["C37_identical_passes_partial","C37_identical_passes_refuted"],"proved for similarity >= 2^-15 and sizes < 2^26; refuted for tiny similarities")

claim("C38","proved",["C38_topk_keeps_best","C38_operations_succeed","C38_lowest_score","C38_best_is_unique","C38_same_is_equal","C38_zero_panics","C38_nan_refuted"],"every history of insertions, listings, merges and resets with k >= 1 and numeric scores; NaN scores and k = 0 shown to break it")
claim("C39","proved",["C39_merge_order_irrelevant"],"every partition over workers and every merge order; up to the sign of a zero score")
claim("C40","proved",["C40_listing_is_repeatable","C40_listing_twice"],"")

claim("C41","partial",["C41_same_answers_refuted","C41_every_schedule_partial","C41_fewer_than_k_partial","C41_exact_metric","C41_consistent_thresholds_partial","C41_best_is_unique","C41_mutual_exclusion","C41_score_above_one_refuted","C41_repeated_tokens_partial"],"refuted: ties are schedule dependent; proved for every schedule: sound, complete up to a relative 2^-46, sorted, distinct; the full claim when fewer than k answers, for Exact, and for consistent thresholds. These need distinct query tokens: with repeated ones a score can exceed 1 (refuted); without that condition it is still proved that every answer shares the required number of list positions, is scored from that number, is distinct and sorted, and none is missing")
claim("C42","partial",["C42_terminates_partial","C42_returns_partial","C42_no_deadlock_any_index_partial","C42_short_entries_panic_refuted","C42_short_entries_hang_refuted","C42_nan_never_returns_refuted","C42_tiny_similarity_panics_refuted"],"refuted: panics or hangs when every entry is too short for the query, never returns for NaN, panics for a tiny similarity; otherwise proved: bounded number of steps, no deadlock, no panic, for every schedule and every query, also with repeated tokens")
claim("C43","proved",["C43_first_matches","C43_ids","C43_terminates","C43_no_deadlock","C43_no_panic","C43_mutual_exclusion","C43_empty_query","C43_negative_limit_refuted","C43_repeated_terms_refuted"],"every schedule, limit >= 0, at least one and distinct terms; the exceptions are refuted")

claim("C44","partial",["C44_installed_together","C44_installs","C44_finished_adds_are_visible","C44_ram_one_build","C44_found_is_answered","C44_ram_answers_from_source","C44_disc_one_build_partial","C44_one_build_refuted","C44_no_map_race_partial","C44_listing_race_refuted","C44_terminates","C44_no_deadlock"],"index and dictionary are always those of one AddIndex call, under every interleaving; one build for RAM indexes and for disc indexes whose files are left alone; refuted when the indexer rewrites the mapped files; a listing can abort the process")
claim("C45","partial",["C45_accepted_iff","C45_number_required_refuted","C45_numbers_partial"],"exact for every number; refuted: NaN is accepted")
claim("C66","partial",["C66_parse_int","C66_topk_param","C66_autocomplete_limit","C66_suggest_request","C66_predict_zero_refuted","C66_nan_request_refuted"],"ParseFloat is a parameter; NaN accepted (refuted), prediction requests may pass 0 on")

claim("C46","partial",["C46_walk_partial","C46_walk_sums","C46_walk_refuted"],"proved for every history and map order with fewer than 2^32 distinct words and some non-empty put; refuted: only the empty sentence put, or a sum of 2^32")
claim("C47","partial",["C47_build_counts_partial"],"in uint32 arithmetic, fewer than 2^32 distinct words, every order below 256")
claim("C48","partial",["C48_lookup_partial","C48_lookup_refuted"],"up to 2^32-3 nodes; refuted for the node at that position, and for a sub-vector asked about another context")
claim("C49","partial",["C49_counts_partial","C49_counts_refuted"],"in uint32 arithmetic, for files closed under prefixes, orders 1..255, up to 2^32-3 n-grams per order; refuted without the prefixes")
claim("C50","partial",["C50_next_partial"],"same conditions as C49; any logarithm function")
claim("C51","partial",["C51_recent_partial","C51_recent_refuted"],"refuted: a sequence of exactly order words is conditioned on its first order-1 words; proved for all other lengths")
claim("C63","partial",["C63_score_partial","C63_suffix_refuted"],"refuted as stated (it is the longest seen prefix that decides); the exact score is proved, for any logarithm function")
claim("C67","partial",["C67_sentence_score","C67_short_refuted"],"the sum over all runs, for models as in C49; refuted as a measure for sentences of fewer than order-2 words: they score 0 whatever their words")

claim("C54","partial",["C54_perfect_partial","C54_empty_refuted"],"whenever the construction ends, for 1..2^31 words; refuted for the empty dictionary (lookups panic); sort.Slice is assumed to sort")
claim("C55","partial",["C55_duplicates_refuted","C55_two_words_refuted","C55_congruent_words_refuted","C55_letter_case_refuted","C55_wait_or_never","C55_wait_or_never_powers"],"refuted: duplicates never end; dictionaries of 2^k words with two words congruent byte by byte modulo 2^k (for k <= 5: a word in both letter cases) never end; exact criterion for two words; for every dictionary the construction ends within 2^32 (n+1) search steps per bucket (4^k+2^k for n = 2^k) or never, so that a finite run decides")
claim("C56","proved",["C56_roundtrip"],"")
claim("C57","partial",["C57_word_ids_partial","C57_nil_word_refuted"],"conditions of C54; refuted for the word <nil/>")
claim("C58","partial",["C58_memory","C58_nil_entry_refuted","C74_indexer_partial"],"in-memory dictionaries; for cdb files, over the library's contract and without empty entries, C74_indexer_partial; <nil/> can be an entry (refuted as an absence mark)")

claim("C52","partial",["C52_model_partial","C52_binary_partial","C52_files_partial","C52_count_refuted","C52_large_refuted"],"up to 255 vectors of fewer than 2^29 entries, wherever in the buffer, with the hash table behind; refuted: the count a vector's loader reports is its end position, and from 2^29 entries the header wraps")

claim("C53","partial",["C53_score_writes","C53_unchanged_partial","C53_spare_refuted","C53_sentence","C53_next","C53_scorer"],"refuted: with spare capacity the cell behind the caller's slice becomes the end symbol; nothing else is ever changed")
claim("C60","partial",["C60_sentences","C60_all_sentences_partial","C60_pieces_refuted"],"every chunking; refuted: a piece of 65536 bytes or more silently ends the text, and U+FFFD as a separator makes the result depend on the chunks; exact for all other texts; bufio.Scanner is modelled, not assumed")
claim("C68","partial",["C68_entries","C68_all_lines_partial","C68_words_roundtrip","C68_all_lines_refuted"],"refuted: a line of 65536 bytes or more silently ends the dictionary; exact otherwise, for every way the reads return")

claim("C59","partial",["C59_lines","C59_model","C59_trie_partial","C59_any_word_refuted"],"words without space, tab and newline, lines below 65536 bytes, n-grams up to the order; refuted outside of that (a word with a space comes back as two words, a tab makes the file unreadable, a line without tab panics)")

claim("C69","partial",["C69_trained_model_partial","C69_score_partial"],"conditions: order up to 255, plain non-empty words, lines below 65536 bytes, fewer than 2^28 words, the hash construction ends, file below 2^63 bytes")

claim("C61","partial",["C61_prediction_partial","C61_enough_completions","C61_no_context","C61_limit_refuted","C61_unigram_model_refuted"],"every schedule of both searches; limits from 1; the number of entries can be limit+1 (refuted); similarity up to a relative 2^-46; needs numeric next-word scores and a dictionary covering the index")
claim("C62","partial",["C62_returns_partial","C62_negative_limit_refuted","C62_zero_limit_refuted","C62_short_entries_refuted"],"returns for limits from 1 on every schedule, under the conditions of C42; refuted for limit 0, negative limits, and entries too short for the word")

claim("C70","partial",["C70_text_to_scores_partial"],"conditions: the word alphabet has no space, tab, newline; the separators not U+FFFD; order 1..255; words short enough for lines of 65536 bytes; fewer than 2^28 words; the hash construction ends; math.Log is any function. Refutations outside: C54, C55, C59, C60")

claim("C71","partial",["C71_index_builds_partial","C71_plain_dictionary","C71_plain_query","C71_suggest_partial","C71_suggest_returns_partial","C71_repeated_grams_partial"],"conditions: n-gram size 1..8; the n-grams of each entry are distinct (otherwise refuted: C24, C29, C43), and those of the query for the similarity claims (returning and ordering hold without); sizes: < 2^32 entries, < 2^26 n-grams per entry, index < 4 GB; the first entry has n-grams (otherwise refuted: C25); similarity in [1/32768, 1]; some entry is long enough to be similar (otherwise refuted: C42)")
claim("C72","partial",["C72_lookup_partial"],"same conditions as C71, the last one being automatic here")
claim("C73","partial",["C73_autocomplete_partial","C73_autocomplete_returns","C73_prefixes_match"],"same conditions on dictionary and index as C71; distinct n-grams of the query (otherwise refuted: C43_repeated_terms_refuted); the converse of C73_prefixes_match is refuted: C34_converse_refuted")
claim("C74","partial",["C74_indexer_partial","C74_disc_suggest_partial","C74_disc_autocomplete_partial","C74_drivers_agree_partial","C74_long_line_refuted","C74_empty_line_refuted"],"over a contract of the cdb library (cdb_ok), for lines of 1..65535 bytes; refuted outside: a longer line is an error for the indexer and silently ends the dictionary in memory; an empty line makes the indexer fail if the library reads empty values as io.SectionReader does. Other conditions as in C71/C73, or C95 for the equality with the service in memory")
claim("C64","partial",["C64_prefixes","C64_frequency","C64_marker","C64_walk","C64_walk_pruned","C64_prune","C64_prune_child","C64_prune_keeps_count","C64_prune_idempotent","C64_words_partial","C64_words_pruned_partial","C64_absent_not_nil","C64_minimal_length_refuted","C64_minimal_zero_never_ends"],"pkg/vgram is tagged +build ignore. The trie is covered completely (markers and pruning for valid UTF-8 and fewer than 2^32 additions). Partial: the builder calls index.SplitIntoNGrams, which /repo no longer contains; its contract (all windows) is a hypothesis. Refuted: Find never returns nil and an absent gram's methods panic; the minimal length counts bytes; minimal length 0 never ends")

claim("C75","proved",["C75_russian_stem","C75_stem_unique","C75_every_token","C75_stem_is_prefix","C75_yo_is_ye","C75_no_vowel","C75_idempotent_refuted"],"everything stated is proved; stability of stems is refuted. The exact result is for valid UTF-8; the specification writes out the published algorithm as relations. The snowball run-time is modelled from its published source")
claim("C76","proved",["C76_english_stem","C76_not_longer","C76_valid_utf8","C76_short_tokens","C76_empty_stem","C76_empty_stem_valid","C76_other_scripts","C76_idempotent_refuted","C76_capitals_refuted"],"everything stated is proved, for every byte string; stability of stems and preservation of capitals are refuted. The snowball run-time is modelled from its published source")
claim("C77","proved",["C77_english_filter","C77_russian_filter","C77_piecewise","C77_no_stop_words_refuted"],"proved; that the result has no stop words is refuted")
claim("C78","proved",["C78_tables","C78_search_forward","C78_search_backward","C78_search_any_table","C78_unsorted_refuted"],"the library's search is modelled from its published source")
claim("C79","partial",["C79_held_is_mapped","C79_no_fault","C79_dictionary","C79_unmapped_once","C79_released","C79_parts_refuted","C79_autocomplete_reindex_refuted"],"everything stated is proved, for the documented behaviour of runtime.SetFinalizer; refuted for holders of a part only (posting list, result of Next) and for Autocomplete during a replacement of the index. Partial because finalizers run in one step and freed memory is not reused in the model")
claim("C80","proved",["C80_closed","C80_read_at"],"")
claim("C81","proved",["C81_response","C81_strings","C81_any_bytes","C81_no_markup","C81_bytes_refuted"],"everything stated is proved; the text of a float is an oracle that yields a JSON number; refuted: bytes that are not UTF-8 all become U+FFFD")
claim("C82","partial",["C82_suggest_refused","C82_autocomplete_refused","C82_unknown_dictionary","C82_dictionaries","C82_home","C82_reindex_reported","C82_suggest_partial","C82_suggest_returns_partial","C82_autocomplete_partial","C82_predict","C82_predict_zero_refuted"],"complete answers under the conditions of C71 and C73; writing the response is assumed to succeed; refuted: /predict/ with topK=0 is accepted and a goroutine of the server panics")
claim("C83","partial",["C83_success_partial","C83_failure_partial","C83_never_vanishes","C83_only_real_versions","C83_monotone_partial","C83_ends","C83_removed_refuted","C83_all_or_nothing_refuted","C83_overlap_refuted"],"success, failure and monotonicity for runs that do not overlap (refuted for overlapping ones); removed names stay served (refuted), a failed run is half applied (refuted)")
claim("C84","proved",["C84_suggest_server","C84_spellchecker_server","C84_method","C84_no_slash","C84_redirects_end","C84_any_name_refuted"],"everything stated is proved, for gorilla/mux as published; refuted for names and queries with a slash and for the queries . and ..")
claim("C85","proved",["C85_where","C85_same_files","C85_disjoint","C85_slash_refuted","C85_model_and_index_refuted","C85_two_models_refuted"],"everything stated is proved, without symbolic links; refuted for names with a slash, for a model and an index of one name in one directory and for two models in one directory")
claim("C86","proved",["C86_sighup","C86_sigterm","C86_ends","C86_accepts","C86_requests","C86_why_it_ends","C86_graceful_refuted","C86_early_sighup_refuted","C86_prompt_refuted"],"everything stated is proved, for os/signal and net/http as documented; refuted: graceful shutdown, SIGHUP while starting, SIGTERM during a reindex run")
claim("C87","partial",["C87_words","C87_predict_partial","C87_no_context_partial","C87_returns_partial","C87_builds_partial","C87_symbols_refuted"],"for dictionaries whose entries have distinct n-grams, queries with distinct n-grams and at least one prefix n-gram, limits from 1, similarities with a long enough entry, corpora below 2^28 words; math.Log is asked to be strictly increasing on quotients of counts; refuted: the sentence symbols are offered")
claim("C88","partial",["C88_untouched","C88_in_order_partial","C88_success_partial","C88_notices","C88_succeeds_partial","C88_served_partial","C88_pid","C88_no_files_signalled","C88_mixed_refuted","C88_pid_refuted"],"the claims about content are for sources that are dictionaries in the sense of C71 or C95, and of C74, and descriptions that share no file; writing nothing else, the notices and the PID hold always; refuted: after a failed run the new dictionary can stand beside the old index and is served without an error (C88_mixed_refuted); a PID file '-1' makes the command signal every process (C88_pid_refuted)")
claim("C89","partial",["C89_session","C89_interactive","C89_trimmed","C89_configured","C89_suggest_partial","C89_spell","C89_lm"],"the session, its lines and the configuration hold always; the content of suggest's answers under the conditions of C71 (outside of them a query can panic or never return: C42)")
claim("C90","proved",["C90_pooled_search_answers","C90_searches_go_on","C90_pooled_search_documents"],"everything stated is proved, for sync.Pool as documented (Get: any object put and not taken since, or a new one) and a bitmap that FromBuffer replaces")
claim("C91","proved",["C91_index_configs","C91_model_config","C91_not_json","C91_unreadable","C91_not_json_refuted"],"everything stated is proved, for encoding/json as a recursive descent (Go 1.13: no nesting limit); outside the statement: a member named twice is merged into the cells of the first (Example C91_repeated_refuted), half a surrogate pair and invalid UTF-8 are accepted as U+FFFD")
claim("C92","proved",["C92_suggest","C92_autocomplete","C92_completions"],"everything stated is proved, for every index, also one no writer produces; for Suggest, the searches a run is to make are those its schedule comes to (a size whose threshold cannot be reached is skipped: C41)")
claim("C93","partial",["C93_configured_partial","C93_autocomplete_partial","C93_suggest_partial","C93_suggest_returns_partial","C93_autocomplete_returns_partial","C93_succeeds_partial","C93_refused","C93_unknown_name","C93_no_configuration","C93_as_described","C93_driver_refuted","C93_size_refuted"],"for sources that are dictionaries in the sense of C71 or C95 (and C74 for DISC); the answers for those of C71, those of C95 in C95; queries as in C82; it does answer (returns); refuted: unknown drivers, a missing n-gram size")
claim("C94","partial",["C94_each_once_refuted","C94_index_files","C94_index_memory_partial","C94_crash_partial","C94_merge","C94_search","C94_suggest_partial","C94_fewer_than_k","C94_suggest_returns","C94_repeated_query_partial"],"Suggest under the conditions of C41 (tolerances of the float thresholds as there), memory directories that do not hold the two files yet; each_once_refuted: an entry is returned twice and crowds out another")
claim("C95","partial",["C95_index_builds_partial","C95_suggest_partial","C95_suggest_returns_partial","C95_autocomplete_partial","C95_autocomplete_complete","C95_autocomplete_returns_partial","C95_suggest_request_partial","C95_autocomplete_request_partial","C95_different_refuted"],"as C71 and C73 (n-gram sizes 1 to 8, index files below 4 GB, query with distinct n-grams, tolerances of the float thresholds), without the condition that the n-grams of an entry are distinct; different_refuted: Autocomplete returns an entry twice and omits another")
claim("C96","partial",["C96_entry_by_entry_partial","C96_two_calls_partial","C96_growing_partial","C96_more_completions_partial","C96_appending_partial","C96_narrowing","C96_narrowing_answers_partial","C96_query_case","C96_entry_case"],"dictionaries and queries as in C71 and C73; narrowing for queries that (wrapped) have as many characters as the n-grams; letter case for valid UTF-8. Full Suggest answers with ties are cut by the schedule: C41_same_answers_refuted")
claim("C97","partial",["C97_untouched","C97_rerun","C97_deploys_partial","C97_first_answers_partial","C97_first_autocomplete_partial","C97_first_suggest_partial","C97_update_refuted","C97_reindex_refuted"],"a killed process: what it handed to the operating system is on the disk, what was in its buffers may be; no power cut. First deployment: sources, queries as in C93. The claim for updates is false and refuted")
claim("C98","partial",["C98_untouched","C98_no_configuration","C98_counts","C98_scores_partial","C98_predict_partial","C98_words_described","C98_order_refuted","C98_two_models_refuted"],"scores: the text has a sentence of at least order-2 words (else order_refuted), and build-lm ends (C54, C55: with some seeds the search for the hash function does not); orders to 255, fewer than 2^28 words, lines of the n-gram files below 64 KB (trainable); predictions: conditions of C87. two_models_refuted: models that share an output directory")
claim("C99","proved",["C99_autocomplete_partial","C99_prefix_completes","C99_autocomplete_returns","C99_short_suggest","C99_short_autocomplete","C99_suggest","C99_suggest_request","C99_suggest_partial","C99_autocomplete_request_partial","C99_suggest_request_partial","C99_completion_request","C99_exact_first_refuted"],"n-gram sizes 1 to 8, index files below 4 GB, fewer than 65536 query n-grams and an entry long enough for Suggest (as C71). C99_suggest and C99_suggest_request contain the _partial ones; C95_suggest_returns_partial and C100 have termination of Suggest for these queries. exact_first_refuted: a score of 1.5 above that of the identical entry")
claim("C100","proved",["C100_answered","C100_short_queries","C100_reachable_returns","C100_one_short_hangs","C100_too_long_panics","C100_request"],"n-gram sizes 1 to 8, index files below 4 GB, at most 65535 query n-grams (32767 with overlap), similarities from 2^-15; the cases by similarities leave a relative 2^-46 at the boundary, C100_answered is exact in terms of the computed bound. A panic ends the call; that net/http recovers it and closes the connection is taken from its documentation")
claim("C101","partial",["C101_lower_similarity_partial","C101_any_dictionary_partial","C101_lower_similarity_refuted"],"exact for all metrics but Jaccard; Jaccard for similarities that differ by a relative 2^-45, refuted for neighbouring doubles (0.36 loses an entry of similarity 9/25 that the next double finds). Every dictionary an index is built for (where entries repeat n-grams: the entry is found, with the score of all its common n-grams); with repeated n-grams in the query also the other call must not be full")
claim("C102","proved",["C102_metrics_nest","C102_metrics_nest_partial"],"no tolerance: exact for every double from 2^-15 to 1, every dictionary an index is built for (also entries that repeat n-grams). The _partial theorem says in addition, for dictionaries without repeated n-grams in an entry, that no other score is returned")
claim("C103","proved",["C103_index_files","C103_index_saved","C103_ngram_counts","C103_model_file","C103_command","C103_rerun"],"the machine decides for every open and write; bufio.Writer (4096 bytes, sticky error) and os.File.Write are explicit. The cdb library is trusted to report a failed write. Errors that only close(2) or fsync would report are outside: the program calls neither (finding in DESIGN section 5). C103_index_leftovers_partial: an index left by a failed first commit does not open, or answers as the complete one or with an error")
claim("C104","proved",["C104_cut_never_loaded","C104_built","C104_deployed","C104_failed_write"],"inputs whose slice has no spare capacity (mapped files). C104_error_refuted: behind a cut inside the packed numbers the loader slices out of range and the process dies; C104_mixed_refuted: a rebuild that fails between the dictionary and the model leaves a mixture that loads and scores by neither text")
claim("C105","proved",["C105_prediction","C105_returns","C105_no_words","C105_once_refuted"],"the parts as in C61 (numeric next-word scores, a dictionary for all entries), without its conditions on distinct n-grams; 65535 n-grams of the last word at most; once_refuted: a word is offered twice and fills the answer")
claim("C106","proved",["C106_predict","C106_returns","C106_no_words","C106_builds","C106_once_refuted"],"the hypotheses of C87 without its conditions on distinct n-grams; the unless-out-of-attempts clause of the hash function as in C87; log as in C87; once_refuted: four answers are four times the same symbol")
claim("C107","proved",["C107_lookup","C107_lookup_request"],"C72 without its condition on distinct n-grams; the answer as positions with their scores; overlap metric: at most 32767 n-grams of the query")
json.dump({"claims": C}, open("/verif/MANIFEST.json","w"), indent=1)
