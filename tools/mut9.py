import json
M=json.load(open("/verif/tools/mutations.json"))
have=set((x["def"],x["edit"]) for x in M)
def m(f,d,old,new,edit,claims,breaks,count=1):
    if (d,edit) in have: return
    o={"file":f,"def":d,"old":old,"new":new,"edit":edit,"claims":claims,"breaks":breaks}
    if count!=1: o["count"]=count
    M.append(o)
F="Pool.v"
m(F,"init_cell","(Ret tt, CVb (mkVl r' 0 size v))","(Ret tt, CVb (mkVl r' (vl_index s) size v))","Init does not reset the index of a varint list",["C90"],"answers depend on the last user of the object")
m(F,"init_cell","(mkSk r 0 size (sk_cur s) 0 0 (sk_gap s) (sk_last s))","(mkSk r 0 size (sk_cur s) (sk_skipval s) 0 (sk_gap s) (sk_last s))","Init does not reset currentSkipValue",["C90"],"answers depend on the last user of the object")
m(F,"init_cell","(mkSk r 0 size (sk_cur s) 0 0 (sk_gap s) (sk_last s))","(mkSk r 0 size (sk_cur s) 0 (sk_nextpos s) (sk_gap s) (sk_last s))","Init does not reset nextSkipPosition",["C90"],"answers depend on the last user of the object")
m(F,"init_cell","(mkSk r 0 size (sk_cur s) 0 0 (sk_gap s) (sk_last s))","(mkSk r 0 (sk_size s) (sk_cur s) 0 0 (sk_gap s) (sk_last s))","Init does not set the size of a skipping list",["C90"],"answers depend on the last user of the object")
m(F,"init_cell","(mkBl t x true (zlen (x :: t)))","(mkBl t x (bl_valid s) (zlen (x :: t)))","Init does not set isValid of a bitmap list",["C90"],"a list that was exhausted before looks empty")
m(F,"fresh","mkSk (mkIn [] 0) 0 0 0 0 0 skippingGapSize false","mkSk (mkIn [] 0) 0 0 0 0 0 0 false","the pool creates skipping lists without a gap",["C90"],"division by zero in LowerBound")
m(F,"release","| CSk _ => Put PSk a (Done tt)","| CSk _ => Put PVb a (Done tt)","released into the wrong pool",["C90"],"type assertion panics later")
m(F,"release","| CVb _ => Put PVb a (Done tt)","| CVb _ => Put PVb a (Put PVb a (Done tt))","released twice",["C90"],"two searches share an object")
m(F,"cp_p","Put PBuf a2 (Put PBuf a1 (Done out))","Put PBuf a1 (Put PBuf a1 (Done out))","the same buffer is put back twice",["C90"],"two searches share a buffer")
m(F,"cp_p","scans_p short (a2, O) (a1, O)","scans_p short (a1, O) (a1, O)","candidates and tmp share one array",["C90"],"candidates are overwritten")
m(F,"scans_p","cand 0 cur it (fst tmp, O)","cand 0 cur it tmp","tmp is not cut to length 0",["C90"],"candidates of an earlier round reappear")
m(F,"prunes_p","cand 0 it (zlen rid') T (fst tmp, O)","cand 0 it (zlen rid') T tmp","tmp is not cut to length 0 (long lists)",["C90"],"candidates of an earlier round reappear")
m(F,"open_p","| Fail e => Done (held ++ [a], Fail (ErrWrapped e))\n            | Panic => Done (held ++ [a], Panic)","| Fail e => Put (resolve size) a (Done (held ++ [a], Fail (ErrWrapped e)))\n            | Panic => Done (held ++ [a], Panic)","a list whose Init failed is released at once and again by the defer",["C90"],"two searches share an object")
m(F,"append","if (n <? length arr)%nat then","if (n <=? length arr)%nat then","append writes past the capacity",["C90"],"a candidate is lost")
m(F,"search_p","pbind (release_all (rev held)) (fun _ => Done out)","pbind (release_all (held ++ rev held)) (fun _ => Done out)","released explicitly and by the defer",["C90"],"two searches share an object")
m(F,"scan_p","rbind (incr cand j) (fun _ =>\n              rbind (elem cand j) (fun c' =>","rbind (elem cand j) (fun c' =>\n              rbind (incr cand j) (fun _ =>","the old value is appended",["C90"],"overlaps are not counted")
F="Suggest.v"
m(F,"chan_cap","wrapi64 (wrapi64 (bMax - bMin) + 1)","wrapi64 (bMax - bMin)","channel one too small",["C41"],"the producer would block")
m(F,"first_error","| WFail e :: _ => Some e\n  | _ :: t => first_error t","| WFail e :: _ => None\n  | _ :: t => first_error t","errors of the workers ignored",["C41","C42"],"a failed search looks complete")
m(F,"worker_search","(NewTopKQueue k) with","(NewTopKQueue (k - 1)) with","local queues one too small",["C41"],"answers lost")
m(F,"worker_search","iv tokens threshold","iv (tl tokens) threshold","first token not searched",["C41"],"answers lost")
F="Autocomplete.v"
m(F,"fneg","SFopp x","x","scores not negated",["C43"],"the last words first")
F="Service.v"
m(F,"set_at","| _ :: t, O => x :: t","| y :: t, O => y :: t","update dropped",["C44"],"a goroutine never moves on")
m(F,"start_pc","TQuery _ => QLock","TQuery _ => LLen","a query starts as a listing",["C44"],"queries answer nothing")
F="Http.v"
m(F,"FormSimilarityValue","flt v (S754_zero false) || flt (of_int 1) v","flt v (S754_zero false)","similarity above 1 accepted",["C45","C66"],"invalid requests accepted")
m(F,"FormFloatValue","| [] => Ret defaultVal\n  | _ => match parse_float","| [] => Fail (ErrOther 13)\n  | _ => match parse_float","no default similarity",["C66"],"requests without the parameter are refused")
m(F,"defaultTopK",": Z := 5",": Z := 10","default 10",["C66"],"documented default not kept")
m(F,"predict_params","FormTopKValue topK_val 5","FormTopKValue similarity_val 5","parameters swapped",["C66","C82"],"wrong parameter read")
F="CountTrie.v"
m(F,"mapFromUint32","wrap32 (zlen h) <=? i","wrap32 (zlen h) <? i","last word lost",["C46","C47"],"the walk fails")
m(F,"map_all","let '(is, tb2, h2) := map_all tb1 h1 s' in (i :: is, tb2, h2)","let '(is, tb2, h2) := map_all tb1 h1 s' in (i :: is, tb1, h1)","later words are not remembered",["C46"],"counts of different words are mixed")
m(F,"Walk","if t_depth t =? 0 then","if t_depth t =? 1 then","1-grams only: nothing walked",["C46"],"counts lost")
F="NGram.v"
m(F,"find","if i =? -1 then","if i =? 0 then","first container taken for missing",["C48"],"counts of the first context lost")
m(F,"read_vectors","read_vectors (vectors ++ [CreatePackedArray tree]) fs","read_vectors (CreatePackedArray tree :: vectors) fs","vectors in reverse order",["C49","C50"],"orders are swapped")
m(F,"NewNGramModel","wrap8 (zlen ix)","wrap8 (zlen ix + 1)","order one too big",["C49"],"index out of range")
m(F,"newPackedValue","Pack w c","Pack c w","count and word swapped",["C48"],"wrong counts")
F="Mph.v"
m(F,"modu","x mod size","x mod (size + 1)","wrong modulus",["C54"],"index out of range")
m(F,"to_i32","(x + 2 ^ 31) mod 2 ^ 32 - 2 ^ 31","x mod 2 ^ 31","sign lost",["C54","C55"],"single-word buckets are not found")
m(F,"set_values","set_values vals' slots ks (i + 1)","set_values vals' slots ks i","all keys of a bucket in one slot",["C54"],"words lost")
m(F,"write_all","write_all o' t (n + s)","write_all o' t (n + 4 * s)","wrong byte count",["C58"],"reported length wrong")
m(F,"read_all","(l <- x ;; Ret (v :: l), r'')","(l <- x ;; Ret (l ++ [v]), r'')","values reversed",["C58"],"table read back wrong")
F="Decimal.v"
m(F,"dec_loop","if n / 10 =? 0 then acc","if n / 10 <=? 1 then acc","leading digit 1 lost",["C52","C59"],"counts written wrong")
m(F,"take_digits","let '(d, r) := take_digits t in (c :: d, r)","let '(d, r) := take_digits t in (d ++ [c], r)","digits reversed",["C59"],"counts read wrong")
F="NGramStore.v"
m(F,"byteSliceAsUint64Slice","negb (zlen b mod 8 =? 0)","negb (zlen b mod 16 =? 0)","odd lengths refused",["C52"],"models cannot be loaded")
m(F,"store_vectors","store_vectors vs' o (p + n)","store_vectors vs' o n","only the last length counted",["C52"],"reported length wrong")
F="Scanner.v"
m(F,"index_nl","if c =? 10 then","if c =? 13 then","lines end at CR",["C60"],"lines are not split")
F="GoogleNGram.v"
m(F,"index_tab","if c =? 9 then","if c =? 32 then","splits at a space",["C59"],"n-grams of several words cannot be read")
m(F,"ReadNGrams","if order =? 0 then","if order <=? 1 then","order 1 refused",["C59","C69"],"unigram models cannot be read")
m(F,"get_all","Ret (i :: is)","Ret (is ++ [i])","words reversed",["C59","C69"],"counts of other n-grams")
F="Spell.v"
m(F,"lfirst_error","| LFail _ e :: _ => Some e","| LFail _ e :: _ => None","errors ignored",["C61","C62"],"a failed search looks complete")
m(F,"suggested","similarity topK sched (start","similarity (topK + 1) sched (start","one more fuzzy answer",["C61"],"more answers than documented",)
F="CdbDict.v"
m(F,"CdbSize","zlen recs","zlen recs - 1","one less",["C74"],"size wrong")
m(F,"CdbIterate","| (Some e, _) => Fail e","| (Some e, s') => Ret s'","errors of the callback ignored",["C74"],"iteration ends silently")
F="StemFilter.v"
m(F,"in_set","existsb (beqb t) stop","existsb (beqb t) (tl stop)","first stop word ignored",["C77"],"a stop word is kept")
F="Json.v"
m(F,"array","91 :: commas l ++ [93]","91 :: commas (rev l) ++ [93]","elements reversed",["C81"],"order of the answers lost")
m(F,"MarshalHome","quote (bs \"version\") ++ 58 :: quote version","quote (bs \"version\") ++ 58 :: quote project","version not written",["C82"],"wrong version")
F="Handlers.v"
m(F,"home_handle","(bs \"v1\")","(bs \"v2\")","other version",["C82"],"wrong version")
m(F,"dict_handle","Ret (GetDictionaries ord)","Ret (tl (GetDictionaries ord))","one dictionary missing",["C82"],"a dictionary is not listed")
F="Routes.v"
m(F,"Clean","47 :: join (resolve [] (split p))","join (resolve [] (split p))","no leading slash",["C84"],"every path redirected")
m(F,"ends_slash","c =? 47","c =? 46","wrong character",["C84"],"redirects to another path")
m(F,"method_eqb","GET, GET | POST, POST => true","GET, GET | POST, POST | POST, GET => true","POST answered by GET handlers",["C84"],"the wrong methods are answered")
F="Paths.v"
m(F,"IsAbs","c =? 47","c =? 46","relative taken for absolute",["C85"],"files not found")
m(F,"with_base","(Dir configPath)","configPath","base is the file itself",["C85"],"files not found")
m(F,"GetSourcePath","based (p_base d) (p_source d)","based (p_base d) (p_output d)","source read from the output directory",["C85","C88"],"the wrong file is read")
m(F,"GetDictionaryFile","p_name d ++ bs \".cdb\"","bs \"dict.cdb\"","one dictionary file for all descriptions",["C85","C88"],"descriptions overwrite each other")
m(F,"header_path","bs \".hd\"","bs \".dl\"","header and document list in one file",["C85","C88"],"the index is destroyed")
m(F,"ngram_path","dec k ++ bs \"-gm\"","bs \"-gm\"","one file for all orders",["C85"],"n-gram files overwrite each other")
F="ServerLife.v"
m(F,"deliver","| AtSelect | Reindexing => mkState (s_main s) (s_signals s) (s_hup s) true","| AtSelect | Reindexing => mkState (s_main s) (s_signals s) (s_hup s) (s_term s)","SIGTERM dropped",["C86"],"the server cannot be stopped")
m(F,"main_step","AtListen => if s_shutdown s then Some (leave s ReturnedNil) else Some (set_main s Serving)","AtListen => Some (set_main s Serving)","listens after the shutdown",["C86"],"requests accepted after the shutdown",)
m(F,"without","if Nat.eqb r x then t","if Nat.eqb r x then without r t","all equal requests answered at once",["C86"],"an answer is lost")
F="SpellBuild.v"
m(F,"WriteDictionary","lines_iterate (put_step L) 0 words []","lines_iterate (put_step L) 1 words []","ids start at 1",["C87"],"predicted words are wrong")
m(F,"BuildSpellChecker","(SuggestTokenize (ToLower lowr) d) (AutocompleteTokenize (ToLower lowr) d)","(AutocompleteTokenize (ToLower lowr) d) (SuggestTokenize (ToLower lowr) d)","tokenizers swapped",["C87"],"completions not found")
F="Indexer.v"
m(F,"put","if beqb x p then Some c else k x","Some c","every file overwritten",["C88"],"other files are destroyed")
m(F,"TrimSpace","rev (space_left (rev (space_left s)))","space_left s","trailing newline kept",["C88"],"the server is not told")
m(F,"index_jobs","negb (beqb dict []) && negb (beqb dict (p_name (d_place d)))","negb (beqb dict (p_name (d_place d)))","no name selects nothing",["C88"],"nothing is indexed")
m(F,"index_jobs","| (k', Ret _) => index_jobs dict k' ds' true","| (k', Ret _) => index_jobs dict k' ds' reIndexed","indexing not remembered",["C88"],"nobody is told")
m(F,"index_jobs","| (k', Fail e) => (k', Fail e)","| (k', Fail e) => index_jobs dict k' ds' reIndexed","goes on after a failure",["C88"],"the command reports success")
m(F,"send_signal","k pidPath with\n  | None => ([], Fail","k [] with\n  | None => ([], Fail","wrong pid file checked",["C88"],"the server is not told")
m(F,"send_request","if beqb body (bs \"OK\") then Ret tt else Fail (ErrOther 7)","Ret tt","the answer is not checked",["C88"],"a failed reindexing looks done")
m(F,"indexer","| (k', Ret false) => (k', [], Ret tt)","| (k', Ret false) => (k', [], Fail (ErrOther 9))","nothing to do is an error",["C88"],"success not reported")
m(F,"indexer","(k', n1 ++ n2, r2)","(k', n1, r2)","request not sent",["C88"],"the server is not told by HTTP")
m(F,"index_job","let k2 := put k (GetDictionaryFile p) (CDict recs) in","let k2 := put k (GetDictionaryFile p) CBroken in","dictionary file not completed",["C88"],"dictionary cannot be opened")
F="Eval.v"
m(F,"session","session f (S i) s' in (Answer a :: Prompt :: o, r)","session f (S i) s' in (Prompt :: o, r)","answer not printed",["C89"],"answers are lost")
m(F,"session","| Ret None => let '(o, r) := session f i s' in (Prompt :: o, r)","| Ret None => ([], Some (Ret tt))","a blank line ends the session",["C89"],"later lines are not answered")
m(F,"evaluate","(Prompt :: o, r)","(o, r)","no first prompt",["C89"],"no prompt")
m(F,"IsSpace","|| (r =? 12288)","|| (r =? 12289)","ideographic comma trimmed instead of the space",["C89"],"queries are changed")
m(F,"TrimSpace","rev (drop_space (rev (drop_space (runes s))))","drop_space (runes s)","right side not trimmed",["C89"],"queries with trailing space")
m(F,"configureService","negb (zlen (map fst service) =? 1)","zlen (map fst service) =? 0","two dictionaries accepted",["C89"],"configuration not checked")
m(F,"suggest_ask","topK Cosine similarity","topK Jaccard similarity","other metric",["C89"],"scores differ from what is documented")
m(F,"spell_eval","sp sentence 5 f_half","sp sentence 10 f_half","ten answers",["C89"],"more answers")
json.dump(M,open("/verif/tools/mutations.json","w"),indent=0)
