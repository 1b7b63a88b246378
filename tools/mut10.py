import json
M=json.load(open("/verif/tools/mutations.json"))
have=set((x["def"],x["edit"]) for x in M)
def m(f,d,old,new,edit,claims,breaks,count=1):
    if (d,edit) in have: return
    o={"file":f,"def":d,"old":old,"new":new,"edit":edit,"claims":claims,"breaks":breaks}
    if count!=1: o["count"]=count
    M.append(o)
T=lambda t: M[-1].__setitem__("tightened",t)
m("Suggest.v","first_error","  | WFail e :: _ => Some e\n","  | WFail e :: t => first_error t\n","errors of workers are dropped",["C92"],"a search over a damaged index returns a result"); T(["C92_suggest"])
m("Autocomplete.v","afirst_error","  | AFail _ e :: _ => Some e\n","  | AFail _ e :: t => afirst_error t\n","errors of goroutines are dropped",["C92"],"an autocompletion over a damaged index returns a result"); T(["C92_autocomplete"])
m("Spell.v","lfirst_error","  | LFail _ e :: _ => Some e\n","  | LFail _ e :: t => lfirst_error t\n","errors of goroutines are dropped",["C92"],"completions over a damaged index are returned"); T(["C92_completions"])
m("Eval.v","IsSpace","(r =? 12288)","(r =? 12289)","the ideographic space is another character",["C89"],"a line ending in the ideographic space is not trimmed"); T(["C89_trimmed"])
m("Eval.v","IsSpace","(r =? 133) ||","","NEL is no space",["C89"],"a line ending in NEL is not trimmed")
m("ServerLife.v","without","then t else x :: without r t","then without r t else x :: without r t","all equal requests are dropped at once (counted)",["C86"],"a request is neither in progress nor answered"); T(["C86_requests"])
m("ServerLife.v","exec","(without r (s_inflight s)) (r :: s_answered s)","(s_inflight s) (r :: s_answered s)","an answered request stays in flight",["C86"],"a request is answered twice")
m("TopK.v","Reset","queue := mkQueue topK [].","queue := mkQueue (qk q) [].","Reset keeps the old size",["C38"],"a reset queue holds the wrong number")
m("TopK.v","NewTopKQueue","Panic else Ret (mkQueue topK [])","Panic else Ret (mkQueue (topK + 1) [])","one more than asked for is kept",["C38","C41"],"k+1 results")
m("VGram.v","prune_node","(fst p, prune_node T (path ++ [fst p]) (snd p))","(fst p, snd p)","children are not pruned",["C64"],"long grams below the threshold are kept")
m("StemEn.v","A_5","Among (bs \"abli\") 4 4","Among (bs \"abli\") 5 4","a wrong link",["C78"],"the table is not a trie of suffixes")
m("StemRu.v","r_perfective_gerund","    if negb ok then Ret (false, e) else e <- SliceDel e ;; Ret (true, e)\n  else if among_var =? 2 then e <- SliceDel e","    e <- SliceDel e ;; Ret (true, e)\n  else if among_var =? 2 then e <- SliceDel e","group 1 gerunds need no a or ya before",["C75"],"a noun in -v loses its ending")
m("Lifetime.v","MBytes","match r with None => ([], Some MMapIsClosed) |","match r with None => ([], None) |","Bytes after Close gives no error",["C80"],"a closed reader seems empty")
m("Compression.v","binEncode","binEncode t o1 ;; Ret (n + m, o2)","binEncode t o1 ;; Ret (m, o2)","byte count lost",["C06"],"Encode returns a wrong length")
m("Merger.v","pop_n","then pop_n j' (heap_pop rless sl size) (size - 1) (S k)","then pop_n j' (heap_pop rless sl size) (size - 1) k","popped records not counted",["C16"],"MergeSkip pushes back too few")
m("Merger.v","ds_emit","                  | (Some ErrCollectionTerminated, s') => (Ret tt, s')","                  | (Some ErrCollectionTerminated, s') => (Fail ErrCollectionTerminated, s')","termination is an error of DivideSkip",["C17","C18","C21"],"an ended collection is reported as a failure")
m("Merger.v","cp_collect","            | (Some ErrCollectionTerminated, s') => (Ret tt, s')\n","            | (Some ErrCollectionTerminated, s') => (Fail ErrCollectionTerminated, s')\n","termination is an error of CPMerge",["C15","C18","C21","C43"],"an autocompletion that is full fails") if False else None
m("NGram.v","find","if i =? -1 then Ret (0, InvalidContextOffset)","if i =? 0 then Ret (0, InvalidContextOffset)","the first container is taken for a missing one",["C48"],"bigrams of the first word score as unseen")
m("NGram.v","sub_vector","  if i =? -1 then Ret None else","  if i =? 0 then Ret None else","the first container is taken for a missing one (next)",["C48","C50"],"the first word has no successors")
m("Float64.v","int_floor","(if 0 <=? e then sgn s m * 2 ^ e else sgn s m / 2 ^ (- e))","(if 0 <=? e then sgn s m * 2 ^ e else - (- sgn s m / 2 ^ (- e)))","floor rounds up",["C36"],"the length bounds are off by one")
m("Routes.v","ends_slash","c :: _ => c =? 47 | [] => false end.","c :: _ => c =? 46 | [] => false end.","another character than the slash",["C84"],"paths are redirected for ever")
m("Eval.v","evaluate","(NewScanner stdin) in (Prompt :: o, r).","(NewScanner stdin) in (o, r).","no first prompt",["C89"],"the first prompt is missing")
# Config.v
m("Config.v","spaces","(c =? 13) || (c =? 10)","(c =? 13)","a newline is no white space",["C91"],"files with several lines are refused")
m("Config.v","is_hex","(97 <=? c) && (c <=? 102)","(97 <=? c) && (c <=? 101)","f is no hexadecimal digit",["C91"],"\\u00ff is refused")
m("Config.v","is_esc","(c =? 92) || (c =? 47)","(c =? 92)","an escaped slash is refused",["C91"],"paths written with \\/ are refused")
m("Config.v","scan_string","else if c <? 32 then None else","else","control characters are accepted",["C91"],"texts that are not JSON are accepted")
m("Config.v","hex_digit","c - 65 + 10","c - 65","capital hexadecimal digits have wrong values",["C91"],"\\u00C4 is another letter")
m("Config.v","getu4","fun r c => r * 16 + hex_digit c","fun r c => r * 10 + hex_digit c","decimal places",["C91"],"escapes are other letters")
m("Config.v","is_surrogate","(r <? 57344).\nDefinition utf16","(r <? 56320).\nDefinition utf16","low surrogates are characters",["C91"],"lone low surrogates are encoded") 
m("Config.v","utf16_decode","(r1 - 55296) * 1024","(r1 - 55296) * 512","wrong shift",["C91"],"escaped emoji are others")
m("Config.v","esc_byte","if e =? 110 then 10 else","","\\n is an n",["C91"],"separators with \\n are wrong")
m("Config.v","unquote_fuel","encode_rune dec ++ unquote_fuel f (skipn 6 s')","encode_rune dec ++ unquote_fuel f s'","the second half of a pair is decoded again",["C91"],"escaped emoji have a trailing replacement character")
m("Config.v","unquote_fuel","else if c <? 128 then c :: unquote_fuel f t","else if c <? 128 then lower_byte c :: unquote_fuel f t","(does not typecheck)",["C91"],"-") if False else None
m("Config.v","state_e","(c =? 43) || (c =? 45)","(c =? 43)","negative exponents refused",["C91"],"1e-3 in an unknown member is refused")
m("Config.v","state_neg","if c =? 48 then and_then [c] (state_0 t) else","","leading zeros accepted",["C91"],"012 is accepted")
m("Config.v","state_0","and_then [c] (one_digit state_exp t)","and_then [c] (scan_digits state_exp t)","a point without digits accepted",["C91"],"1. is accepted")
m("Config.v","scan_value","begins 93 (spaces t) then Some (GArray [], tl (spaces t))","begins 93 t then Some (GArray [], tl t)","[ ] with a space inside is refused",["C91"],"an empty alphabet with a space is refused")
m("Config.v","scan_elements","else if begins 93 (spaces r) then Some ([v], tl (spaces r)) else None","else Some ([v], tl (spaces r))","arrays may end in any byte",["C91"],"[1} is accepted")
m("Config.v","scan_members","if begins 58 (spaces r) then","if begins 58 r then","no space before the colon",["C91"],"\"name\" : is refused")
m("Config.v","scan_members","then Some ([(unquote q, v)], tl (spaces r2))","then Some ([(q, v)], tl (spaces r2))","the last name is not unquoted",["C91"],"an escaped name is not recognised")
m("Config.v","scan","match spaces r with [] => Some v | _ => None end","Some v","text after the value is ignored",["C91"],"[] [] is accepted")
m("Config.v","store_string","GNull => (old, false) | GString s => (s, false) | _ => (old, true)","GNull => (old, false) | GString s => (s, false) | _ => (old, false)","other values are ignored silently",["C91"],"a number as name is accepted")
m("Config.v","parse_int","if 0 <=? low then ParseUint t else ParseInt t","if 0 <=? low then ParseInt t else ParseUint t","signed and unsigned swapped",["C91"],"a negative n-gram size is refused")
m("Config.v","store_int","(n <=? high) then (n, false) else (old, true)","(n <=? high) then (n, false) else (old, false)","overflow ignored",["C91"],"an order of 256 is 0")
m("Config.v","set_cell","s :: skipn (S i) cells","s :: skipn i cells","cells are inserted, not replaced",["C91"],"null elements read the wrong cell")
m("Config.v","store_strings","(if (n =? 0)%nat then FStrings 0 [] else FStrings n cells1)","(FStrings len1 cells1)","a shorter second list keeps the old length",["C91"],"only with repeated members")
m("Config.v","store_pair","match l with _ :: x :: _ => store_string b x","match l with x :: _ :: _ => store_string b x","the first element twice",["C91"],"the closing wrap is the opening one")
m("Config.v","lower_ascii","(65 <=? c) && (c <=? 90)","(65 <=? c) && (c <? 90)","Z has no small letter",["C91"],"nGramSiZe is unknown")
m("Config.v","equal_fold","(lower_ascii n =? 107) && equal_fold ns ks3","(lower_ascii n =? 108) && equal_fold ns ks3","the Kelvin sign is an L",["C91"],"only names with a k or l; none has a k")
m("Config.v","field_of","  | None => first_index (fun ft => equal_fold (fst ft) key) 0 T","  | None => None","names must match exactly",["C91"],"\"Name\" is ignored")
m("Config.v","store_member","(set_field i v fs, e || e')","(set_field i v fs, e')","only the last member's error counts",["C91"],"a wrong member followed by a good one is accepted")
m("Config.v","store_member","  | None => (fs, e)\n  | Some i","  | None => (fs, true)\n  | Some i","unknown members are errors",["C91"],"configurations with comments as members are refused")
m("Config.v","unmarshal_list","| Some GNull => Ret []\n","","null is refused",["C91"],"the text null gives an error")
m("Config.v","index_description","(as_string (at_ 3%nat)) (as_string (at_ 4%nat))\n    (as_strings","(as_string (at_ 4%nat)) (as_string (at_ 3%nat))\n    (as_strings","source and output swapped",["C91","C93"],"the wrong file is indexed")
m("Config.v","model_config","(as_strings (at_ 4%nat)) (as_strings (at_ 5%nat))","(as_strings (at_ 5%nat)) (as_strings (at_ 4%nat))","alphabet and separators swapped",["C91"],"sentences split at letters")
m("Config.v","ReadConfigs","Ret (map (index_description (Dir configPath)) configs)","Ret (map (index_description configPath) configs)","base is the file itself",["C91","C93"],"relative paths lead nowhere")
# Deploy.v
m("Deploy.v","tokenizer_of","(fst (i_wrap c)) (snd (i_wrap c))","(snd (i_wrap c)) (fst (i_wrap c))","wraps swapped",["C93"],"queries with one wrap do not match") 
m("Deploy.v","tokenizer_of","mkTok (i_ngram c)","mkTok 3","n-gram size fixed",["C93"],"the configured size is ignored")
m("Deploy.v","place_of","mkPlace (i_name c) (i_source c) (i_output c)","mkPlace (i_name c) (i_output c) (i_source c)","source and output swapped",["C93"],"the wrong file is indexed")
m("Deploy.v","job_of","beqb (i_driver c) (bs \"DISC\")","beqb (i_driver c) (bs \"RAM\")","the indexer does the RAM descriptions",["C93"],"nothing is on disc")
m("Deploy.v","open_index","if beqb (i_driver c) (bs \"RAM\") then","if beqb (i_driver c) (bs \"DISC\") then","drivers swapped",["C93"],"DISC is built in memory")
m("Deploy.v","open_index","Ret (mkEntry (InMemory ix words) (tokenizer_of c))","Ret (mkEntry (InMemory ix (rev words)) (tokenizer_of c))","dictionary in another order than the index",["C93"],"other entries are answered")
m("Deploy.v","add_all_indexes","(mset beqb service (i_name c) e)","(match mget beqb service (i_name c) with Some _ => service | None => mset beqb service (i_name c) e end)","the first description of a name wins",["C93"],"a reindex changes nothing")
m("Deploy.v","configure_service","add_all_indexes k cs service","add_all_indexes k (tl cs) service","the first description is skipped",["C93"],"a name is missing")
m("Deploy.v","served_autocomplete","| Some (mkEntry (InMemory ix words) d) => ServiceAutocomplete rb srt ix words lower d query limit sched","| Some (mkEntry (InMemory ix words) d) => ServiceAutocomplete rb srt ix words lower d query (limit + 1) sched","one too many in memory",["C93"],"topK+1 completions")
m("Deploy.v","suggest_request","| Fail e => Some (Handlers.http_error etext e 400)\n  | _ => Some Handlers.Lost\n  end.\n(* autocomplete_handler.go","| Fail e => Some (Handlers.http_error etext e 500)\n  | _ => Some Handlers.Lost\n  end.\n(* autocomplete_handler.go","wrong status of bad parameters (deployed)",["C93"],"a bad request is answered 500")
json.dump(M,open("/verif/tools/mutations.json","w"),indent=1)
