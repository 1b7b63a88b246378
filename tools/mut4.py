import json
M=json.load(open("/verif/tools/mutations.json"))
have=set((x["def"],x["edit"]) for x in M)
def m(f,d,old,new,edit,claims,breaks,count=1):
    if (d,edit) in have: return
    o={"file":f,"def":d,"old":old,"new":new,"edit":edit,"claims":claims,"breaks":breaks}
    if count!=1: o["count"]=count
    M.append(o)
F="Spell.v"
m(F,"newScorer","None => fun _ => Ret UnknownWordScore","None => fun _ => Ret (of_int 0)","the dummy scorer gives 0",["C61"],"other constant: order unchanged; the English claim is about order, so may survive")
m(F,"lm_collect","Add q (Merger.Position item) x)","Add q (Merger.Overlap item) x)","collects the overlap as key",["C61"],"answers are not entries")
m(F,"lsearch","terms (zlen terms) (NewTopKQueue topK)","terms (zlen terms - 1) (NewTopKQueue topK)","entries lacking one term are completions",["C61"],"non-matching completions")
m(F,"lexec_worker","match Merge (l_q s) q with","match Merge q (l_q s) with","merges into the worker's queue",["C61"],"same contents; capacity same: possibly harmless")
m(F,"lexec_worker","Some (LRunning (mkL (l_prod s) (set_nth_opt i (LDone b) (l_ws s)) (l_q s) false))","Some (LRunning (mkL (l_prod s) (set_nth_opt i (LDone b) (l_ws s)) (l_q s) (l_locked s)))","spell: the lock is not released",["C61","C62"],"the search never ends")
m(F,"lexec_prod","if b <? zlen ix then","if b <? zlen ix - 1 then","the longest entries are not searched",["C61"],"completions lost")
m(F,"lstart","LLoop (zlen terms)","LLoop (zlen terms + 1)","starts at entries with one more token",["C61"],"the exact word is no completion")
m(F,"lexec_prod","if forallb lgone (l_ws s)","if true","does not wait for the workers",["C61","C62"],"completions lost, depending on the schedule")
m(F,"merge","(if existsb (fun x => Key x =? Key y) a then a else a ++ [y])","(a ++ [y])","no duplicate check",["C61"],"an answer twice")
m(F,"merge","(if existsb (fun x => Key x =? Key y) a then a else a ++ [y])","(if existsb (fun x => Key x =? Key y) a then a else y :: a)","fuzzy answers put in front",["C61"],"order")
m(F,"retrieveValues","Ret (v :: vs)","Ret (vs ++ [v])","values reversed",["C61"],"order")
m(F,"scorer_next","if 0 <? zlen ids then","if 1 <? zlen ids then","one preceding word is ignored",["C61"],"context ignored")
m(F,"finish_prediction","if topK <? zlen candidates then slice candidates 0 (topK + 1)","if topK <? zlen candidates then slice candidates 0 topK","cut at topK (the fix of the bug)",["C61"],"the refutation; the partial claim about at most topK+1")
m(F,"finish_prediction","Some _ => sortCandidates (newScorer flog next) candidates","Some _ => Ret candidates","not sorted by the model",["C61"],"order by the model lost")
m(F,"Predict","if zlen candidates <? topK then","if topK <? zlen candidates then","fuzzy search only if enough completions",["C61"],"fuzzy answers missing")
m(F,"Predict","match scorer_next (sp_get sp) (sp_model sp) (rev seq) with","match scorer_next (sp_get sp) (sp_model sp) seq with","context reversed",["C61"],"wrong context")
m("LMText.v","LMTokenize","WordTokenize has (Trim (ToLower lowr text))","WordTokenize has (Trim text)","no lower-casing",["C70","C61"],"upper-case words differ")
m("LMText.v","LMTokenize","WordTokenize has (Trim (ToLower lowr text))","WordTokenize has (ToLower lowr text)","no trimming (harmless: spaces are no word characters?)",["C70"],"equivalent if white space is not in the alphabet")
F="LMPipeline.v"
m(F,"buildNGramsCount","Ret (Build first last sentences order)","Ret (Build last first sentences order)","symbols swapped",["C70"],"wrong wrap")
m(F,"buildNGramsCount","Ret (Build first last sentences order)","Ret (Build first last (tl sentences) order)","first sentence dropped",["C70"],"counts wrong")
m(F,"ngram_count","WriteNGrams ord order t","WriteNGrams ord (order - 1) t","highest order not written",["C70"],"counts lost")
m(F,"eval_load","RetrieveLMFromBinary order first last words binary","RetrieveLMFromBinary order last first words binary","symbols swapped when loading",["C70"],"scores with swapped symbols")
m(F,"eval_line","if zlen sentence =? 0 then Ret None","if zlen sentence <=? 1 then Ret None","lines of one word skipped",["C70"],"no score")
m(F,"map_res","Ret (b :: bs) end","Ret bs end","results dropped",["C70"],"no sentences")
F="NGramIndex.v"
m(F,"index_step","AddDocument w key ts)","AddDocument w (key + 1) ts)","document ids off by one",["C71","C72","C73"],"answers name the next entry")
m(F,"index_step","SuggestTokenize lower d value","AutocompleteTokenize lower d value","indexed with the autocomplete tokenizer",["C71","C72","C73"],"the end of entries is not indexed")
m(F,"IndexDictionary","| (Some e, _) => Fail e","| (Some e, st) => w <- st ;; Commit rb g ord dn hn h w","iteration error ignored (unreachable: AddDocument never fails)",["C71"],"equivalent: st is then a failure too")
m(F,"FSBuild","IndexRead g (fs_input dir) (documentListFile name) (headerFile name)","IndexRead g (fs_input dir) (headerFile name) (documentListFile name)","files swapped when reading",["C71"],"the index cannot be read")
m(F,"headerFile",'append name ".hd"','append name ".dl"',"header and lists in the same file",["C71"],"the second file replaces the first")
m(F,"ServiceSuggest","match SuggestTokenize lower d query with","match AutocompleteTokenize lower d query with","suggest tokenizes like autocomplete",["C71","C72"],"entries do not match themselves")
m(F,"ServiceSuggest","(fun c => (Sc c, DictGet words (Key c)))","(fun c => (Sc c, DictGet words (Key c + 1)))","the next entry's text",["C71","C72"],"wrong strings")
m(F,"ServiceSuggest","Some (cs <- r ;; Ret (map (fun c => (Sc c,","Some (cs <- r ;; Ret (map (fun c => (of_int 0,","scores dropped",["C71","C72"],"scores")
m(F,"ServiceAutocomplete","match AutocompleteTokenize lower d query with","match SuggestTokenize lower d query with","autocomplete tokenizes like suggest",["C73"],"prefixes find nothing")
m(F,"ServiceAutocomplete","(astart terms limit)","(astart terms (limit + 1))","one more than the limit",["C73"],"limit+1 answers")
F="Service.v"
m(F,"step","| TAdd n RAM, AOpenDict => match mget beqb (s_src s) n with","| TAdd n RAM, AOpenDict => match mget beqb (s_fdict s) n with","RAM index built from the disc dictionary",["C44"],"wrong source")
m(F,"step","jump (set_index s (mset beqb (s_index s) n (mkEntry i iv)) false)","jump (set_index s (s_index s) false)","index not installed",["C44"],"new dictionary with the old index")
m(F,"step","| (Some e, Some d) => jump s' i (QUseIndex e d)","| (Some e, Some d) => jump s' i (QDone r None)","query without answer",["C44"],"installed index not used")
m(F,"step","| TAdd n Disc, AOpenIndex dv => match mget beqb (s_findex s) n with Some _","| TAdd n Disc, AOpenIndex dv => match mget beqb (s_fdict s) n with Some _","existence of the index not checked",["C44"],"an index without a file is installed")
json.dump(M,open("/verif/tools/mutations.json","w"),indent=1)
print(len(M))
