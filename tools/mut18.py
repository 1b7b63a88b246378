import json
M=json.load(open("/verif/tools/mutations.json"))
have=set((x["def"],x["edit"]) for x in M)
def m(f,d,old,new,edit,claims,breaks,count=1):
    if (d,edit) in have: return
    o={"file":f,"def":d,"old":old,"new":new,"edit":edit,"claims":claims,"breaks":breaks}
    if count!=1: o["count"]=count
    M.append(o)
T=lambda t: M[-1].__setitem__("tightened",t)
S="Spell.v"
m(S,"Predict","if zlen candidates <? topK then","if zlen candidates <=? topK then","fuzzy search also with topK completions","C61, C62, C105","with exactly topK completions the answer gets fuzzy answers too")
m(S,"Predict","match sp_complete sp word with","match sp_suggest sp word with","completions of the fuzzy tokenizer's n-grams","C61, C87, C105","completions are looked up without the wrapping of the start only")
m(S,"Predict","suggested sched' sp tokens' similarity topK","suggested sched' sp terms similarity topK","the fuzzy search gets the completion's n-grams","C61, C87, C105","the fuzzy answers are those of other n-grams")
m(S,"Predict","| [] => Some (Ret [])","| [] => Some Panic","a text without words panics","C62, C105","an empty text is a panic instead of an empty answer")
m(S,"Predict","completed sched sp terms (newScorer flog next) topK with","completed sched sp terms (newScorer flog next) (topK - 1) with","one completion fewer is collected","C61, C105","fewer completions")
m(S,"lexec_prod","None => l_ws s | Some _","None => l_ws s ++ [LSearch b] | Some _","sizes without entries are searched","C61, C105","a nil inverted index is searched: a panic")
m(S,"lm_collect","x <- score (Merger.Position item)","x <- score (Merger.Overlap item)","the score of the overlap","C61, C105","words are ordered by the score of a number of n-grams")
m(S,"lsearch","terms (zlen terms) (NewTopKQueue","terms (zlen terms + 1) (NewTopKQueue","one n-gram more must be shared","C61, C105","no completions")
m(S,"lexec_prod","if b <? zlen ix then","if b <=? zlen ix then","one size past the index","C61, C105","reads outside the index: a panic")
m(S,"Predict","match scorer_next (sp_get sp) (sp_model sp) (rev seq) with","match scorer_next (sp_get sp) (sp_model sp) (rev tokens) with","the word itself is part of its context","C62, C105","words are scored after the unfinished word")
m(S,"sortCandidates","Ret (stable (key_of score) l)","Ret (stable (fun c => SFopp (key_of score c)) l)","sorted by the least probable","C62","the answer starts with the least probable word")
m(S,"retrieveValues","Ret (v :: vs)","Ret (v :: v :: vs)","each word twice","C61, C62, C105","words are repeated")
m(S,"lexec_worker","| Fail e => Some (LRunning (lset s i (LFail b e)))","| Fail e => Some (LRunning (lset s i (LDone b)))","a failed search ends without its error","C61, C105","a reading error is dropped")
for x in M:
    if isinstance(x["claims"],str): x["claims"]=x["claims"].split(", ")
json.dump(M,open("/verif/tools/mutations.json","w"),indent=1,ensure_ascii=False)
