import json
M=json.load(open("/verif/tools/mutations.json"))
have=set((x["def"],x["edit"]) for x in M)
def m(f,d,old,new,edit,claims,breaks,count=1):
    if (d,edit) in have: return
    o={"file":f,"def":d,"old":old,"new":new,"edit":edit,"claims":claims,"breaks":breaks}
    if count!=1: o["count"]=count
    M.append(o)
T=lambda t: M[-1].__setitem__("tightened",t)
m("Suggest.v","start","if zlen tokens =? 0 then Finished (Ret [])","if zlen tokens =? 0 then Crashed","a query without n-grams panics",["C99"],"a short query is not answered")
m("Suggest.v","start","(Z.to_nat (Z.min 5 chan_cap))","(Z.to_nat (Z.max 5 chan_cap))","at least five workers, one per size",["C42"],"more than five goroutines search (and with a capacity of 0 someone receives)")
m("Suggest.v","start","(chan_cap <? 0) || (max_chan <? chan_cap)","(chan_cap <=? 0) || (max_chan <? chan_cap)","a channel without buffer panics",["C100"],"a query one n-gram too long panics instead of waiting for ever")
m("Suggest.v","start","(chan_cap <? 0) || (max_chan <? chan_cap)","(max_chan <? chan_cap)","a negative capacity is accepted",["C100"],"a query that is too long never returns instead of panicking")
m("Suggest.v","bMax","if zlen ix <=? b then zlen ix - 1 else b","if zlen ix <? b then zlen ix - 1 else b","the bound is not cut when it equals the size of the index",["C100"],"a size outside of the index is searched")
m("Suggest.v","bMax","if zlen ix <=? b then zlen ix - 1 else b","if zlen ix <=? b then zlen ix - 2 else b","the longest entries are not searched",["C41","C100"],"the longest entries are never found")
m("Suggest.v","exec_prod","| PSendI i j => if bMin <=? i then send s i (PSendJ i j) else goto s (PSendJ i j)","| PSendI i j => if (bMin <=? i) && (i <=? bMax) then send s i (PSendJ i j) else goto s (PSendJ i j)","sizes above the index are not sent (a repair)",["C100"],"a query one n-gram too long is answered")
m("Suggest.v","exec_worker","if (T =? 0) || (b <? T) || (sizeA <? T)","if (T =? 0) || (b <? T)","a threshold above the number of query n-grams is searched",["C41"],"none known: Search finds fewer terms than the threshold and returns nothing")
m("Autocomplete.v","astart","ALoop (zlen terms)","ALoop (zlen (nodup (list_eq_dec Z.eq_dec) terms))","the smallest size counts repeated n-grams once",["C99"],"entries with fewer n-grams than the query are searched")
m("Autocomplete.v","asearch","iv terms (zlen terms) []","iv terms (zlen (nodup (list_eq_dec Z.eq_dec) terms)) []","the threshold counts repeated n-grams once",["C99"],"entries without all n-grams of the query are returned")
m("Autocomplete.v","asearch","iv terms (zlen terms) []","iv (nodup (list_eq_dec Z.eq_dec) terms) (zlen terms) []","repeated n-grams are searched once",["C99"],"a query that repeats an n-gram finds nothing")
m("Autocomplete.v","aexec_prod","if b <? zlen ix then","if (b <? zlen ix) && (0 <? b) then","a query without n-grams starts no search",["C99"],"none known: the size-0 index is nil for any dictionary of non-empty entries")
m("Index.v","Search","let terms := filterTerms iv terms T 0 in","let terms := filterTerms iv (nodup (list_eq_dec Z.eq_dec) terms) T 0 in","repeated query n-grams are searched once",["C99"],"an entry similar enough to a query that repeats n-grams is lost")
m("Index.v","filterTerms","if IndexHas iv t then t :: filterTerms iv ts T (k + 1) else filterTerms iv ts T k","if IndexHas iv t then t :: filterTerms iv ts T (k + 1) else []","the first unknown n-gram ends the filter",["C41","C72"],"entries are lost when a query n-gram is unknown")
m("Metric.v","MaxY","| Overlap => 32767","| Overlap => 255","overlap: only entries of up to 255 n-grams",["C36"],"longer entries are lost")
m("Metric.v","MinY","| Overlap => 1","| Overlap => 0","overlap: sizes from 0",["C100"],"size 0 is searched")
m("Metric.v","MinY","| Jaccard => int_ceil (fmul alpha (of_int size))","| Jaccard => int_ceil (fmul (fmul alpha alpha) (of_int size))","jaccard: the bound of cosine",["C100","C36"],"queries that are too long are answered, and sizes that cannot be similar enough searched")
m("Metric.v","MaxY","| Dice => int_floor (fmul (fdiv (fsub f_two alpha) alpha) (of_int size))","| Dice => int_floor (fdiv (of_int size) alpha)","dice: the bound of jaccard",["C36"],"long entries that are similar enough are lost")
m("Metric.v","Threshold","| Cosine => int_ceil (fmul alpha","| Cosine => int_floor (fmul alpha","cosine threshold rounded down",["C36"],"entries that are not similar enough are returned")
m("Metric.v","Threshold","fmul alpha (fmin (of_int sizeA) (of_int sizeB))","fmul alpha (of_int sizeA)","overlap threshold over the size of the query",["C36"],"entries that are similar enough are lost")
m("Metric.v","Distance","| Overlap => fsub f_one (fdiv (of_int inter) (fmin (of_int sizeA) (of_int sizeB)))","| Overlap => fsub f_one (fdiv (of_int inter) (of_int sizeA))","overlap distance over the query's size",["C35"],"the score is not the overlap coefficient")
m("Metric.v","Distance","| Exact => of_int 0","| Exact => of_int 1","exact distance 1",["C35"],"exact matches score 0")
m("NGramIndex.v","documentListFile","append name \".dl\"","append name \".hd\"","both files have the same name",["C71"],"the index cannot be read")
m("Deploy.v","suggest_request","| Fail e => Some (Handlers.http_error etext e 400)\n  | _ => Some Handlers.Lost\n  end.\n(* autocomplete_handler","| Fail e => Some (Handlers.http_error etext e 500)\n  | _ => Some Handlers.Lost\n  end.\n(* autocomplete_handler","bad parameters are a server error",["C93"],"the status of a bad request is 500")
json.dump(M,open("/verif/tools/mutations.json","w"),indent=1,ensure_ascii=False)
