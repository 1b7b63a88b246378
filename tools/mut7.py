import json
M=json.load(open("/verif/tools/mutations.json"))
have=set((x["def"],x["edit"]) for x in M)
def m(f,d,old,new,edit,claims,breaks,count=1):
    if (d,edit) in have: return
    o={"file":f,"def":d,"old":old,"new":new,"edit":edit,"claims":claims,"breaks":breaks}
    if count!=1: o["count"]=count
    M.append(o)
F="Json.v"
m(F,"hexdigit","87 + n","86 + n","letters off by one",["C81"],"\\u003c becomes \\u003b")
m(F,"htmlSafe"," || (b =? 92)","","the backslash is copied as it is",["C81"],"values with a backslash are read back wrong")
m(F,"htmlSafe"," || (b =? 62)","","> is copied as it is",["C81"],"markup in a response")
m(F,"htmlSafe","(32 <=? b)","(31 <=? b)","the control character 31 is copied",["C81"],"not a JSON text")
m(F,"quote_char","else if r =? 10 then [92; 110]","else if r =? 10 then [92; 114]","newline written as \\r",["C81"],"values with a newline are read back wrong")
m(F,"quote_char","else if bf && (r =? 12) then [92; 102]","else if bf && (r =? 11) then [92; 102]","\\f for vertical tab",["C81"],"values with a vertical tab are read back wrong")
m(F,"quote_char","hexdigit (Z.shiftr r 4); hexdigit (Z.land r 15)]\n","hexdigit (Z.land r 15); hexdigit (Z.shiftr r 4)]\n","hex digits swapped",["C81"],"control characters read back wrong")
m(F,"quote_char","if (r =? RuneError) && (length b =? 1)%nat then","if (r =? RuneError) && (length b =? 3)%nat then","bad bytes are copied, U+FFFD escaped",["C81"],"a body that is not UTF-8")
m(F,"quote_char","[92; 117; 50; 48; 50; hexdigit (Z.land r 15)]","[92; 117; 50; 48; 50; hexdigit 8]","U+2029 written as \\u2028",["C81"],"U+2029 is read as U+2028")
m(F,"quote","concat (map quote_char (runes s)) ++ [34]","concat (map quote_char (runes s))","closing quotation mark forgotten",["C81"],"not a JSON text")
m(F,"commas","x ++ 44 :: commas t","x ++ 59 :: commas t","semicolons",["C81"],"not a JSON text")
m(F,"commas","[x] => x |","[x] => x ++ [44] |","trailing comma",["C81"],"not a JSON text")
m(F,"item_text","quote (bs \"Score\") ++ 58 :: ftext (fst it) ++ 44 :: quote (bs \"Value\")","quote (bs \"score\") ++ 58 :: ftext (fst it) ++ 44 :: quote (bs \"Value\")","another field name",["C81"],"clients find no Score")
m(F,"json_number","S754_infinity _ | S754_nan => false","S754_nan => false","infinities are written",["C81"],"+Inf in a body")
m(F,"MarshalItems","map item_text items","map item_text (rev items)","items in reverse order",["C81"],"order of the answer lost")
m(F,"MarshalStrings","map quote l","map quote (tl l)","the first string is lost",["C81"],"one name missing")
F="Handlers.v"
m(F,"http_error","mkResp code","mkResp 200","every error is a 200",["C82"],"errors look like success")
m(F,"respond","Sent (mkResp 200 (bs \"application/json\") data)","Sent (mkResp 200 (bs \"text/html\") data)","wrong content type",["C82"],"JSON sent as HTML")
m(F,"respond","      | Fail e => http_error e 500\n      | _ => Lost","      | Fail e => http_error e 400\n      | _ => Lost","a marshalling failure is a 400",["C82"],"NaN scores blamed on the client")
m(F,"SvcSuggest","(c_similarity c) (c_metric c) (c_topK c)","(c_similarity c) (c_metric c) (c_topK c + 1)","one item more than asked for",["C82"],"topK not respected")
m(F,"SvcSuggest","  | None => Some (Fail (ErrOther 71))\n  | Some l => ServiceSuggest","  | None => Some (Ret [])\n  | Some l => ServiceSuggest","an unknown dictionary answers with nothing",["C82"],"200 for an unknown dictionary")
m(F,"SvcAutocomplete","ServiceAutocomplete rb srt (l_index l) (l_words l) lower (l_conf l) query limit sched","ServiceAutocomplete rb srt (l_index l) (l_words l) lower (l_conf l) query (limit - 1) sched","one completion too few",["C82"],"limit not met")
m(F,"GetDictionaries","map fst (ord service)","map fst (ord service) ++ map fst (ord service)","names twice",["C82"],"each name listed twice")
m(F,"suggest_handle","buildSearchConfig pf query topK_val metric_val similarity_val","buildSearchConfig pf query topK_val similarity_val metric_val","form values swapped",["C82"],"good requests refused")
m(F,"suggest_handle","  | Fail e => Some (http_error e 400)\n  | _ => Some Lost\n  end.\n(* autocomplete","  | Fail e => Some (http_error e 500)\n  | _ => Some Lost\n  end.\n(* autocomplete","bad parameters are a 500",["C82"],"status of bad requests")
m(F,"autocomplete_handle","SvcAutocomplete dict query limit sched)","SvcAutocomplete query dict limit sched)","dictionary and query swapped",["C82"],"completions of the wrong word")
m(F,"predict_handle","predict query topK similarity","predict query (topK + 1) similarity","one prediction more",["C82"],"topK=0 no longer panics, but too many")
m(F,"reindex_handle","Some e => http_error e 500 | None","Some e => http_error e 200 | None","failure with status 200",["C82"],"reindex failure not reported")
m(F,"reindex_accepted","bs \"OK\").","[]).","any empty body counts",["C82"],"indexer reports a failure as success")
F="Reindex.v"
m(F,"job_step","| None => Some (JFailed, served)           (*","| None => Some (JOpen todo, served)           (*","descriptions that cannot be opened are skipped",["C83"],"a run succeeds although a configured name is not served")
m(F,"job_step","Some (JOpen todo, mset beqb served n v)","Some (JOpen todo, [(n, v)])","installing drops the other names",["C83"],"names vanish")
m(F,"job_step","Some (JOpen todo, mset beqb served n v)","Some (JOpen todo, served)","nothing is installed",["C83"],"a successful run renews nothing")
m(F,"job_step","Some c => Some (JOpen c, served) | None => Some (JFailed, served)","Some c => Some (JOpen c, []) | None => Some (JFailed, served)","the service is emptied before loading",["C83"],"names vanish during a reindex")
m(F,"job_step","JInstall n v todo => Some (JOpen todo,","JInstall n v todo => Some (JDone,","only the first description is loaded",["C83"],"a run succeeds although a configured name is not served")
m(F,"job_step","None => Some (JFailed, served) end","None => Some (JDone, served) end","an unreadable configuration counts as success",["C83"],"success without configuration")
F="Routes.v"
m(F,"split","if c =? 47 then [] :: split t else","if c =? 46 then [] :: split t else","split at points",["C84"],"paths cut at points")
m(F,"resolve","resolve (tl acc) t","resolve acc t",".. is dropped only",["C84"],"/suggest/a/../b/ goes elsewhere")
m(F,"resolve","if beqb x [] || beqb x [46] then","if beqb x [] then","points stay",["C84"],"a query . is handed to the handler")
m(F,"cleanPath","then np ++ [47] else np","then np else np","final slash lost in cleaning",["C84"],"redirect loop")
m(F,"match_elements","Var :: t', x :: l' => if beqb x [] then None else match match_elements t' l' with Some v => Some (x :: v)","Var :: t', x :: l' => if beqb x [] then None else match match_elements t' l' with Some v => Some (v ++ [x])","variables in reverse order",["C84"],"dictionary and query swapped")
m(F,"match_elements","Lit s :: t', x :: l' => if beqb s x then","Lit s :: t', x :: l' => if true then","literal elements not compared",["C84"],"/foo/a/b/ reaches a handler")
m(F,"match_routes","then if ends_slash p then Handled (rt_handler r) vars else Redirect (p ++ [47])","then Handled (rt_handler r) vars","no StrictSlash",["C84"],"no redirect")
m(F,"match_routes","else match_routes rest m p true","else match_routes rest m p mismatch","wrong method is a 404",["C84"],"405 never sent")
m(F,"serve","else Redirect (cleanPath p)","else match_routes routes m p false","no cleaning of paths",["C84"],"a query .. is handed to the handler")
m(F,"suggest_routes","mkRoute GET [Lit (bs \"suggest\"); Var; Var] Suggest","mkRoute GET [Lit (bs \"suggest\"); Var; Var] Autocomplete","wrong handler",["C84"],"/suggest/ completes")
m(F,"suggest_routes","mkRoute POST [Lit (bs \"internal\")","mkRoute GET [Lit (bs \"internal\")","reindex by GET",["C84"],"a GET reindexes")
m(F,"suggest_routes","    mkRoute GET [Lit (bs \"dict\"); Lit (bs \"list\")] Dictionaries;\n","","route forgotten",["C84"],"/dict/list/ is a 404")
m(F,"spellchecker_routes","Lit (bs \"predict\"); Var] Predict","Lit (bs \"predict\"); Var; Var] Predict","a second variable",["C84"],"/predict/x/ is a 404")
F="Lifetime.v"
m(F,"MClose","  | None => (Some MMapIsClosed, false, None)\n","  | None => (None, false, None)\n","second Close reports success",["C80"],"second Close has no error")
m(F,"MClose","| Some _ => (None, true, None)","| Some d => (None, true, Some d)","data not set to nil",["C80","C79"],"double unmap")
m(F,"MReadAt","(zlen data <? off)","(zlen data <=? off)","reading at the end is an invalid offset",["C80"],"end position refused")
m(F,"MReadAt","(off <? 0) || ","","negative offsets not refused",["C80"],"negative offset")
m(F,"MReadAt","if (length got <? n)%nat then Some MEOF else None","if (length got <=? n)%nat then Some MEOF else None","EOF also for complete reads",["C80"],"spurious EOF")
m(F,"MBytes","None => ([], Some MMapIsClosed)","None => ([], None)","Bytes after Close without an error",["C80"],"Bytes after Close")
m(F,"close_reader","KReader f false) refs None","KReader f true) refs None","the reader stays open after Close",["C79"],"the same region unmapped twice")
m(F,"close_reader","(del f (mapped st))","(mapped st)","munmap forgotten",["C79"],"nothing is ever released")
m(F,"run_final","  | FInput _ => st\n","  | FInput i => match obj st i with Some (mkObj _ _ (Some (FReader r))) => close_reader st r | _ => st end\n","Input.Close closes the reader",["C79"],"double close through two finalizers; early unmap")
m(F,"captured","FReader r => [r]","FReader r => []","the closure does not hold the reader",["C79"],"the reader's own finalizer runs while the input is in use")
m(F,"marked_from","(In x (o_refs o) \\/ In x (captured f))","In x (o_refs o)","finalizer closures hold nothing",["C79"],"mapping lost under a live input")
m(F,"OpenInput","mkObj (KInput f) [] (Some (FReader r))","mkObj (KInput f) [] None","no finalizer on the input",["C79"],"reader collected under the input")
m(F,"NewInvertedIndex","mkObj (KInverted f) [i] None","mkObj (KInverted f) [] None","the inverted index does not hold its input",["C79"],"mapping lost under an index in use")
m(F,"OpenCDB_objects","mkObj (KDict m) [h] None","mkObj (KDict m) [] None","the dictionary does not hold its reader",["C79"],"MMap file is closed")
m(F,"RetrieveLM_objects","(Some (FInput (h + 3)))].\n\n(** What threads","None].\n\n(** What threads","no finalizer on the language model",["C79"],"vectors unmapped under a model in use")
m(F,"Read_objects","(Some (FInput (h + 3)))].\n(* helpers","(Some (FInput (h + 1)))].\n(* helpers","the finalizer closes the header's input",["C79"],"with no inverted index the document list's file is unmapped early")
m(F,"s_collect","obj st x = Some o -> o_fin o = Some f -> ~ kept st x ->","obj st x = Some o -> o_fin o = Some f ->","finalizers run at any time",["C79"],"unmapped in use")
# leftovers of batch 6
json.dump(M,open("/verif/tools/mutations.json","w"),indent=0)
print(len(M))
