import json
M=json.load(open("/verif/tools/mutations.json"))
have=set((x["def"],x["edit"]) for x in M)
def m(f,d,old,new,edit,claims,breaks,count=1):
    if (d,edit) in have: return
    o={"file":f,"def":d,"old":old,"new":new,"edit":edit,"claims":claims,"breaks":breaks}
    if count!=1: o["count"]=count
    M.append(o)
T=lambda t: M[-1].__setitem__("tightened",t)
m("Config.v","scan_digits","if is_digit c then and_then [c] (scan_digits k t) else k s | [] => k [] end","if is_digit c then and_then [c] (k t) else k s | [] => k [] end","only one digit is read","C91","numbers with two digits are refused")
m("Config.v","one_digit","if is_digit c then and_then [c] (scan_digits k t) else None | [] => None end","if is_digit c then and_then [c] (scan_digits k t) else k s | [] => k [] end","no digit is needed after the point or the e","C91","1. is accepted as a number")
m("Config.v","state_exp","if (c =? 101) || (c =? 69) then","if c =? 101 then","only a small e begins an exponent","C91","1E2 is refused")
m("Config.v","scan_number","if c =? 45 then and_then [c] (state_neg t) else state_neg s","if c =? 43 then and_then [c] (state_neg t) else state_neg s","plus instead of minus","C91","negative numbers are refused")
m("Config.v","store_cells","let len1 := Nat.max len (S i) in","let len1 := len in","the length does not grow with the elements","C91","an alphabet has no elements")
m("Config.v","set_field","firstn i l ++ v :: skipn (S i) l","firstn i l ++ v :: skipn i l","the field is inserted instead of set","C91","the fields after it are shifted")
m("Config.v","store_struct","| GNull => (zeros T, false)","| GNull => (zeros T, true)","null for a struct is an error","C91","a null description is refused")
m("Config.v","ReadConfig","Ret (model_config (Dir configPath) config)","Ret (model_config configPath config)","the base path is the file itself","C91","the source is looked for below the configuration file")
m("Paths.v","clean_elements","| [] => if rooted then clean_elements rooted [] t else clean_elements rooted [x] t","| [] => clean_elements rooted [] t","a leading .. is dropped in relative paths","C85","the path ../x becomes x")
m("Paths.v","Dir","CleanAny (join (removelast (split p) ++ [[]]))","CleanAny p","Dir does not drop the last element","C85,C91","relative sources are below the configuration file")
m("Paths.v","list_path","in_directory (GetIndexPath d) (p_name d ++ bs \".dl\")","in_directory (GetIndexPath d) (p_name d ++ bs \".hd\")","document list and header have the same name","C85,C88","they overwrite each other")
m("Deploy.v","read_text","| _ => Fail (ErrOther 81) end","| _ => Ret [] end","a missing configuration is empty","C91,C93","a missing configuration is not reported as such")
m("Deploy.v","served_suggest","(c_metric c) (c_topK c) sched\n  | Some (mkEntry (OnDisc ix recs) d)","(c_metric c) 5 sched\n  | Some (mkEntry (OnDisc ix recs) d)","the limit is 5 for dictionaries in memory","C93","topK is ignored")
m("Deploy.v","served_suggest","| None => Some (Fail (ErrOther 71))\n  | Some (mkEntry (InMemory ix words) d) => ServiceSuggest","| None => Some (Ret [])\n  | Some (mkEntry (InMemory ix words) d) => ServiceSuggest","an unknown dictionary gives no items","C93","an unknown dictionary is not refused")
m("Indexer.v","open_disc","(if String.eqb n dl then text_at k (list_path p) else text_at k (header_path p))","(if String.eqb n dl then text_at k (header_path p) else text_at k (list_path p))","document list and header are swapped when read","C88,C93,C97","no index can be opened")
m("IndexerKill.v","killed_job","    o_create O (list_path (d_place d)) = true -> Commit rb g ord dl hd 0 w = Ret ops -> with_flushes 0 ops (before ++ after) ->","    o_create O (list_path (d_place d)) = true -> Commit rb g ord dl hd 0 (rev w) = Ret ops -> with_flushes 0 ops (before ++ after) ->","the commit writes the sizes the other way round","C97","what was written before the kill is not the index")
m("IndexerKill.v","killed_job","killed_job k d (put k (GetDictionaryFile (d_place d)) c)","killed_job k d (put k (GetSourcePath (d_place d)) c)","the dictionary is written over the source","C97","the source is destroyed")
m("IndexerKill.v","after_ops","match fs_open dir hd with Some b => put k1 (header_path p) (CText b) | None => k1 end.","match fs_open dir hd with Some b => put k1 (list_path p) (CText b) | None => k1 end.","the header is written over the document list","C97","a started server reads a wrong index")
m("IndexerKill.v","killed_jobs","index_job L rb g ord lower chunk fuel O k d = (k', Ret tt) -> killed_jobs dict k' ds k1","index_job L rb g ord lower chunk fuel O k d = (k', Ret tt) -> killed_jobs dict k' (map (fun d0 => mkDesc (d_place d) (d_disc d0) (d_conf d0)) ds) k1","all jobs write to the files of the first","C97","the second dictionary is under the name of the first")
m("Snowball.v","has_suffix","has_prefix (rev s) (rev p)","has_prefix s p","suffixes are looked for at the front","C75,C76","stemming removes nothing or wrong endings")
m("Snowball.v","Insert","let e := if bra <=? Bra e then set_Bra (Bra e + adjustment) e else e in\n  Ret (if bra <=? Ket e","let e := e in\n  Ret (if bra <=? Ket e","Bra is not moved by an insertion","C75,C76","the slice after an insertion is another")
m("Snowball.v","go_past","else if Limit e <=? Cursor e then Ret (false, e)\n      else go_past test f (NextChar e)","else if Limit e <=? Cursor e then Ret (true, e)\n      else go_past test f (NextChar e)","the end counts as found","C75,C76","R1 of a word without vowels is its end by success")
m("Snowball.v","OutGroupingB","else b <- in_group g (r - lo) ;; if b : bool then Ret (false, e2) else Ret (true, PrevChar e2).","else b <- in_group g (r - lo) ;; if b : bool then Ret (true, PrevChar e2) else Ret (false, e2).","the group test is inverted","C76","vowels count as consonants")
m("Snowball.v","FindAmongB","set_Cursor (Cursor e - zlen (Str a)) e","set_Cursor (Cursor e - zlen (Str a) + 1) e","the cursor is one too far right","C75,C76","one letter of the ending is left")
m("StemEn.v","r_Step_3","put (bs \"tion\")","put (bs \"sion\")","tional becomes sion","C76","rational is stemmed to rasion")
m("StemEn.v","r_Step_4","'(ok, e) <- EqSB (bs \"s\") e ;;","'(ok, e) <- EqSB (bs \"z\") e ;;","ion is removed after z","C76","zion is stemmed")
m("StemEn.v","r_postlude","repeat_replace find_Y (bs \"y\")","repeat_replace find_Y (bs \"Y\")","Y is not made small again","C76","youth is stemmed to Youth")
m("StemEn.v","r_R2","Definition r_R2 (e : env) (ctx : Context) : bool := i_p2 ctx <=? Cursor e.","Definition r_R2 (e : env) (ctx : Context) : bool := i_p1 ctx <=? Cursor e.","R2 is tested as R1","C76","endings before R2 are removed")
m("StemRu.v","strip_ending","let e := set_Bra (Cursor e) e in\n  e <- SliceDel e ;; Ret (true, e).","let e := set_Bra (Cursor e) e in\n  Ret (true, e).","the ending is not deleted","C75","nouns keep their endings")
m("StemRu.v","r_noun","strip_ending A_5","strip_ending A_1","nouns are treated as adjectives","C75","noun endings stay")
m("Eval.v","add_named","if negb (beqb (name_of d) dict) then","if beqb (name_of d) dict then","the other dictionaries are loaded","C89","the asked dictionary is unknown")
m("Eval.v","drop_space","if IsSpace r then drop_space t else l","if IsSpace r then t else l","only one space is trimmed","C89","a query with two leading spaces is another")
m("Spell.v","sortCandidates","_ <- keys_of score l ;; Ret (stable (key_of score) l)","Ret (stable (key_of score) l)","a failed score is not reported","C62","an error of the model is lost")
m("Spell.v","completed","| Some LCrashed => Some Panic","| Some LCrashed => Some (Ret [])","a panic gives no completions","C62","a panic is taken for an empty answer")
m("VGram.v","Prune","prune_node T [] (root t)","prune_node (T + 1) [] (root t)","the threshold is one higher","C64","paths with the frequency T are pruned")
m("VGram.v","word_grams","wrap32 (qmax - 1)","wrap32 qmax","the words are one longer","C64","n-grams longer than qMax")
m("Pool.v","rest_p","if negb (lower =? item) then Done (Ret false) else rest_p item rest'","if negb (lower =? item) then Done (Ret false) else Done (Ret true)","only the second list is looked at","C90","entries not in all lists are collected")
m("Pool.v","prune_p","if Overlap c' + left >=? T\n","if Overlap c' + left >? T\n","the bound is strict","C90","entries with exactly T are lost")
m("Pool.v","release_all","| a :: t => pbind (release a) (fun _ => release_all t)","| a :: t => pbind (release a) (fun _ => pbind (release a) (fun _ => release_all t))","every iterator is put back twice","C90","two searches get the same iterator")
json.dump(M,open("/verif/tools/mutations.json","w"),indent=0)
