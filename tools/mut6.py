import json
M=json.load(open("/verif/tools/mutations.json"))
have=set((x["def"],x["edit"]) for x in M)
def m(f,d,old,new,edit,claims,breaks,count=1):
    if (d,edit) in have: return
    o={"file":f,"def":d,"old":old,"new":new,"edit":edit,"claims":claims,"breaks":breaks}
    if count!=1: o["count"]=count
    M.append(o)
F="StemEn.v"
m(F,"r_mark_regions","mkContext (b_Y_found ctx) (Cursor e) (i_p1 ctx)).","mkContext (b_Y_found ctx) (i_p1 ctx) (Cursor e)).","regions swapped (en)",["C76"],"endings removed in the wrong region")
m(F,"r_shortv","'(ok, e) <- out_wxy_b e ;;\n  '(ok, e) <- (if","'(ok, e) <- out_v_b e ;;\n  '(ok, e) <- (if","w, x, Y count as short syllable ends",["C76"],"snowing -> snowe")
m(F,"r_R1","i_p1 ctx <=? Cursor e.","i_p1 ctx <? Cursor e.","strict R1",["C76"],"endings at the boundary of R1 stay")
m(F,"r_Step_1a","if (c <? LimitBackward e) || (Limit e <? c)\n    then","if (c <=? LimitBackward e) || (Limit e <? c)\n    then","two characters before ies are not enough",["C76"],"cries -> crie")
m(F,"r_Step_1a","'(ok, e) <- go_past_b in_v_b (fuel_of e) e ;;\n    if negb ok then Ret (false, e) else e <- SliceDel e ;; Ret (true, e)\n  else Ret (true, e).","e <- SliceDel e ;; Ret (true, e)\n  else Ret (true, e).","s is removed without an earlier vowel",["C76"],"gas, this")
m(F,"r_Step_1b","if negb (Cursor e =? i_p1 ctx) then Ret (false, e) else","if negb (i_p1 ctx <=? Cursor e) then Ret (false, e) else","e is added though R1 is not empty",["C76"],"beginning")
m(F,"r_Step_1b","e <- SliceFrom (bs \"ee\") e ;; Ret (true, e)","e <- SliceFrom (bs \"e\") e ;; Ret (true, e)","eed becomes e",["C76"],"agreed")
m(F,"r_Step_1c","if negb (LimitBackward e <? Cursor e) then Ret (false, e) else","","y of a two-letter word becomes i",["C76"],"by (three characters with an apostrophe)")
m(F,"r_Step_5","if ok : bool then Ret (false, e) else\n    e <- SliceDel (set_Cursor","if negb ok then Ret (false, e) else\n    e <- SliceDel (set_Cursor","e is removed after short syllables only",["C76"],"step 5")
m(F,"r_exception2","if LimitBackward e <? Cursor e then Ret (false, e) else Ret (true, e).","Ret (true, e).","exception2 accepts endings",["C76"],"words ending in -canning are left alone")
m(F,"r_exception1","if Cursor e <? Limit e then Ret (false, e) else","","exception1 accepts beginnings",["C76"],"skyline")
m(F,"r_prelude","Ret (e, set_Y true ctx) else Ret (e, ctx)","Ret (e, ctx) else Ret (e, ctx)","initial Y is not remembered",["C76"],"yes -> Yes")
m(F,"find_vy","'(ok, e) <- in_v e ;;","'(ok, e) <- out_v e ;;","y after a non-vowel is marked",["C76"],"happy")
m(F,"A_5","bs \"lessli\"","bs \"lesli\"","a wrong letter in a table",["C76","C78"],"hopelessly")
m(F,"A_5","Among (bs \"abli\") 5","Among (bs \"abli\") 4","a wrong link in a table",["C78"],"the search follows the wrong chain")
m(F,"G_v_WXY","[1; 17; 65; 208; 1]","[1; 17; 65; 80; 1]","w missing in the grouping",["C76"],"w")
m(F,"Stem","let c := hop_fwd 3 e in","let c := hop_fwd 2 e in","two-letter words are stemmed",["C76"],"as -> a?")
m(F,"Stem","e <- do_b r_Step_1c e ;;\n        e <- do_b (fun e => r_Step_2 e ctx) e ;;","e <- do_b (fun e => r_Step_2 e ctx) e ;;\n        e <- do_b r_Step_1c e ;;","steps 1c and 2 swapped",["C76"],"happily")
F="StemRu.v"
m(F,"r_mark_regions","let ctx := mkContext (i_p2 ctx) (Cursor e) in\n  '(ok, e) <- go_past out_v (fuel_of e) e ;;\n  if negb ok then Ret (set_Cursor v_1 e, ctx) else\n  '(ok, e) <- go_past in_v","let ctx := mkContext (i_p2 ctx) (Cursor e) in\n  '(ok, e) <- go_past in_v","R2 starts one consonant early",["C75"],"ost removed outside of R2")
m(F,"a_or_ya","EqSB (u8 [1103])","EqSB (u8 [1077])","e instead of ya",["C75"],"wrong letter before group 1 endings")
m(F,"r_perfective_gerund","if negb ok then Ret (false, e) else e <- SliceDel e ;; Ret (true, e)","e <- SliceDel e ;; Ret (true, e)","group 1 gerunds need no a or ya",["C75"],"words ending in v")
m(F,"r_adjectival","if negb ok then Ret (true, set_Cursor (Limit e - v_1) e) else e <- SliceDel e ;; Ret (true, e)","if negb ok then Ret (false, set_Cursor (Limit e - v_1) e) else e <- SliceDel e ;; Ret (true, e)","an adjective without a participle ending goes on to the verb endings",["C75"],"a second ending is removed")
m(F,"r_derivational","if negb (r_R2 e ctx) then Ret (false, e) else","","ost is removed outside of R2",["C75"],"gost -> g")
m(F,"r_tidy_up","else if among_var =? 3 then e <- SliceDel e ;; Ret (true, e)","","the soft sign stays",["C75"],"step 4")
m(F,"r_step1","let e := if ok : bool then e else set_Cursor (Limit e - v_9) e in\n  let v_10","if ok : bool then Ret e else let e := set_Cursor (Limit e - v_9) e in\n  let v_10","a reflexive ending ends step 1",["C75"],"moetsya")
m(F,"Stem","let e := set_LimitBackward (i_pV ctx) e in","","endings are looked for outside of RV",["C75"],"a word can become empty")
m(F,"Stem","'(_, e) <- repeat_replace find_yo (u8 [1077]) (fuel_of e) false e ;;\n","","yo is not replaced",["C75"],"yolka and yelka")
m(F,"A_3","Among (u8 [1089; 1103])","Among (u8 [1079; 1103])","a wrong letter in a table (ru)",["C75"],"reflexive endings")
F="Snowball.v"
m(F,"ReplaceS","let adjustment := zlen s - (ket - bra) in\n  l <-","let adjustment := zlen s in\n  l <-","limit not shortened",["C75","C76"],"the limit points behind the word")
m(F,"NewEnv","mkEnv s 0 (zlen s) 0 0 (zlen s).\n\n","mkEnv s 1 (zlen s) 0 0 (zlen s).\n\n","cursor starts at 1",["C75","C76","C77"],"first letter ignored")
m(F,"EqSB","if Cursor e - LimitBackward e <? zlen s then Ret (false, e)\n  else ","if Cursor e <? zlen s then Ret (false, e)\n  else ","backward limit ignored",["C75"],"letters outside of RV")
m(F,"InGrouping","else b <- in_group g (r - lo) ;; if b : bool then Ret (true, NextChar e) else Ret (false, e).\nDefinition OutGrouping ","else b <- in_group g (r - lo) ;; if b : bool then Ret (true, set_Cursor (Cursor e + 1) e) else Ret (false, e).\nDefinition OutGrouping ","one byte instead of one character",["C75"],"Cyrillic vowels")
m(F,"longest","(zlen (Str b) <=? zlen (Str a))","(zlen (Str a) <=? zlen (Str b))","the shortest entry",["C75","C76","C78"],"shortest ending removed")
F="SnowballSearch.v"
m(F,"narrow","if (0 <? i) || (j =? i) || first then","if (0 <? i) || (j =? i) || true then","the first key is not inspected",["C78"],"the first entry is never found")
m(F,"cmp","| _ :: _, [] => ((-1)%Z, common)","| _ :: _, [] => (0%Z, common)","the end of the text counts as a match",["C78"],"the search goes too far up")
m(F,"follow","if length (Str w) <=? ci then","if length (Str w) <? ci then","strict comparison",["C78"],"exact matches missed")
F="StemFilter.v"
m(F,"filter_loop","if in_set stop token then filter_loop stemmer stop e rest\n      else","if in_set stop token then Ret []\n      else","a stop word ends the list",["C77"],"tokens after a stop word lost")
m(F,"filter_loop","stemmer (SetCurrent token e)","stemmer e","SetCurrent dropped",["C77"],"always the first token")
m(F,"filter_loop","Ret (cur e :: filtered)","Ret (filtered ++ [cur e])","reversed order",["C77"],"order")
m(F,"RussianFilter","Filter StemRu.Stem StemRu.StopWords","Filter StemRu.Stem StemEn.StopWords","English stop words for Russian",["C77"],"Russian stop words stay")
F="VGram.v"
json.dump(M,open("/verif/tools/mutations.json","w"),indent=1)
print(len(M))
