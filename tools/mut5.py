import json
M=json.load(open("/verif/tools/mutations.json"))
have=set((x["def"],x["edit"]) for x in M)
def m(f,d,old,new,edit,claims,breaks,count=1):
    if (d,edit) in have: return
    o={"file":f,"def":d,"old":old,"new":new,"edit":edit,"claims":claims,"breaks":breaks}
    if count!=1: o["count"]=count
    M.append(o)
F="VGram.v"
m(F,"find_node","| None => None\n               end","| None => Some n\n               end","a missing child ends the search at its parent",["C64"],"an absent gram has a frequency")
m(F,"add_node","(match nmarker n with Some m => Some (wrap32 (m + 1)) | None => None end)","(nmarker n)","the marker is not counted",["C64"],"marker frequency stays 0")
m(F,"add_node","if q <=? wrap32 (i + 1) then Some 0 else None","if q <=? wrap32 i then Some 0 else None","index instead of index + 1",["C64"],"markers one byte too late")
m(F,"add_node","(wrap32 (nfreq child + 1)) in","(nfreq child) in","node frequency not counted",["C64"],"frequency")
m(F,"indexed","(r, i) :: indexed (i + zlen b) l'","(r, i) :: indexed (i + 1) l'","character index instead of byte index",["C64"],"markers of multi-byte grams (this is the fix of the finding)")
m(F,"walk","(fst p, (key', snd p) :: walk key' (snd p))) ch)))","(fst p, (key', snd p) :: walk key (snd p))) ch)))","walk continues with the parent's key",["C64"],"wrong keys below the first level")
m(F,"walk","(fst p, (key', snd p) :: walk key' (snd p))) ch)))","(fst p, walk key' (snd p) ++ (match children (snd p) with [] => [(key', snd p)] | _ => [] end))) ch)))","only leaves are visited",["C64"],"inner grams not visited")
m(F,"select","if wrap32 (leaf + f) <=? T","if wrap32 (leaf + f) <? T","strict threshold",["C64"],"fewer children removed than possible")
m(F,"select","let '(leaf', gone) := select T l' (wrap32 (leaf + f)) in (leaf', c :: gone)","let '(leaf', gone) := select T l' leaf in (leaf', c :: gone)","the marker does not take over the frequency",["C64"],"marker + children < frequency")
m(F,"select","else select T l' leaf","else (leaf, [])","stops at the first child that does not fit (equivalent on sorted children)",["C64"],"equivalent: children are sorted")
m(F,"prune_node","if fr <=? T then Node [] (Some fr) fr","if fr <? T then Node [] (Some fr) fr","strict comparison of the node's frequency",["C64"],"a node with frequency T keeps children? (all fit: equivalent result unless wrapped)")
m(F,"prune_node","if fr <=? T then Node [] (Some fr) fr","if fr <=? T then Node [] (Some m) fr","the marker keeps its own frequency when all children go",["C64"],"marker + children < frequency")
m(F,"prune_node","(prune_node T (path ++ [fst p]) (snd p)))","(snd p))","children are not pruned recursively",["C64"],"deeper nodes keep removable children")
m(F,"prune_node","Node pruned None fr","Node ch None fr","below unmarked nodes nothing is pruned",["C64"],"nothing pruned (root is unmarked)")
m(F,"word_loop","if p <? 0 then acc","if p <=? 0 then acc","suffix equal to the whole word skipped",["C64"],"short words lose grams")
m(F,"word_loop","if qmin <=? q then","if qmin <? q then","suffixes of the minimal length are not added",["C64"],"occurrences at the end are not counted")
F="CdbDict.v"
m(F,"Uint32","Ret (b0 + 2 ^ 8 * b1 + 2 ^ 16 * b2 + 2 ^ 24 * b3)","Ret (b3 + 2 ^ 8 * b2 + 2 ^ 16 * b1 + 2 ^ 24 * b0)","big endian keys",["C74"],"entries get other ids than stored")
m(F,"lines_iterate","lines_iterate f (wrap32 (docID + 1)) ws s'","lines_iterate f docID ws s'","docID not incremented",["C74"],"all lines under key 0")
m(F,"ReaderIterate","s' <- lines_iterate f 0 lines s ;; _ <- e ;; Ret s'","s' <- lines_iterate f 0 lines s ;; Ret s'","the scanner's error is dropped",["C74"],"a long line silently ends the dictionary")
m(F,"put_step","None => Ret (recs ++ [(le32 key, word)])","None => Ret ((le32 key, word) :: recs)","records in reverse order",["C74"],"iteration order: the index would get ids in descending order")
m(F,"CdbGet","match v with Some v => v | None => NilValue end","match v with Some v => v | None => [] end","an absent key gives the empty string",["C58","C74"],"equal to an empty entry")
m(F,"CdbGet","cdb_get L recs (le32 key)","cdb_get L recs (le32 (key + 1))","looks up the next key",["C74"],"wrong text")
m(F,"CdbIterate","(None, s') => CdbIterate f rs s'","(None, s') => Ret s'","stops after the first record",["C74"],"index of one entry")
m(F,"retrieve","Ret ((sc c, v) :: rest)","Ret (rest ++ [(sc c, v)])","answers reversed",["C74"],"order")
m(F,"DiscAutocomplete","(astart terms limit)","(astart terms (limit + 1))","limit + 1 for the collectors",["C74"],"too many answers")
F="Store.v"
m(F,"le16","[wrap8 v; wrap8 (Z.shiftr v 8)]","[wrap8 (Z.shiftr v 8); wrap8 v]","16-bit values written big endian",["C01"],"round trip")
m(F,"Read","set_pos r (wrapi64 (ipos r + zlen got))","set_pos r (wrapi64 (ipos r + n))","Read advances by the length asked for",["C03"],"position after a short read")
m(F,"ReadByte","if ipos r >=? zlen (ibuf r) then (Fail EOF, r)\n  else match index","if ipos r >=? zlen (ibuf r) - 1 then (Fail EOF, r)\n  else match index","last byte not readable",["C03"],"EOF one byte early")
m(F,"ReadUInt32","if wrapi64 (ipos r + 4) >? zlen (ibuf r)","if wrapi64 (ipos r + 4) >=? zlen (ibuf r)","the last 4 bytes are not readable",["C01","C03"],"round trip of the last value")
m(F,"ram_step","Some b => mkRam (fset (rd_files d) n (b ++ p)) (rd_handles d)","Some b => mkRam (fset (rd_files d) n p) (rd_handles d)","a write replaces the file",["C05"],"content lost")
m(F,"fs_flush","(skipn k (fh_pend f)) (negb close)","(fh_pend f) (negb close)","flushed bytes stay pending",["C05"],"bytes twice in the file")
m(F,"fs_flush","(fh_off f + List.length out)%nat","(fh_off f)","offset not advanced",["C05"],"later bytes overwrite earlier ones")
F="Compression.v"
m(F,"skipEncode","if zlen l <? gap then","if zlen l <=? gap then","a list of exactly gap values is refused",["C08"],"encoder fails for a list of gap values")
m(F,"maxSkippingGap","2 ^ 14 / 5","2 ^ 16 / 5","larger gaps accepted",["C08","C10"],"the 15-bit position overflows")
m(F,"vbEncode","varIntEncode l o 0","varIntEncode l o 1","previous value starts at 1",["C07"],"first value off by one / wraps")
F="Postings.v"
m(F,"sort_search_loop","sort_search_loop fuel' f (h + 1) j","sort_search_loop fuel' f h j","binary search does not move past the middle",["C11"],"LowerBound does not end")
m(F,"sl_get","if sl_index s <? zlen (sl_slice s) then index (sl_slice s) (sl_index s)","if sl_index s + 1 <? zlen (sl_slice s) then index (sl_slice s) (sl_index s)","the last element cannot be read",["C11"],"Get fails at the last element")
m(F,"vl_lowerBound","else if vl_cur s >=? to then (Ret (vl_cur s), s)\n  else vl_scan","else if vl_cur s >? to then (Ret (vl_cur s), s)\n  else vl_scan","the current value is passed over when equal",["C12"],"LowerBound skips an element")
m(F,"sk_init","match sk_readSkipping (mkSk r 0 size 0 0 0 gap false) with","match sk_readSkipping (mkSk r 1 size 0 0 0 gap false) with","starts with index 1",["C13"],"the last element is lost")
m(F,"sk_next","if curpos =? sk_nextpos s then","if sk_nextpos s <? curpos then","block header not recognised",["C13"],"header read as values")
m(F,"sk_scan","if c >=? to then (Ret c, s') else sk_scan fuel' s' to","if c >? to then (Ret c, s') else sk_scan fuel' s' to","scan passes over an equal value",["C13"],"LowerBound skips an element")
m(F,"sk_move","match Seek (sk_in s) position 0 with","match Seek (sk_in s) position 1 with","relative instead of absolute move",["C13"],"wrong block")
m(F,"bl_init","Some (x :: t) => Ret (mkBl t x true (zlen (x :: t)))","Some (x :: t) => Ret (mkBl t x true (zlen t))","length without the first element",["C14"],"Len")
m(F,"bl_next","x :: t => (Ret x, mkBl t x (bl_valid s) (bl_len s))\n       | [] => (Panic, s)","x :: t => (Ret x, mkBl t (bl_cur s) (bl_valid s) (bl_len s))\n       | [] => (Panic, s)","Next does not move the current value",["C14"],"Get after Next")
m(F,"set_add","if x <? y then x :: s else if x =? y then s else y :: set_add x t","if x <? y then s else if x =? y then s else y :: set_add x t","smaller values are dropped (only for unsorted input)",["C14"],"equivalent for ascending posting lists")
m(F,"encodePosting","if zlen l <=? skippingGapSize + 1 then vbEncode l o","if zlen l <=? skippingGapSize then vbEncode l o","65 values are written with skipping",["C14","C24"],"read back as a plain list")
m(F,"openPosting","else if size <=? maxSkippingLen then (s <- sk_init","else if size <? maxSkippingLen then (s <- sk_init","256 values are opened as a bitmap",["C14","C24"],"fails or wrong")
F="Heap.v"
m(F,"up","let i := Nat.div (j - 1) 2 in","let i := Nat.div j 2 in","wrong parent",["C17","C38"],"heap order")
m(F,"down","let j := if Nat.ltb (j1 + 1) n && less_at l (j1 + 1) j1 then j1 + 1 else j1 in","let j := j1 in","right child ignored",["C17","C38"],"heap order")
m(F,"heap_init","init_loop (Nat.div n 2) l n","init_loop (Nat.div n 2 - 1) l n","one subtree not ordered",["C17","C38"],"heap order")
m(F,"heap_pop","fst (down n (swap 0 (n - 1) l) 0 (n - 1))","swap 0 (n - 1) l","no sift down after pop",["C17","C38"],"heap order")
m(F,"heap_fix","if Nat.ltb i k then l' else up n l' i","l'","no sift up in Fix",["C17","C38"],"equivalent if Fix is only used at the root")
F="Merger.v"
m(F,"Pack","Z.lor (Z.shiftl a 32) (Z.land b (2 ^ 32 - 1))","Z.lor (Z.shiftl b 32) (Z.land a (2 ^ 32 - 1))","halves swapped",["C15","C48"],"order of candidates / keys")
m(F,"UnpackLeft","wrap32 (Z.shiftr v 32)","wrap32 (Z.shiftr v 31)","shifted by 31",["C15"],"position")
m(F,"get_valid","Fail ErrIteratorIsNotDereferencable => Ret None","Fail ErrIteratorIsNotDereferencable => Fail ErrIteratorIsNotDereferencable","an exhausted iterator is an error",["C23"],"empty lists: error")
F="NGram.v"
m(F,"tree_put","if k' <? k then (k', c') :: tree_put t' k c","if k <? k' then (k', c') :: tree_put t' k c","tree in descending order",["C48"],"binary search fails")
m(F,"CreatePackedArray","(mkPA [] [] 0, InvalidContextOffset, 0)","(mkPA [] [] 0, InvalidContextOffset, 1)","positions start at 1",["C48"],"ranges shifted")
m(F,"MakeKey","Ret (Pack context word)","Ret (Pack word context)","key halves swapped",["C48"],"wrong contexts")
m(F,"MakeKey","if maxContextOffset <? context then Panic","if maxContextOffset <=? context then Panic","the invalid offset is refused as context",["C48","C69"],"unigrams cannot be put (their context is the invalid offset)?")
m(F,"GetContextOffset","'(_, i) <- find s word context ;; Ret i","'(_, i) <- find s context word ;; Ret i","arguments swapped",["C48","C49"],"wrong parents")
m(F,"alpha","fdiv (of_int 4) (of_int 10)","fdiv (of_int 4) (of_int 100)","back-off factor 0.04",["C63"],"the constant of the claim")
m(F,"calcScore","calc_loop (List.length counts - 1) counts (of_int 1)","calc_loop (List.length counts - 2) counts (of_int 1)","the highest order is ignored",["C63"],"score of seen n-grams")
m(F,"score_counts","cs <- score_counts vs ws' o ;; Ret (c :: cs)","cs <- score_counts vs ws' parent ;; Ret (c :: cs)","the context does not advance",["C49","C63"],"counts")
m(F,"Score_counts","let order := Z.min (nGramOrder m) (zlen nGrams) in","let order := zlen nGrams in","order not limited by the model",["C63","C67"],"panics for longer n-grams")
F="NGramStore.v"
m(F,"u64s_of","fold_right (fun c a => c + 256 * a) 0 (firstn 8 b) :: u64s_of k' (skipn 8 b)","fold_left (fun a c => c + 256 * a) (firstn 8 b) 0 :: u64s_of k' (skipn 8 b)","big endian",["C52"],"round trip")
m(F,"scan_uint32","else if (c =? 48) && (1 <? zlen d) then Fail (ErrOther 41)","else if (c =? 48) then Fail (ErrOther 41)","0 cannot be read",["C52"],"an empty vector cannot be read back")
m(F,"scan_newline","if c =? 10 then Ret t else Fail (ErrOther 43)","if c =? 10 then Ret (c :: t) else Fail (ErrOther 43)","newline not consumed",["C52"],"round trip")
m(F,"StoreModel","o <- WriteByte o (wrap8 (nGramOrder m)) ;;","o <- WriteByte o (wrap8 (nGramOrder m - 1)) ;;","order - 1 stored",["C52"],"last vector not loaded")
m(F,"load_vectors","Ret (v :: vs, p), r)","Ret (vs ++ [v], p), r)","vectors reversed",["C52"],"round trip")
m(F,"LoadBinary","(Ret (t, _), r) => (Ret (m, t), r)","(Ret (t, _), r) => (Ret (m, mkMph (m_values t) (m_indexes t)), r)","hash table fields swapped",["C52","C56"],"lookups")
F="GoogleNGram.v"
m(F,"append_at","o :: os, O => (o ++ b) :: os","o :: os, O => (b ++ o) :: os","lines in reverse order",["C59"],"order of lines only: counts unchanged")
m(F,"split_sp","if c =? 32 then cur :: split_sp t [] else","if c =? 32 then split_sp t [] else","words before a space are lost",["C59"],"n-grams")
m(F,"parse_line","ParseUint32 (skipn (S tab) line)","ParseUint32 (skipn tab line)","the tab belongs to the number",["C59"],"every line is an error")
m(F,"str_lt","| [], _ :: _ => true","| [], _ :: _ => false","a prefix is not smaller",["C59","C69"],"order of words with equal counts; prefix words dropped from the tree")
m(F,"item_less","if snd b <? snd a then true","if snd a <? snd b then true","ascending counts",["C59"],"the ids: rare words first")
m(F,"dict_lines","if (tab =? 0)%nat then dict_lines tree ls else","if (tab =? 1)%nat then dict_lines tree ls else","one-byte words are skipped",["C59","C69"],"words missing")
m(F,"RetrieveLMFromBinary","st <- IndexerGet words table startSymbol ;;","st <- IndexerGet words table endSymbol ;;","start symbol = end symbol",["C69"],"scores")
F="Http.v"
m(F,"FormIntValue","[] => Ret defaultVal | _ => ParseInt val","[] => Ret 0 | _ => ParseInt val","absent means 0",["C66"],"absent count")
m(F,"ParseUint","match s with [] => Fail (ErrOther 10) | _ => parse_digits s 0 end","parse_digits s 0","no digits is 0",["C66"],"'+' accepted as a count")
json.dump(M,open("/verif/tools/mutations.json","w"),indent=1)
print(len(M))
