import json
M=json.load(open("/verif/tools/mutations.json"))
have=set((x["def"],x["edit"]) for x in M)
def m(f,d,old,new,edit,claims,breaks,count=1):
    if (d,edit) in have: return
    o={"file":f,"def":d,"old":old,"new":new,"edit":edit,"claims":claims,"breaks":breaks}
    if count!=1: o["count"]=count
    M.append(o)
F="Store.v"
m(F,"Write","Ret (zlen p, o ++ p)","Ret (zlen p + 1, o ++ p)","counts one byte too many",["C01"],"reported lengths are wrong")
m(F,"WriteUInt16","Write o (le16 v)","Write o (rev (le16 v))","big endian",["C02"],"16-bit values are read back wrong")
m(F,"WriteByte","Write o [v]","Write o [v; v]","writes the byte twice",["C02"],"bytes read back wrong")
m(F,"fset","if String.eqb x n then Some v else m x","if String.eqb x n then m x else Some v","test inverted",["C05"],"other files are overwritten")
F="Compression.v"
m(F,"binEncode","Ret (n + m, o2)","Ret (m, o2)","byte count lost",["C06"],"reported length is wrong")
m(F,"vbDecode","varIntDecode r k 0","varIntDecode r k 1","previous value starts at 1",["C07"],"decoded ids are off by one")
m(F,"skipDecode_loop","skipDecode_loop fuel' gap r2 buf' (i + gap) prev'","skipDecode_loop fuel' gap r2 buf' (i + gap) prev","base of a block not updated",["C08","C09"],"later blocks decoded wrong")
m(F,"skipDecode_loop","if j >? zlen buf then zlen buf else j","if j >? zlen buf then zlen buf - 1 else j","last value of a short block is not read",["C08","C09"],"last value lost")
m(F,"skipDecode","skipDecode_loop fuel gap r buf 0 0","skipDecode_loop fuel gap r buf 0 1","base starts at 1",["C08"],"first block off by one")
F="Postings.v"
m(F,"sl_hasNext","sl_index s + 1 <? zlen (sl_slice s)","sl_index s + 1 <=? zlen (sl_slice s)","one too far",["C13"],"Next past the end")
m(F,"vl_init","mkVl r' 0 size c","mkVl r' 1 size c","starts at index 1",["C11"],"last element lost")
m(F,"vl_valid","vl_index s <? vl_size s","vl_index s <=? vl_size s","valid one past the end",["C11"],"Get answers past the end")
m(F,"sk_valid","sk_index s <? sk_size s","sk_index s <=? sk_size s","valid one past the end",["C12"],"Get answers past the end")
m(F,"sk_hasNext","sk_index s + 1 <? sk_size s","sk_index s + 2 <? sk_size s","stops one early",["C12"],"last element never reached")
m(F,"bl_hasNext","bl_valid s && match bl_rest s with [] => false | _ => true end","bl_valid s","true at the last element",["C13"],"HasNext promises an element that is not there")
m(F,"it_len","| ISkip s => sk_size s","| ISkip s => sk_size s - 1","one too small for skipping lists",["C14"],"Len is wrong, so lists are sorted wrong")
m(F,"maxSkippingLen","Z := 256","Z := 63","bitmaps from 64 entries on",["C14"],"reader and writer still agree: harmless for answers")
F="Heap.v"
m(F,"init_loop","init_loop i (fst (down n l i n)) n","init_loop i l n","heap not established",["C16"],"candidates come in the wrong order")
m(F,"heap_push","up n l (n - 1)","up n l 0","new element not moved up",["C38"],"the worst element is not at the top")
m(F,"swap","upd j a (upd i b l)","upd i b l","one of two writes lost",["C16"],"elements are duplicated")
F="Merger.v"
m(F,"UnpackRight","wrap32 v","wrap16 v","16 bits only",["C15"],"large overlaps are cut")
m(F,"MaxOverlap","Z := 65535","Z := 255","limit of 255 lists",["C19"],"queries with 300 n-grams are refused")
m(F,"scan_lists","(S (length candidates + Z.to_nat (it_len it))) candidates cur it []","(S (length candidates + Z.to_nat (it_len it))) [] cur it []","earlier candidates dropped",["C15"],"counts restart with every list")
m(F,"rless","snd a <? snd b","snd b <? snd a","largest first",["C16"],"MergeSkip jumps over candidates")
m(F,"init_records","rs <- init_records (i + 1) rid'","rs <- init_records i rid'","list numbers not counted",["C16"],"always the first list moves on")
m(F,"pop_n","(heap_pop rless sl size) (size - 1) (S k)","(heap_pop rless sl size) (size - 1) k","number of popped records not counted",["C16"],"overlap too small")
m(F,"mergeSkip","(heap_init rless sl (length rid))","sl","heap not initialised",["C16"],"candidates missed when lists are not sorted by head")
m(F,"intersect","if n =? 0 then (Ret tt, s)","if n =? 1 then (Ret tt, s)","single list gives nothing",["C17"],"a single list has no intersection")
m(F,"ds_emit","Overlap c' >=? T","Overlap c' >? T","strict threshold",["C18"],"candidates at the threshold are lost")
m(F,"ds_emit","(Some ErrCollectionTerminated, s') => (Ret tt, s')","(Some ErrCollectionTerminated, s') => (Fail ErrCollectionTerminated, s')","termination reported as an error",["C18","C21"],"the limit of the collector is an error")
F="Index.v"
m(F,"add_all","w' <- AddDocument w id ts ;; add_all w' d","w' <- AddDocument w id ts ;; add_all w d","documents dropped",["C24"],"only the last document is indexed")
m(F,"IndexHas","Some _ => true | None => false","Some _ => false | None => true","test inverted",["C24"],"known terms are not found")
m(F,"IndexGet","position size with","position length with","length of list for size of block",["C24"],"lists cut")
m(F,"open_lists","Ret (it :: its)","Ret (its)","list dropped",["C24"],"all lists lost")
F="Text.v"
m(F,"cont","(lo <=? b) && (b <=? hi)","(lo <=? b) && (b <? hi)","strict upper bound",["C28"],"U+07FF is not decoded")
m(F,"encode_rune","if r <? 2048 then","if r <=? 2048 then","wrong boundary",["C28"],"U+0800 encoded in two bytes")
m(F,"valid_rune","(57343 <? r)","(57342 <? r)","a surrogate counts as valid",["C28","C81"],"U+DFFF encoded")
m(F,"trim_left","match s with 32 :: t => trim_left t | _ => s end","match s with 32 :: t => t | _ => s end","only one space",["C28"],"leading spaces stay")
F="Analysis.v"
m(F,"zrange","lo :: zrange (lo + 1) n'","lo :: zrange (lo + 2) n'","every other letter",["C33"],"alphabet incomplete")
m(F,"English","ASeq 97 122","ASeq 97 121","z is missing",["C33"],"z is no letter")
m(F,"Numbers","ASeq 48 57","ASeq 49 57","0 is missing",["C33"],"0 is no digit")
m(F,"maxN","nat := 8","nat := 7","ring buffer of 7",["C31"],"8-grams panic")
m(F,"rem","Ret (Z.rem i n)","Ret (Z.rem (i + 1) n)","ring index off by one",["C29"],"n-grams start in the wrong place")
m(F,"NormalizerFilter","map (normalize has pad) l","map (normalize has pad) (rev l)","order reversed",["C30"],"order of tokens")
m(F,"StemmerFilter","negb (existsb (beqb t) stop)","existsb (beqb t) stop","keeps only stop words",["C65"],"everything but stop words is dropped")
m(F,"SuggestTokenize","(t_wrap0 d) (t_wrap1 d)","(t_wrap1 d) (t_wrap0 d)","wraps swapped",["C29","C32"],"the first n-grams do not start with the start symbol")
m(F,"AutocompleteTokenize","(t_wrap0 d) []","(t_wrap0 d) (t_wrap1 d)","end symbol appended to a prefix",["C34"],"prefixes no longer match")
F="Float64.v"
m(F,"clip","(z <? 2 ^ 63) then z","(z <? 2 ^ 53) then z","range of exact floats only",["C36"],"large thresholds are MinInt64")
m(F,"int_floor","sgn s m / 2 ^ (- e)","- (- sgn s m / 2 ^ (- e))","rounds up",["C36"],"MaxY too large")
m(F,"int_ceil","- (- sgn s m / 2 ^ (- e))","sgn s m / 2 ^ (- e)","rounds down",["C36"],"thresholds too small")
F="TopK.v"
m(F,"top","index h 0","index h 1","second element",["C38"],"the worst element is not compared")
m(F,"pop_all","pop_all n' arr' (upd n' x sorted)","pop_all n' arr' (upd 0 x sorted)","always the first cell",["C39"],"answers lost")
m(F,"swap_ends","swap i (length l - 1 - i) l","swap i (length l - i) l","off by one",["C39"],"order of the answers")
m(F,"add_all","add_all q' t","add_all q t","update dropped",["C40"],"merge loses candidates")
m(F,"Merge","add_all q (qh other)","add_all q (tl (qh other))","first candidate of the other queue lost",["C40"],"a candidate is lost")
m(F,"NewTopKQueue","mkQueue topK []","mkQueue (topK + 1) []","one more than asked for",["C38","C41"],"k + 1 answers")
json.dump(M,open("/verif/tools/mutations.json","w"),indent=0)
