import json
M=[]
def m(file,d,old,new,edit,claims,breaks,**k):
    x=dict(file=file,old=old,new=new,edit=edit,claims=claims,breaks=breaks); x["def"]=d; x.update(k); M.append(x)
S="Store.v"
m(S,"vuint_chunk","if v >? 127","if v >? 128","writer boundary 127 -> 128: 128 written as one byte with the high bit set",["C01","C03"],"WriteVUInt32 128 is not read back")
m(S,"vuint_chunk","(Z.shiftr v 7) ;;","(Z.shiftr v 8) ;;","shift by 8 instead of 7",["C01","C03"],"multi-byte values lose a bit")
m(S,"WriteVUInt32","vuint_chunk 5 v","vuint_chunk 4 v","chunk buffer of 4 bytes",["C01","C03"],"values >= 2^28 panic")
m(S,"le32","wrap8 (Z.shiftr v 16); wrap8 (Z.shiftr v 24)","wrap8 (Z.shiftr v 24); wrap8 (Z.shiftr v 16)","swapped two high bytes",["C03"],"WriteUInt32/ReadUInt32 do not round-trip")
m(S,"ReadVUInt32","if l - i <? 5 then","if l - i <? 4 then","fast path entered with 4 bytes left",["C02"],"a 5-byte varint cut at 4 bytes panics instead of ErrUnexpectedEOF")
m(S,"fast_read","let v := wrap32 (v - Z.shiftl 128 14) in","","dropped the subtraction of the third continuation bit",["C01","C02","C03"],"4-byte varints decode wrongly")
m(S,"slow_loop","slow_loop k' b i (s + 7) v","slow_loop k' b i (s + 8) v","shift step 8 in the slow path",["C02","C03"],"truncated-buffer varints decode wrongly")
m(S,"ReadUInt16","wrapi64 (ipos r + 2) >? zlen (ibuf r)","wrapi64 (ipos r + 2) >=? zlen (ibuf r)","off-by-one end check in ReadUInt16",["C03","C04"],"the last two bytes of a buffer cannot be read")
m(S,"Seek","if a <? 0 then (Fail ErrNegativeOffset, r)","if a <=? 0 then (Fail ErrNegativeOffset, r)","Seek(0, SeekStart) rejected",["C04"],"a cursor cannot return to the start")
m(S,"Seek","Some (wrapi64 (zlen (ibuf r) + off))","Some (wrapi64 (zlen (ibuf r) - off))","SeekEnd subtracts the offset",["C04"],"SeekEnd with a negative offset goes past the end")
m(S,"ReadAt","(Ret (got, zlen got <? n), r)","(Ret (got, zlen got <? n), set_pos r (off + zlen got))","ReadAt moves the position",["C04"],"ReadAt must not move the cursor")
m(S,"Slice","(zlen (ibuf r) <? wrapi64 (off + n))","(zlen (ibuf r) <=? wrapi64 (off + n))","Slice up to the end rejected",["C04"],"Slice of the whole buffer")
m(S,"fs_step","mkFs (fset (fs_files d) n []) (fs_handles d ++","mkFs (match fs_files d n with Some _ => fs_files d | None => fset (fs_files d) n [] end) (fs_handles d ++","CreateOutput without O_TRUNC",["C05"],"re-created file keeps the old tail")
m(S,"fs_step","Some f => fs_flush d h (List.length (fh_pend f)) true","Some f => fs_flush d h 0 true","Close does not flush the buffered writer",["C05"],"written bytes are lost on Close")
m(S,"pwrite","++ p ++ skipn (off + List.length p) b","++ p","write(2) truncates after the written range",["C05"],"overlapping writers destroy each other's data")
K="Compression.v"
m(K,"binDecode","(Ret (v :: vs), r2)","(Ret (vs ++ [v]), r2)","values stored in reverse order",["C06"],"decode reverses the list")
m(K,"varIntEncode","varIntEncode t o1 v ;; Ret (n + m, o2)","varIntEncode t o1 prev ;; Ret (n + m, o2)","delta always against the first value",["C07"],"decode of 3+ element lists wrong")
m(K,"varIntDecode","let prev := wrap32 (prev + v) in","let prev := wrap32 v in","decoder forgets to add the delta base",["C07"],"lists come back as deltas")
m(K,"skipEncode_loop","prev' <- index l i ;;","prev' <- index l (j - 1) ;;","skip delta against the last value of the block",["C08","C12"],"decoder/iterator use the first value of the block")
m(K,"skipEncode_loop","let pos := n + 2 in","let pos := n in","block length without its header",["C09","C12"],"skipping lands inside a block")
m(K,"skipEncode_loop","if j =? zlen l then Z.lor pos lastBlockFlag else pos","if j =? zlen l then pos else pos","last block flag never set",["C09","C12"],"header of the last block lacks the flag")
m(K,"SkippingEncoder","gap >=? maxSkippingGap","gap >? maxSkippingGap * 5","gap limit too large",["C09"],"block length overflows 15 bits")
m(K,"UnpackPos","Z.land packed (lastBlockFlag - 1)","Z.land packed lastBlockFlag","mask confused with the flag",["C09","C12"],"position of a block is lost")
P="Postings.v"
m(P,"sl_lowerBound","(nth (Z.to_nat i) sub 0 >=? to)".replace("(nth","nth")[:-1],"nth (Z.to_nat i) sub 0 >? to","strict comparison in the slice iterator's binary search",["C14"],"LowerBound skips an equal element")
m(P,"vl_scan","if c >=? to then (Ret c, s') else vl_scan fuel' s' to","if c >? to then (Ret c, s') else vl_scan fuel' s' to","strict comparison in the scan",["C11"],"LowerBound skips an equal element")
m(P,"vl_next","let cur := wrap32 (vl_cur s + c) in","let cur := wrap32 c in","Next returns the delta",["C11"],"Next does not return the next element")
m(P,"vl_hasNext","vl_index s + 1 <? vl_size s","vl_index s <? vl_size s","HasNext true on the last element",["C11"],"HasNext/Next inconsistent at the end")
m(P,"vl_scan","mkVl (vl_in s) (vl_size s) (vl_size s) (vl_cur s)","s","iterator not marked exhausted after a failed LowerBound",["C11"],"Get after a failed LowerBound returns a stale element")
m(P,"sk_readSkipping","let cur := wrap32 (sk_skipval s + c) in","let cur := wrap32 (sk_cur s + c) in","block head decoded against the current element",["C12"],"first element of the second block wrong")
m(P,"sk_lowerBound","Z.quot (sk_index s) (sk_gap s) else 0","Z.quot (sk_index s) (sk_gap s) + 1 else 0","skip counter off by one",["C12"],"index wrong after skipping: list ends early")
m(P,"sk_skip","else if cur >=? to then","else if cur >? to then","block head equal to the target is not rolled back",["C12"],"LowerBound of a block head")
m(P,"sk_skip","(Ret _, s') => (Ret tt, sk_set_in prev (sk_in s'))","(Ret _, s') => (Ret tt, s')","state not restored after overshooting a block",["C12"],"LowerBound returns a later element")
m(P,"bl_hasNext","bl_valid s && match","match","HasNext ignores exhaustion",["C13"],"",) if False else None
m(P,"bl_lowerBound","else if bl_cur s >=? to then (Ret (bl_cur s), s)","else if bl_cur s >? to then (Ret (bl_cur s), s)","current element equal to the target is skipped",["C13"],"LowerBound(x) at x moves on")
m(P,"bl_lowerBound","mkBl [] (bl_cur s) false (bl_len s)","mkBl [] (bl_cur s) true (bl_len s)","failed LowerBound leaves the iterator dereferencable",["C13"],"Get after a failed LowerBound")
m(P,"advance","if x <? to then advance to t","if x <=? to then advance to t","AdvanceIfNeeded skips equal",["C13"],"LowerBound skips an equal element")
G="Merger.v"
m(G,"scan_loop","if Position c >? current then","if Position c >=? current then","equal positions treated as a new candidate",["C15","C16"],"duplicates with count 1")
m(G,"scan_loop","scan_loop fuel' cs' cur' it' (tmp ++ [c'])","scan_loop fuel' cs' cur' it' (tmp ++ [c])","increment dropped",["C15","C16"],"counts stay 1")
m(G,"emit","if Overlap c >=? T then","if Overlap c >? T then","strict threshold when emitting",["C15","C16"],"values with exactly T occurrences are lost")
m(G,"prune","if Overlap c' + left >=? T then","if Overlap c' + left >? T then","pruning too eagerly by one",["C16"],"values that reach exactly T are pruned")
m(G,"prune_lists","prune it (zlen rid') T cs","prune it 0 T cs","lists left ignored when pruning",["C16"],"candidates needing later lists are lost")
m(G,"cpMerge","let minQueries := zlen rid - T + 1 in","let minQueries := zlen rid - T in","one short list too few",["C16"],"value occurring only in the last T lists is missed")
m(G,"pop_le","if p >=? snd top then","if p >? snd top then","pop only strictly smaller (nothing pops)",["C17"],"no candidate is ever counted")
m(G,"ms_loop","pop_n (Z.to_nat (T - 1 - Z.of_nat popped))","pop_n (Z.to_nat (T - Z.of_nat popped))","MergeSkip pops T instead of T-1",["C17"],"skips over values with exactly T occurrences")
m(G,"ms_loop","if Z.of_nat popped >=? T then","if Z.of_nat popped >? T then","strict threshold in MergeSkip",["C17"],"values with exactly T occurrences are lost")
m(G,"reinsert","if it_hasNext cur then","if negb (it_hasNext cur) then skip cur else if it_len cur >? 1 then skip cur else if it_hasNext cur then","lists longer than one element are not advanced",["C17"],"later values of long lists are lost")
m(G,"ms_loop","match reinsert popped size 0 (Some (snd top)) rid sl size with","match reinsert popped size 0 (Some (snd top + 1)) rid sl size with","skip one past the heap top",["C17"],"the value at the new top is missed in the popped lists")
m(G,"in_rest","if negb (lower =? item) then","if lower <? item then","intersector accepts a greater lower bound",["C19"],"values not in all lists are reported")
m(G,"intersect_loop","(Some ErrCollectionTerminated => (Ret tt, s')".replace("(Some","Some"),"Some ErrCollectionTerminated => (Fail ErrCollectionTerminated, s')","termination reported as an error by the intersector",["C19","C20","C21"],"early termination must be success")
m(G,"optimized","if (n <? T) || (n =? 0) || (T <? 0)","if (n <=? T) || (n =? 0) || (T <? 0)","wrapper gives up at n = T",["C15","C16","C17","C20"],"intersections return nothing")
m(G,"optimized","else if n =? T then","else if n =? T + 1 then","wrapper intersects at T = n - 1",["C15","C16","C17"],"values missing from one list are lost")
m(G,"in_long","Ret v => if v =? position then increment c else Ret c","Ret v => increment c","long lists always counted",["C18"],"overlap too large")
m(G,"divideSkip","MergeSkip simple_collect srt lShort (T - l) []","MergeSkip simple_collect srt lShort (T - l + 1) []","short-list threshold too high",["C18"],"values with T-l occurrences in the short lists lost")
m(G,"increment","Ret (wrap64 (m + 1))","Ret (wrap64 (m + 2 ^ 32))","increments the position half",["C15","C22"],"position corrupted")
m(G,"increment","if UnpackRight m =? MaxOverlap then Panic else","","no limit check",["C22"],"no panic at the documented limit")
H="Heap.v"
m(H,"less_at","match","match",  "noop",[],"") if False else None
json.dump([x for x in M if x],open("/verif/tools/mutations.json","w"),indent=0)
