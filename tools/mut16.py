import json
M=json.load(open("/verif/tools/mutations.json"))
have=set((x["def"],x["edit"]) for x in M)
def m(f,d,old,new,edit,claims,breaks,count=1):
    if (d,edit) in have: return
    o={"file":f,"def":d,"old":old,"new":new,"edit":edit,"claims":claims,"breaks":breaks}
    if count!=1: o["count"]=count
    M.append(o)
T=lambda t: M[-1].__setitem__("tightened",t)
W="WriteFaults.v"
C=["C103"]
m(W,"out_close","let '(b', w') := flush b w in ((if b_err b' then Fail ENOSPC else Ret tt), set_out w' h b')","let '(b', w') := flush b w in (Ret tt, set_out w' h b')","Close drops the error of Flush",C,"a full disk at the close is reported as success")
m(W,"out_close","let '(b', w') := flush b w in ((if b_err b' then Fail ENOSPC else Ret tt), set_out w' h b')","(Ret tt, w)","Close does not flush",C,"the last 4096 bytes are not written")
m(W,"flush","if failed then (mkBuf (b_name b) (skipn (Z.to_nat k) (b_buf b)) true, w')","if failed then (mkBuf (b_name b) (skipn (Z.to_nat k) (b_buf b)) false, w')","a failed flush is not remembered",C,"a later write hides the failure")
m(W,"flush","else (mkBuf (b_name b) [] false, w').","else (b, w').","flush keeps what it wrote in the buffer",C,"bytes are written twice")
m(W,"buf_write","buf_write f (skipn (Z.to_nat k) p) (nn + k) (mkBuf (b_name b) [] failed) w'","buf_write f (skipn (Z.to_nat k) p) (nn + k) (mkBuf (b_name b) [] false) w'","the direct write of a large chunk drops its error",C,"a short direct write is not noticed")
m(W,"buf_write","else if b_err b then Some (nn, b, w)","else if b_err b then Some (nn + zlen p, mkBuf (b_name b) (b_buf b ++ p) false, w)","the error is not sticky",C,"an error is forgotten by the next write")
m(W,"buf_write","(b_buf b ++ firstn (Z.to_nat k) p) false) w in","(b_buf b) false) w in","filling the buffer drops the bytes that fill it",C,"bytes are lost at the buffer's boundary")
m(W,"out_write","else Ret nn), set_out w' h b')","else Ret nn), w')","the buffer is not updated",C,"what is in the buffer is lost")
m(W,"create_output","else (Fail (ErrWrapped (ErrOther 13)), mkWorld","else (Ret 0%nat, mkWorld","a failed open is not reported",C,"the output goes elsewhere")
m(W,"create_output","mkWorld (fset (w_files w) n []) (w_outs w ++ [mkBuf n [] false])","mkWorld (fset (w_files w) n (match w_files w n with Some b => b | None => [] end)) (w_outs w ++ [mkBuf n [] false])","CreateOutput does not truncate",C,"an old index's tail stays")
m(W,"os_write","mkWorld (fset (w_files w) n (old ++ firstn (Z.to_nat k) p))","mkWorld (fset (w_files w) n (firstn (Z.to_nat k) p))","a write goes to the start of the file",C,"only the last buffer is in the file")
m(W,"varint_to","ibind (varint_to h t v) (fun m => lift (Ret (n + m)))","ibind (varint_to h t v) (fun m => lift (Ret m))","the number of bytes is that of the last value",["C103","C24"],"positions of the lists are wrong")
m(W,"skip_to","let pos := if j =? zlen l then Z.lor pos lastBlockFlag else pos in\n        ibind","let pos := pos in\n        ibind","the last block is not marked",["C103","C24"],"reading runs beyond the list")
m(W,"bitmap_to","pieces_to h (pieces (rb_enc rb (to_set l))) 0.","pieces_to h (removelast (pieces (rb_enc rb (to_set l)))) 0.","the bitmap's last piece is not written",["C103","C24"],"the bitmap is cut")
m(W,"commit_index_to","ibind (commit_index_to rb h c m' (pos + n)) (fun r =>","ibind (commit_index_to rb h c m' pos) (fun r =>","the position does not advance",["C103","C24"],"all terms point at the same list")
m(W,"commit_indices_to","| None :: w' => commit_indices_to rb ord h (c + 1) w' pos","| None :: w' => commit_indices_to rb ord h c w' pos","an empty size does not count",["C103","C24"],"terms under the wrong size")
m(W,"header_to","ibind (wrap_err (pieces_to h (pieces (gob_enc g hdr)) 0)) (fun _ => wrap_err (out_close h))).","ibind (wrap_err (pieces_to h (pieces (gob_enc g hdr)) 0)) (fun _ => lift (Ret tt))).","the header is not closed",C,"the header stays in the buffer")
m(W,"header_to","(fun _ => wrap_err (out_close h))).","(fun _ w => (Ret tt, snd (out_close h w)))).","the error of closing the header is ignored",C,"a header that did not fit on the disk is success")
m(W,"commit_to","(fst r))) (fun _ => wrap_err (out_close h)))).","(fst r))) (fun _ => lift (Ret tt)))).","the document list is not closed",C,"the last lists stay in the buffer")
m(W,"commit_to","(fst r))) (fun _ => wrap_err (out_close h)))).","(fst r))) (fun _ w => (Ret tt, snd (out_close h w))))).","the error of closing the document list is ignored",C,"lists that did not fit are success")
m(W,"ngram_to","match nth_error hs (List.length gr - 1) with","match nth_error hs (List.length gr) with","the line goes into the next order's file",["C103","C59"],"counts in the wrong file")
m(W,"create_all","ibind (wrap_err (create_output n)) (fun h => ibind (create_all ns)","ibind (fun w => match create_output n w with (Fail _, w') => (Ret 0%nat, w') | r => r end) (fun h => ibind (create_all ns)","a file that cannot be created is ignored",C,"counts go into another file")
m(W,"close_all","ibind (wrap_err (out_close h)) (fun _ => close_all hs')","fun w => match out_close h w with (_, w') => close_all hs' w' end","the errors of closing are ignored",C,"counts that did not fit are success")
m(W,"close_all","ibind (wrap_err (out_close h)) (fun _ => close_all hs')","wrap_err (out_close h)","only the first file is closed",C,"the other files miss their ends")
m(W,"ngrams_to","ibind (fun w => Walk ord (ngram_to hs) t w) (fun _ => close_all hs)","ibind (fun w => Walk ord (ngram_to hs) t w) (fun _ => lift (Ret tt))","the files are not closed",C,"all counts stay in buffers")
m(W,"vector_to","ibind (out_write h (uint64SliceAsByteSlice (pvalues s))) (fun n' => lift (Ret (p + n + n')))","lift (Ret (p + n))","the values are not written",["C103","C52"],"the model cannot be loaded")
m(W,"vector_to","(wrap32 (8 * zlen (containers s))) (wrap32 (8 * zlen (pvalues s)))","(wrap32 (8 * zlen (pvalues s))) (wrap32 (8 * zlen (containers s)))","the two lengths are swapped",["C103","C52"],"the model is read wrongly")
m(W,"table_to","uint32s_to h (map wrap32 (auxiliary t)) (n + s)","lift (Ret (n + s))","the auxiliary array is not written",["C103","C57"],"the table cannot be loaded")
m(W,"binary_to","ibind (wrap_err (table_to h t)) (fun _ => wrap_err (out_close h))","ibind (wrap_err (table_to h t)) (fun _ => lift (Ret tt))","the file is not closed",C,"the end of the model stays in the buffer")
m(W,"binary_to","ibind (wrap_err (table_to h t)) (fun _ => wrap_err (out_close h))","ibind (wrap_err (table_to h t)) (fun _ w => (Ret tt, snd (out_close h w)))","the error of the last flush is ignored",C,"a model that did not fit is success")
W="FaultyIndexer.v"
m(W,"commit_on","(merged k p w, evs ++ map (fun c => ESys (path_in p (call_name c)) c) (w_calls w), r).","(merged k p w, evs ++ map (fun c => ESys (path_in p (call_name c)) c) (w_calls w), Ret tt).","the error of Commit is dropped",C,"the command succeeds on a full disk")
m(W,"merged","match w_files w hd with Some b => put k1 (header_path p) (CText b) | None => k1 end.","match w_files w hd with Some b => put k1 (list_path p) (CText b) | None => k1 end.","the header overwrites the document list",["C103","C88"],"no index")
m(W,"machine_at","mkMachine (fun n => o_create O (path_in p n))","mkMachine (fun n => true)","a file that cannot be created is created",C,"success where the faultless model fails")
m(W,"faulty_job","| Some c => (put k (GetDictionaryFile p) c, evs ++ [EDict (GetDictionaryFile p) false], Fail (ErrWrapped (ErrOther 6)))","| Some c => (put k (GetDictionaryFile p) c, evs ++ [EDict (GetDictionaryFile p) false], Ret tt)","a dictionary that could not be written ends the job without an error",C,"the old index is served with a broken dictionary")
m(W,"faulty_job","| Ret w => commit_on k2 evs2 p w","| Ret w => commit_on k evs2 p w","the index is written but the dictionary is not",["C103","C88"],"the dictionary is missing")
m(W,"faulty_jobs","| (k', evs', Fail e) => (k', evs', Fail e)","| (k', evs', Fail e) => faulty_jobs dict k' evs' ds' reIndexed","a failed job does not stop the command",C,"exit 0 after a failure")
m(W,"faulty_indexer","| (k', evs, Fail e) => (k', evs, [], Fail e)","| (k', evs, Fail e) => (k', evs, fst (send_signal O k' pidPath), Fail e)","the server is signalled after a failure",C,"the server loads a half-written index")
m(W,"faulty_indexer","| (k', evs, Ret false) => (k', evs, [], Ret tt)","| (k', evs, Ret false) => (k', evs, [], Fail (ErrOther 1))","no job is an error",C,"a command with nothing to do fails")
json.dump(M,open("/verif/tools/mutations.json","w"),indent=1,ensure_ascii=False)
