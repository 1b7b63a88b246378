import json
M=json.load(open("/verif/tools/mutations.json"))
have=set((x["def"],x["edit"]) for x in M)
def m(f,d,old,new,edit,claims,breaks,count=1):
    if (d,edit) in have: return
    o={"file":f,"def":d,"old":old,"new":new,"edit":edit,"claims":claims,"breaks":breaks}
    if count!=1: o["count"]=count
    M.append(o)
T=lambda t: M[-1].__setitem__("tightened",t)
N="NGramStore.v"; C=["C104"]
m(N,"LoadVector","match slice (ibuf r) p (p + n) with","match slice (ibuf r) p (Z.min (zlen (ibuf r)) (p + n)) with","the packed numbers may be shorter than announced",C,"a model cut inside the numbers is loaded")
m(N,"load_vectors","      | (Fail e, r) => (Fail e, r)\n      | (_, r) => (Panic, r)\n      end\n  end.\nDefinition LoadModel","      | (Fail EOF, r) => (Ret ([], p), r)\n      | (Fail ErrUnexpectedEOF, r) => (Ret ([], p), r)\n      | (Fail e, r) => (Fail e, r)\n      | (_, r) => (Panic, r)\n      end\n  end.\nDefinition LoadModel","the end of the file ends the vectors",C,"a model of fewer orders is loaded")
m(N,"LoadBinary","      | (Fail e, r) => (Fail e, r)\n      | (_, r) => (Panic, r)\n      end\n  | (Fail e, r) => (Fail e, r)\n  | (_, r) => (Panic, r)\n  end.","      | (Fail e, r) => (Ret (m, mkMph [] []), r)\n      | (_, r) => (Panic, r)\n      end\n  | (Fail e, r) => (Fail e, r)\n  | (_, r) => (Panic, r)\n  end.","a missing table is an empty one",C,"a model without its table is loaded")
m(N,"LoadModel","  | (Fail e, r) => (Fail e, r)\n  | (_, r) => (Panic, r)\n  end.\n\n(** ** The binary file *)","  | (Fail e, r) => (Ret (mkModel [] 0, 0), r)\n  | (_, r) => (Panic, r)\n  end.\n\n(** ** The binary file *)","an empty file is an empty model",C,"an empty file is loaded")
m(N,"LoadModel","if negb (if list_eq_dec Z.eq_dec (firstn 5 (got ++ repeat 0 5)) modelVersion then true else false) then (Fail (ErrOther 44), r)","if negb (if list_eq_dec Z.eq_dec got (firstn (length got) modelVersion) then true else false) then (Fail (ErrOther 44), r)","only the bytes read are compared with the version",C,"nothing by itself")
m("Mph.v","read_all","            | (Fail e, r') => (Fail (ErrWrapped e), r')\n            | (_, r') => (Panic, r')\n            end\n  end.","            | (Fail e, r') => (Ret [], r')\n            | (_, r') => (Panic, r')\n            end\n  end.","numbers that are missing are left out",["C104","C56"],"a table cut short is loaded")
m("Mph.v","LoadMph","          | (Fail e, r) => (Fail (ErrWrapped e), r) | (_, r) => (Panic, r)\n          end\n      | (Fail e, r) => (Fail e, r) | (_, r) => (Panic, r)","          | (Fail e, r) => (Ret (mkMph [] vals, n), r) | (_, r) => (Panic, r)\n          end\n      | (Fail e, r) => (Fail e, r) | (_, r) => (Panic, r)","a missing auxiliary table is an empty one",["C104"],"a table cut short is loaded")
m("Mph.v","LoadMph","match read_all (Z.to_nat s) r with","match read_all (Z.to_nat s - 1) r with","the last auxiliary value is not read",["C104","C56"],"a table cut short is loaded")
m("Store.v","ReadUInt32","if wrapi64 (ipos r + 4) >? zlen (ibuf r) then (Fail ErrUnexpectedEOF, r)","if ipos r >? zlen (ibuf r) then (Fail ErrUnexpectedEOF, r) else if wrapi64 (ipos r + 4) >? zlen (ibuf r) then (Ret 0, r)","a number that is cut is zero",["C104","C05"],"a table cut short is loaded")
m("LMDeploy.v","open_model","match open_input k (binary_path p) with Some b => Ret (recs, b) | None => Fail (ErrWrapped (ErrOther 97)) end","Ret (recs, text_at k (binary_path p))","a missing model file is an empty one",["C104"],"nothing by itself")
m("GoogleNGram.v","RetrieveLMFromBinary","'(model, table) <- fst (LoadBinary (NewBytesInput binary)) ;;\n","'(model, table) <- (match fst (LoadBinary (NewBytesInput binary)) with Fail _ => Ret (mkModel [] 0, mkMph [] []) | r => r end) ;;\n","a model that does not load is an empty one",["C104"],"a cut model is used")
m("LMDeploy.v","lm_eval_command","(words_alphabet c) l stdin\n  | Fail e => ([], Some (Fail e))","(words_alphabet c) l stdin\n  | Fail e => ([], Some (Ret tt))","a model that does not load is not an error of the command",["C104","C98"],"the command exits with success")
json.dump(M,open("/verif/tools/mutations.json","w"),indent=1,ensure_ascii=False)
