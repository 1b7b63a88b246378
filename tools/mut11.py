import json
M=json.load(open("/verif/tools/mutations.json"))
have=set((x["def"],x["edit"]) for x in M)
def m(f,d,old,new,edit,claims,breaks,count=1):
    if (d,edit) in have: return
    o={"file":f,"def":d,"old":old,"new":new,"edit":edit,"claims":claims,"breaks":breaks}
    if count!=1: o["count"]=count
    M.append(o)
T=lambda t: M[-1].__setitem__("tightened",t)
# eleventh batch: entries with repeated n-grams (C94), tightened deployments (C93)
m("Index.v","add_terms","      add_terms (mset beqb m t (l ++ [id])) id ts","      add_terms (mset beqb m t (if existsb (Z.eqb id) l then l else l ++ [id])) id ts","an id is kept once per n-gram",["C94"],"the lists are not those of all occurrences (the refuted part of C94 becomes true)"); T(["C94_index_files"])
m("Merger.v","intersect_loop","                   | (Ret item', first') => intersect_loop fuel' n item' first' rest' s'","                   | (Ret item', first') => if item' =? item then (Ret tt, s') else intersect_loop fuel' n item' first' rest' s'","a repeated id ends the intersection",["C94"],"entries behind one that repeats an n-gram are lost; lists without repetitions are not affected"); T(["C94_merge","C94_search"])
m("Merger.v","prune","            | Ret current => if current =? Position c then increment c else Ret c\n            | Fail ErrIteratorIsNotDereferencable => Ret c","            | Ret current => if current =? Position c then (match cs' with c2 :: _ => if Position c2 =? Position c then Ret c else increment c | [] => increment c end) else Ret c\n            | Fail ErrIteratorIsNotDereferencable => Ret c","of two equal candidates only the last is counted",["C94"],"an entry that repeats an n-gram is not found with its exact overlap; candidates without repetitions are not affected"); T(["C94_merge"])
m("Deploy.v","tokenizer_of","(fst (i_wrap c)) (snd (i_wrap c))","(snd (i_wrap c)) (fst (i_wrap c))","wraps swapped (after tightening)",["C93"],"queries with one wrap do not match"); T(["C93_as_described"])
m("Deploy.v","suggest_request","| Fail e => Some (Handlers.http_error etext e 400)\n  | _ => Some Handlers.Lost\n  end.\n(* autocomplete_handler.go","| Fail e => Some (Handlers.http_error etext e 500)\n  | _ => Some Handlers.Lost\n  end.\n(* autocomplete_handler.go","wrong status of bad parameters (deployed, after tightening)",["C93"],"a bad request is answered 500"); T(["C93_refused"])
m("Deploy.v","autocomplete_request","| Fail e => Some (Handlers.http_error etext e 400)\n  | _ => Some Handlers.Lost\n  end.\nEnd Answers","| Fail e => Some (Handlers.http_error etext e 500)\n  | _ => Some Handlers.Lost\n  end.\nEnd Answers","wrong status of a bad limit (deployed)",["C93"],"a bad request is answered 500"); T(["C93_refused"])
json.dump(M,open("/verif/tools/mutations.json","w"),indent=1)
