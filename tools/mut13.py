import json
M=json.load(open("/verif/tools/mutations.json"))
have=set((x["def"],x["edit"]) for x in M)
def m(f,d,old,new,edit,claims,breaks,count=1):
    if (d,edit) in have: return
    o={"file":f,"def":d,"old":old,"new":new,"edit":edit,"claims":claims,"breaks":breaks}
    if count!=1: o["count"]=count
    M.append(o)
T=lambda t: M[-1].__setitem__("tightened",t)
# round 13: LMDeploy.v and the survivors of round 12
m("Deploy.v","served_suggest","| None => Some (Fail (ErrOther 71))\n  | Some (mkEntry (InMemory ix words) d) => ServiceSuggest","| None => Some (Ret [])\n  | Some (mkEntry (InMemory ix words) d) => ServiceSuggest","an unknown dictionary gives an empty list","C93","an unknown dictionary is not refused"); T(["C93_unknown_name"])
m("Deploy.v","served_autocomplete","| None => Some (Fail (ErrOther 71))\n  | Some (mkEntry (InMemory ix words) d) => ServiceAutocomplete","| None => Some (Ret [])\n  | Some (mkEntry (InMemory ix words) d) => ServiceAutocomplete","an unknown dictionary gives an empty list of completions","C93","an unknown dictionary is not refused"); T(["C93_unknown_name"])
m("Deploy.v","read_text","| _ => Fail (ErrOther 81) end","| _ => Ret (bs \"[]\") end","a missing configuration is an empty one","C93","the indexer succeeds without a configuration"); T(["C93_no_configuration"])
m("LMDeploy.v","ngram_paths","(seq 1 (Z.to_nat (m_order c)))","(seq 0 (Z.to_nat (m_order c)))","the orders are counted from 0","C98","the file of the 1-grams holds the 2-grams")
m("LMDeploy.v","ngram_paths","(seq 1 (Z.to_nat (m_order c)))","(rev (seq 1 (Z.to_nat (m_order c))))","the files are written in the other order","C98","the counts are in the wrong files")
m("LMDeploy.v","open_inputs","| None => [] end end","| None => open_inputs k ps' end end","files that cannot be opened are skipped","C98","the model is read from the wrong files")
m("LMDeploy.v","put_all","p :: ps', c :: cs' => put_all (put k p c) ps' cs'","p :: ps', c :: cs' => put k p c","only the first file is written","C98","the counts of the higher orders are missing")
m("LMDeploy.v","words_alphabet","Has (CreateAlphabet asort (m_alphabet c))","Has (CreateAlphabet asort (m_separators c))","the words consist of separators","C98","the words are not those of the configured alphabet")
m("LMDeploy.v","separators_alphabet","Has (CreateAlphabet asort (m_separators c))","Has (CreateAlphabet asort (m_alphabet c))","letters separate sentences","C98","the sentences are not those of the text")
m("LMDeploy.v","count_model","(m_start c) (m_end c) (m_order c) chunk fuel (text_at","(m_end c) (m_start c) (m_order c) chunk fuel (text_at","start and end symbols are swapped in counting","C98","the counted n-grams start with the end symbol")
m("LMDeploy.v","count_model","| None => (k, Fail (ErrWrapped (ErrOther 91)))","| None => (fst (create_all k (ngram_paths c)), Ret tt)","a missing source is an empty one","C98","ngram-count empties the files without a source and succeeds")
m("LMDeploy.v","count_model","| Ret files => (put_all k (ngram_paths c) (map CText files), Ret tt)","| Ret files => (put_all k (ngram_paths c) (map CText (removelast files)), Ret tt)","the file of the highest order is not written","C98","the counts of the highest order are missing")
m("LMDeploy.v","count_model","| Ret files => (put_all k (ngram_paths c) (map CText files), Ret tt)","| Ret files => (put (put_all k (ngram_paths c) (map CText files)) (binary_path p) CBroken, Ret tt)","ngram-count destroys the binary","C98","ngram-count changes a file of the built model")
m("LMDeploy.v","build_model","match open_input k (ngram_path p 1) with","match open_input k (ngram_path p 2) with","the dictionary is read from the 2-grams","C98","the dictionary is not that of the words")
m("LMDeploy.v","build_model","ReadNGrams (IndexerGet words table) chunk fuel (m_order c) (open_inputs k (ngram_paths c))","ReadNGrams (IndexerGet words table) chunk fuel (m_order c) (rev (open_inputs k (ngram_paths c)))","the files are read in the other order","C98","the scores are wrong")
m("LMDeploy.v","build_model","let k2 := put k (GetDictionaryFile p) (CDict recs) in","let k2 := put k (GetDictionaryFile p) CBroken in","the dictionary is not closed","C98","eval after build-lm fails")
m("LMDeploy.v","build_model","| Ret out => (put k2 (binary_path p) (CText out), Ret tt)","| Ret out => (k2, Ret tt)","the binary is not written","C98","eval reads the old binary or none")
m("LMDeploy.v","build_model","| Ret out => (put k2 (binary_path p) (CText out), Ret tt)","| Ret out => (put k2 (ngram_path p 1) (CText out), Ret tt)","the binary is written over the 1-grams","C98","eval reads the old binary or none")
m("LMDeploy.v","build_model","| Ret out => (put k2 (binary_path p) (CText out), Ret tt)","| Ret out => (put (put k2 (binary_path p) (CText out)) (GetSourcePath p) CBroken, Ret tt)","the source is removed","C98","build-lm changes the text")
m("LMDeploy.v","build_model","match StoreBinary model table [] with","match StoreBinary (rev model) table [] with","the orders are stored the other way round","C98","the scores are wrong")
m("LMDeploy.v","open_model","match open_input k (binary_path p) with","match open_input k (ngram_path p 1) with","the binary is read from the 1-grams","C98","eval fails or scores wrongly")
m("LMDeploy.v","load_model","RetrieveLMFromBinary (m_order c) (m_start c) (m_end c) (map snd recs) b","RetrieveLMFromBinary (m_order c) (m_end c) (m_start c) (map snd recs) b","start and end symbols are swapped in loading","C98","the scores are those of the reversed symbols")
m("LMDeploy.v","load_model","RetrieveLMFromBinary (m_order c) (m_start c) (m_end c) (map snd recs) b","RetrieveLMFromBinary (m_order c - 1) (m_start c) (m_end c) (map snd recs) b","the model is loaded with a smaller order","C98","the scores are those of another order")
m("LMDeploy.v","load_model","(map snd recs) b.","(rev (map snd recs)) b.","the dictionary is read backwards","C98","the words are taken for others")
m("LMDeploy.v","lm_eval_command","lm_eval lowr chunk fuel flog (words_alphabet c) l stdin","lm_eval lowr chunk fuel flog (separators_alphabet c) l stdin","the lines are split by the other alphabet","C98","the scores are those of other words")
m("LMDeploy.v","configured_command","| Fail e => (k, Fail (ErrWrapped e))\n  | Panic => (k, Panic)\n  | NoFuel => (k, NoFuel)\n  end.\n(* ngram","| Fail e => (k, Ret tt)\n  | Panic => (k, Panic)\n  | NoFuel => (k, NoFuel)\n  end.\n(* ngram","a configuration that cannot be read is a success","C98","a command succeeds without a configuration")
m("LMDeploy.v","words_description","(bs \"words\") 3 [] []","(bs \"words\") 2 [] []","2-grams","C98","words are compared by 2-grams")
m("LMDeploy.v","words_description","(bs \"^\", bs \"$\") []","(bs \"$\", bs \"^\") []","the wrapping is swapped","C98","completions are looked for at the end of words")
m("LMDeploy.v","words_description","bs \"russian\"; bs \"numbers\"","bs \"numbers\"","Russian letters are padding","C98","Russian words cannot be told apart")
m("LMDeploy.v","load_spellchecker","(m_start c) (m_end c) (m_order c) (tokenizer_of","(m_end c) (m_start c) (m_order c) (tokenizer_of","start and end symbols are swapped in the spellchecker","C98","the predictions at the start of a sentence are those at its end")
m("LMDeploy.v","spell_eval_command","spell_eval rb srt chunk fuel flog stable sp scheds scheds' stdin","spell_eval rb srt chunk fuel flog (fun _ l => l) sp scheds scheds' stdin","the candidates are not sorted","C98","a rare continuation comes before a frequent one")
json.dump(M,open("/verif/tools/mutations.json","w"),indent=1,ensure_ascii=False)
