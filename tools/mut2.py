import json
M=json.load(open("/verif/tools/mutations.json"))
seen={(x["def"],x["edit"]) for x in M}
def m(file,d,old,new,edit,claims,breaks,**k):
    if (d,edit) in seen: return
    x=dict(file=file,old=old,new=new,edit=edit,claims=claims,breaks=breaks); x["def"]=d; x.update(k); M.append(x)
I="Index.v"
m(I,"add_terms","(mset beqb m t (l ++ [id]))","(mset beqb m t [id])","posting list replaced instead of appended",["C24","C26"],"only the last document of a term is found")
m(I,"AddDocument","if c * 2 <? c + 1 then Panic","if false then Panic","no panic of make for an empty first document",["C25"],"C25's exact panic condition")
m(I,"AddDocument","repeat None (Z.to_nat (c + 1 - zlen w))","repeat None (Z.to_nat (c - zlen w))","index slice grown one short",["C24","C25","C26"],"AddDocument panics for a new maximal cardinality")
m(I,"commit_index","commit_index rb c m' (pos + n)","commit_index rb c m' pos","offset of the posting list not advanced",["C24","C26"],"every term reads the first posting list")
m(I,"commit_index","(wrap32 (zlen l)) :: ds","(wrap32 n) :: ds","length field filled with the byte size",["C24","C26"],"posting list length wrong")
m(I,"commit_indices","None :: w' => commit_indices rb ord (c + 1) w' pos","None :: w' => commit_indices rb ord c w' pos","cardinality not counted for empty slots",["C24","C26"],"documents are found under the wrong size")
m(I,"Commit","[OCreate hn; OWrite (S h)","[OCreate hn; OWrite h","header bytes written to the document list's handle",["C24","C27"],"the header file is empty")
m(I,"Commit","OClose (S h); OClose h]","OClose (S h)]","document list not closed (so not flushed)",["C24","C27"],"posting lists lost")
m(I,"build_tables","(d_size d, d_pos d, d_len d)","(d_pos d, d_size d, d_len d)","size and position swapped",["C24","C26"],"wrong slice of the document list")
m(I,"IndexRead","if negb (beqb (h_version h) IndexVersion) then Fail (ErrOther 12)","if false then Fail (ErrOther 12)","version not checked",["C24","C27"],"files of another version are accepted")
m(I,"IndicesGet","(i <? zlen ix)","(i <=? zlen ix)","bounds check off by one",["C24","C26","C41","C43"],"harmless here: nth default is None")
m(I,"filterTerms","if k + zlen terms >=? T then","if k + zlen terms >? T then","early stop one term too early",["C26"],"a document with exactly T terms is lost")
m(I,"filterTerms","t :: filterTerms iv ts T (k + 1)","t :: filterTerms iv ts T k","found terms not counted",["C26"],"stops although enough terms were found")
m(I,"Search","if zlen terms <? T then (Ret tt, s)","if zlen terms <=? T then (Ret tt, s)","no search when exactly T terms exist",["C26","C43"],"full matches lost")
m(I,"Search","let terms := filterTerms iv terms T 0 in","","terms not filtered",["C26"],"a nil posting list is opened")
A="Analysis.v"
m(A,"Has","(c >=? lo) && (c <=? hi)","(c >? lo) && (c <=? hi)","lower bound excluded",["C65"],"the first letter is no member",count=1)
m(A,"Has","if c =? 1105 then","if c =? 1025 then","capital io tested",["C65"],"small io is no member")
m(A,"Chars","zrange lo (Z.to_nat (hi - lo + 1))","zrange lo (Z.to_nat (hi - lo))","last character not listed",["C65"],"z not listed")
m(A,"CreateAlphabet","(bs \"russian\")","(bs \"rusian\")","misspelt alphabet name",["C65"],"russian description not recognised")
m(A,"appendUnique","if existsb (beqb x) a then a else a ++ [x]","a ++ [x]","no deduplication",["C28"],"tokens repeated")
m(A,"ngram_loop","if i >? n then","if i >=? n then","window closed one character early",["C28","C31"],"a short gram is produced")
m(A,"ngram_loop","prev <- upd prev k index_ ;;","prev <- upd prev k (index_ + zlen c) ;;","offset after the character stored",["C28"],"grams lose their first character")
m(A,"NGramTokenize","g <- slice text top (zlen text) ;;","g <- slice text top (zlen text - 1) ;;","last gram misses its last byte",["C28"],"last gram wrong")
m(A,"NGramTokenize","if zlen text <? n then Ret []","if zlen text <=? n then Ret []","text of exactly n bytes has no token",["C28","C30"],"n-character ASCII text")
m(A,"word_loop","(len + RuneLen r) words","(len + 1) words","length counted in runes",["C32"],"multi-byte words truncated")
m(A,"word_loop","word_loop has text rs' (i + zlen b) (-1) 0 words","word_loop has text rs' (i + zlen b) (-1) len words","word length not reset",["C32"],"second word too long")
m(A,"WordTokenize","if negb (start =? -1) then w <- slice text start (start + len) ;; Ret (words ++ [w]) else Ret words.","Ret words.","last word dropped",["C32"],"text ending in a word")
m(A,"normalize","then encode_rune (fst rb) else pad","then pad else encode_rune (fst rb)","condition inverted",["C33"],"alphabet characters replaced")
m(A,"WrapTokenize","tok (start ++ text ++ end_)","tok (text ++ end_)","left wrap missing",["C34"],"autocomplete matches anywhere")
m(A,"FilterTokenize","ts <- tok (Trim (lower text)) ;;","ts <- tok (lower (Trim text)) ;;","trim before lower-casing",["C29","C34"],"equivalent only if lower keeps spaces")
T="Text.v"
m(T,"decode_rune","if a =? 237 then 159 else 191","191","surrogates accepted",["C28","C32","C33"],"decode of ED A0 80")
m(T,"decode_rune","else if a <? 194 then bad","else if a <? 192 then bad","overlong encodings accepted",["C28","C32","C33"],"C0 80")
m(T,"RuneLen","else if r <? 2048 then 2","else if r <? 1024 then 2","boundary of two-byte runes",["C32"],"word lengths wrong for U+0400..U+07FF")
m(T,"Trim","rev (trim_left (rev (trim_left s)))","trim_left s","only the left side trimmed",["C29","C34","C28"],"trailing spaces become tokens")
X="Metric.v"
m(X,"MinY","int_ceil (fmul (fmul alpha alpha) (of_int size))","int_floor (fmul (fmul alpha alpha) (of_int size))","cosine lower size bound rounded down",["C36"],"bound not exact")
m(X,"MaxY","int_floor (fdiv (of_int size) alpha)","int_ceil (fdiv (of_int size) alpha)","jaccard upper size bound rounded up",["C36"],"sizes beyond the bound scanned")
m(X,"Threshold","fmul (fmul f_half alpha)","fmul (fmul f_two alpha)","dice threshold too high",["C36","C37","C41"],"similar entries lost")
m(X,"Threshold","(fadd f_one alpha)","(fsub f_two alpha)","jaccard threshold wrong denominator",["C36","C37","C41"],"similar entries lost for alpha < 1/2")
m(X,"Threshold","| Exact => sizeA\n  | Jaccard","| Exact => 1\n  | Jaccard","exact metric accepts one common token",["C36","C41"],"dissimilar entries returned")
m(X,"Distance","(wrapi64 (wrapi64 (sizeA + sizeB) - inter))","(wrapi64 (sizeA + sizeB))","union without subtracting the intersection",["C36"],"jaccard score halved")
m(X,"Distance","(of_int (wrapi64 (2 * inter)))","(of_int inter)","dice without the factor 2",["C36"],"dice score halved")
m(X,"Score","fsub f_one (Distance m inter sizeA sizeB)","Distance m inter sizeA sizeB","distance used as score",["C36","C41"],"worst first")
K="TopK.v"
m(K,"Less","then Key o <? Key c else","then Key c <? Key o else","tie broken by the larger key",["C38"],"equal scores ordered wrongly")
m(K,"IsFull","zlen (qh q) =? qk q","zlen (qh q) + 1 =? qk q","full one element early",["C38"],"elements rejected though there is room")
m(K,"CanTakeWithScore","Ret (fle (Sc t) score)","Ret (flt (Sc t) score)","ties rejected",["C38","C39"],"a smaller key with the same score is lost")
m(K,"Add","if Less t c then Ret (mkQueue (qk q) (updateTop (qh q) c)) else Ret q","Ret (mkQueue (qk q) (updateTop (qh q) c))","always replaces the top",["C38","C39"],"a larger key replaces a smaller one on ties")
m(K,"Add","if zlen (qh q) <? qk q","if zlen (qh q) <=? qk q","one element too many",["C38"],"k+1 results")
m(K,"updateTop","heap_fix Less (upd 0 c h) 0 (length h)","upd 0 c h","heap not repaired",["C38"],"later insertions drop the wrong element")
m(K,"GetCandidates","swap_ends (Nat.div (length h) 2) arr","arr","array not reversed after popping",["C40","C38"],"the queue is no heap after a listing")
m(K,"GetCandidates","swap_ends (Nat.div (length h) 2) arr","swap_ends (Nat.div (length h) 2 - 1) arr","one swap missing",["C40"],"the queue is no heap after a listing")
m(K,"Reset","mkQueue topK []","mkQueue (qk q) []","Reset keeps the old k",["C38"],"reset queue keeps old size")
m(K,"GetLowestScore","if 0 <? zlen (qh q)","if 1 <? zlen (qh q)","lowest score of one element is -inf",["C38"],"GetLowestScore")
S="Suggest.v"
m(S,"bMax","then zlen ix - 1 else b","then zlen ix else b","upper size one past the index",["C41","C42"],"harmless: IndicesGet is bounds-checked, more sizes scanned")
m(S,"exec_worker","(T =? 0) || (b <? T) || (sizeA <? T)","(T =? 0) || (b <=? T) || (sizeA <? T)","entries whose size equals the threshold skipped",["C41"],"shorter entries lost")
m(S,"exec_worker","(T =? 0) || (b <? T)","(b <? T)","threshold 0 searched",["C41","C42"],"merge with T = 0")
m(S,"exec_worker","(if flt (s_sim s) l then l else s_sim s)","l","similarity lowered to -inf while the queue is not full",["C41"],"dissimilar entries accepted")
m(S,"ManagerLowestScore","if negb (IsFull g) then Ret f_neg_inf else GetLowestScore g","GetLowestScore g","threshold raised before the queue is full",["C41"],"candidates lost while there is room")
m(S,"exec_worker","if s_locked s then None\n","if false then None\n","no mutual exclusion",["C41"],"lock not respected")
m(S,"exec_worker","match Merge (s_glob s) q with","match Merge q (s_glob s) with","merge into the worker's queue",["C41"],"same set; Merge order does not matter",)
m(S,"exec_prod","if bMin <=? i then send s i (PSendJ i j)","if bMin <? i then send s i (PSendJ i j)","smallest size not sent",["C41"],"shortest entries lost")
m(S,"exec_prod","if (bMin <=? i) || (j <=? bMax)","if (bMin <=? i) && (j <=? bMax)","loop ends when one side is exhausted",["C41"],"longer or shorter entries lost")
m(S,"exec_prod","let next := PLoop (wrapi64 (i - 1)) (wrapi64 (j + 1)) in","let next := PLoop (wrapi64 (i - 1)) j in","j not advanced",["C41","C42"],"same size sent again and again")
m(S,"start","(PLoop sizeA (sizeA + 1))","(PLoop sizeA sizeA)","own size sent twice",["C41"],"duplicates in the result")
m(S,"fuzzy_collect","Score d (Merger.Overlap item) sizeA sizeB","Score d (Merger.Position item) sizeA sizeB","score of the position",["C41"],"scores wrong")
m(S,"start","(Z.to_nat (Z.min 5 chan_cap))","(Z.to_nat (Z.min 5 (chan_cap - 1)))","one worker too few",["C42"],"deadlock when one size is to be searched")
m(S,"exec_worker","(set_nth_opt i WRecv (s_ws s)) (s_glob s) (s_sim s) false","(set_nth_opt i WRecv (s_ws s)) (s_glob s) (s_sim s) true","lock not released",["C42"],"deadlock")
U="Autocomplete.v"
m(U,"firstk_collect","if limit =? zlen items","if limit <? zlen items","one item too many collected",["C43"],"more than limit candidates collected (harmless: the queue cuts)")
m(U,"firstk_collect","(None, items ++ [item])","(None, item :: items)","items in reverse",["C43"],"harmless: the queue sorts")
m(U,"manager_collect","(fneg (of_int (Merger.Position c)))","(of_int (Merger.Position c))","larger ids first",["C43"],"last matches instead of first")
m(U,"asearch","iv terms (zlen terms) []","iv terms (zlen terms - 1) []","threshold one too low",["C43"],"entries missing a term are returned")
m(U,"astart","(ALoop (zlen terms))","(ALoop (zlen terms + 1))","own size not searched",["C43"],"entries of the query's size lost")
m(U,"aexec_prod","if b <? zlen ix then","if b <? zlen ix - 1 then","largest size not searched",["C43"],"longest entries lost")
m(U,"aexec_worker","(set_nth_opt i (ADone b) (a_ws s)) (a_q s) false","(set_nth_opt i (ADone b) (a_ws s)) (a_q s) true","lock not released",["C43"],"deadlock")
V="Service.v"
m(V,"step","mset beqb (s_dict s) n (mkEntry i dv)","mset beqb (s_dict s) n (mkEntry i iv)","index installed as dictionary",["C44"],"dictionary and index mixed up")
m(V,"step","match s_readers s with _ :: _ => None | [] => jump s i (AWriteIndex dv iv) end","jump s i (AWriteIndex dv iv)","writer does not wait for readers",["C44"],"a query sees a new index with an old dictionary")
m(V,"step","TQuery _, QLock => match s_writer s with Some _ => None | None =>","TQuery _, QLock => match @None nat with Some _ => None | None =>","readers ignore the writer",["C44"],"a query sees half an install")
m(V,"step","| TAdd _ _, AUnlock => jump (set_lock s None (s_readers s)) i ADone","| TAdd _ _, AUnlock => jump s i ADone","write lock not released",["C44"],"deadlock")
m(V,"step","(remove Nat.eq_dec i (s_readers s)) in","(s_readers s) in","read lock not released",["C44"],"deadlock of the next AddIndex")
H="Http.v"
m(H,"NewSearchConfig","if topK <=? 0","if topK <? 0","0 accepted",["C45"],"topK 0 panics later")
m(H,"NewSearchConfig","flt (of_int 1) similarity","flt similarity (of_int 1)","similarities below 1 rejected",["C45"],"valid similarities rejected")
m(H,"parse_digits","(2 ^ 64 - 1) / 10 + 1 <=? n","(2 ^ 64 - 1) / 10 + 1 <? n","cutoff off by one",["C66"],"overflowing numerals accepted modulo 2^64?")
m(H,"ParseInt","if negb neg && (2 ^ 63 <=? un)","if negb neg && (2 ^ 63 <? un)","2^63 accepted",["C66"],"2^63 wraps")
m(H,"FormTopKValue","if v <? 0 then","if v <? -1 then","-1 accepted",["C66"],"negative limit reaches Autocomplete")
m(H,"buildSearchConfig","similarity <- FormSimilarityValue similarity_val defaultSimilarity ;;\n      New","let similarity := defaultSimilarity in\n      New","similarity parameter ignored",["C66"],"search runs with another similarity")
m(H,"metrics","(bs \"Dice\", Dice)","(bs \"Dice\", Jaccard)","metric names mixed up",["C66"],"Dice requests run Jaccard")
C="CountTrie.v"
m(C,"mapToUint32","let i := wrap32 (zlen h) in","let i := wrap32 (zlen h + 1) in","ids start at 1",["C46"],"ids do not index the holder")
m(C,"put_node","Node (children n) (wrap32 (ncount n + c))","Node (children n) (wrap32 c)","count overwritten",["C46","C47"],"second put lost")
m(C,"put_node","Node (mset Z.eqb (children n) w (put_node child ws' c)) (ncount n)","Node (mset Z.eqb (children n) w (put_node child ws' c)) (wrap32 (ncount n + c))","prefixes counted too",["C46","C47"],"prefixes appear")
m(C,"Put","(Z.max (t_depth t) (zlen s))","(zlen s)","depth of the last sentence",["C46","C47"],"path too short: panic")
m(C,"iterate","if 0 <? ncount n then walker","if 1 <? ncount n then walker","counts of 1 skipped",["C46","C47"],"rare n-grams lost")
m(C,"set_path","skipn (Z.to_nat d + 1) path","skipn (Z.to_nat d) path","path shifted",["C46"],"harmless unless the path grows")
m(C,"windows","(seq 0 (length s - k + 1))","(seq 0 (length s - k))","last window missing",["C47"],"last n-gram not counted")
m(C,"add_sentence","(seq 1 (Z.to_nat order))","(seq 1 (Z.to_nat order - 1))","highest order missing",["C47"],"order-n n-grams not counted")
m(C,"Build","negb (zlen s =? 0)","negb (zlen s =? 1)","one-word sentences skipped",["C47"],"counts too small")
N="NGram.v"
m(N,"findContainerPos","if context <? getContext c0 then Ret (-1)","if context <=? getContext c0 then Ret (-1)","first context not found",["C48","C49"],"first context lost")
m(N,"findContainerPos","sort_search (zlen cs) (fun i => nth (Z.to_nat i) cs 0 >=? target)","sort_search (zlen cs) (fun i => nth (Z.to_nat i) cs 0 >? target)","strict search for the container",["C48"],"only context with from = 0 affected")
m(N,"findContainerPos","if negb (getContext ci =? context) then Ret (-1) else Ret i","Ret i","found context not compared",["C48","C49"],"missing contexts answered by the next one")
m(N,"find_at","if negb (getWordID vj =? wordID) then Ret (0, InvalidContextOffset) else","","found word not compared",["C48","C49"],"missing words answered by the next one")
m(N,"find_at","Ret (vj, wrap32 (from + wrap32 j))","Ret (vj, wrap32 j)","offset relative to the context",["C48","C49"],"contexts of different parents collide")
m(N,"GetCount","Ret (getWordCount value, i)","Ret (getWordID value, i)","word id returned as count",["C48","C49"],"counts wrong")
m(N,"SubVector","if i <? zlen (containers s) - 1 then","if i <? zlen (containers s) then","bound of the next container",["C48","C50"],"last context panics")
m(N,"SubVector","Ret [ci; c']","Ret [ci]","sub-vector not bounded",["C48","C50"],"words of later contexts found")
m(N,"create_step","if fresh then currContext else context","context","current context not updated",["C48","C49"],"a container per node")
m(N,"create_step","negb (context =? currContext) || (zlen (containers pa) =? 0)","negb (context =? currContext)","first container missing when the first context is the invalid one",["C48","C49"],"unigrams without container")
m(N,"create_step","(wrap32 (total pa + snd n))","(wrap32 (total pa + 1))","total counts nodes",["C48","C49","C63"],"corpus size wrong")
m(N,"tree_put","(k', wrap32 (c' + c)) :: t'","(k', c) :: t'","second line of an n-gram overwrites",["C49"],"sums wrong")
m(N,"put_parent","put_parent ps ws' o","put_parent ps ws' w","context is the word id",["C49"],"contexts collide")
m(N,"VPut","'(w, parent) <- put_parent parents nGrams InvalidContextOffset ;;","'(w, parent) <- put_parent parents (rev nGrams) InvalidContextOffset ;;","words reversed",["C49"],"n-grams stored backwards")
m(N,"calc_loop","c' <- index counts (Z.of_nat i - 1) ;;","c' <- index counts 0 ;;","always relative to the corpus",["C63","C50"],"scores wrong")
m(N,"calc_loop","calc_loop i' counts (fmul factor alpha)","calc_loop i' counts alpha","discount applied once",["C63"],"back-off over two words")
m(N,"ScoreNext","if count =? 0 then Ret UnknownWordScore","if count <=? 1 then Ret UnknownWordScore","count 1 is unknown",["C50"],"rare continuations unknown")
m(N,"ScoreNext","(contextCounts s ++ [count])","(count :: contextCounts s)","count in front",["C50"],"scores wrong")
m(N,"Next","(nGramOrder m <=? zlen nGrams)","(nGramOrder m <? zlen nGrams)","context of order length accepted",["C50"],"index out of range panic")
m(N,"next_counts","if c =? 0 then Ret None else","","unseen context not detected",["C50"],"scorer for unseen contexts")
m(N,"lm_context","slice sequence (zlen sequence - n + 1) (zlen sequence)","slice sequence 0 (n - 1)","first words used",["C51"],"old words decide")
m(N,"lm_context","if zlen sequence + 1 <? n","if zlen sequence <? n","start symbol added to full contexts",["C51"],"order-long context is an error")
m(N,"splitIntoNGrams","(seq 0 (Z.to_nat (zlen s - nGramOrder + 1)))","(seq 0 (Z.to_nat (zlen s - nGramOrder)))","last run missing",["C67"],"end of sentence not scored")
m(N,"ScoreWordIDs","(lm_start lm :: sequence ++ [lm_end lm])","(sequence ++ [lm_end lm])","start symbol missing",["C67"],"beginning not scored")
json.dump(M,open("/verif/tools/mutations.json","w"),indent=1)
print(len(M))
