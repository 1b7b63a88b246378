import json
M=json.load(open("/verif/tools/mutations.json"))
for x in M:
    if x["edit"]=="Reset keeps the old k" and x["file"]=="TopK.v":
        pass
have=set((x["def"],x["edit"]) for x in M)
def m(f,d,old,new,edit,claims,breaks,count=1):
    if (d,edit) in have: return
    o={"file":f,"def":d,"old":old,"new":new,"edit":edit,"claims":claims,"breaks":breaks}
    if count!=1: o["count"]=count
    M.append(o)
F="Mph.v"
m(F,"DictGet","(zlen words <=? key)","(zlen words <? key)","Get accepts the key len(words)",["C58"],"a key outside of the dictionary is not reported with nil... reads past the end")
m(F,"DictGet","then NilValue else nth","then [] else nth","absent keys give the empty string",["C58"],"absence mark")
m(F,"DictIterate_from","DictIterate_from f (i + 1) ws s'","DictIterate_from f (i + 2) ws s'","keys advance by two",["C58"],"Iterate and Get disagree")
m(F,"DictIterate_from","| (Some e, s') => (Some e, s')","| (Some e, s') => (None, s')","iterator error dropped",["C58"],"errors lost")
m(F,"hash","(if h =? 0 then 2166136261 else h)","h","no default offset basis",["C54","C55"],"different hash function; still a hash: C54 claims may hold")
m(F,"find_slots","negb (v =? unused) || existsb (Z.eqb slot) slots","existsb (Z.eqb slot) slots","occupied slots are not skipped",["C54"],"two words share a slot")
m(F,"find_slots","negb (v =? unused) || existsb (Z.eqb slot) slots","negb (v =? unused)","collision inside a bucket not seen",["C54"],"two words of a bucket share a slot")
m(F,"find_slots","find_slots f words size vals bucket 0 (wrap32 (d + 1)) []","find_slots f words size vals bucket item (wrap32 (d + 1)) slots","restart keeps the placed words",["C54"],"earlier words placed with another seed")
m(F,"place_big","if zlen bucket <=? 1 then","if zlen bucket <=? 2 then","buckets of two treated as singles",["C54"],"second word lost")
m(F,"place_big","set_index aux h (to_i32 d)","set_index aux h (to_i32 (d + 1))","seed off by one",["C54"],"lookups use another seed")
m(F,"place_one","to_i32 (- slot - 1)","to_i32 (- slot)","slot 0 is not negative",["C54"],"slot 0 lookup uses the hash")
m(F,"place_one","set_index vals slot k","set_index vals slot (k + 1)","wrong key stored",["C54"],"word i maps to i+1")
m(F,"free_slots","if v =? unused then i :: acc else acc","if v =? unused then acc else i :: acc","used slots taken as free",["C54"],"overwrites")
m(F,"GetMph","(to_i32 (to_i32 (- d) - 1))","(to_i32 (- d))","slot decoding off by one",["C54"],"wrong key")
m(F,"IndexerGet","if beqb (DictGet words i) token then i else UnknownWordID","i","no check of the word",["C57"],"unknown words get an id")
m(F,"IndexerFind","if beqb v NilValue then UnknownWordSymbol else v","v","unknown ids give <nil/>",["C57"],"unknown id")
m(F,"StoreMph","write_all o (map wrap32 (auxiliary m)) (n + s)","write_all o (map wrap32 (values m)) (n + s)","values stored twice",["C56"],"auxiliary lost")
m(F,"LoadMph","(map to_i32 aux) vals","aux vals","auxiliary loaded unsigned",["C56"],"negative seeds lost")
m(F,"LoadMph","wrap32 (n + s) * 4 + 8","wrap32 (n + s) * 4","header not counted in the size",["C56"],"reported size")
F="NGramStore.v"
m(F,"StoreVector","let valuesSize := wrap32 (8 * zlen (pvalues s)) in","let valuesSize := wrap32 (8 * zlen (containers s)) in","values size from containers",["C52"],"layout")
m(F,"StoreVector","(header containersSize valuesSize (total s))","(header containersSize valuesSize 0)","total not stored",["C52"],"total lost")
m(F,"LoadVector","slice data containersSize (zlen data)","slice data 0 (zlen data)","values include containers",["C52"],"wrong values")
m(F,"LoadVector","Seek r (wrapi64 (p + n)) 0 with","Seek r n 0 with","seek without the header",["C52"],"next vector read from a wrong place")
m(F,"header","dec a ++ [32] ++ dec b","dec a ++ dec b","separator missing in the header",["C52"],"unreadable")
m(F,"le64","le32 (wrap32 v) ++ le32 (Z.shiftr v 32)","le32 (Z.shiftr v 32) ++ le32 (wrap32 v)","halves swapped on write",["C52"],"byte order mismatch")
m(F,"StoreModel","wrap8 (nGramOrder m)","wrap8 (nGramOrder m - 1)","order off by one",["C52"],"last vector not loaded")
m(F,"StoreBinary","'(_, o) <- StoreMph t o ;;\n  Ret o","Ret o","table not stored",["C52"],"table lost")
m(F,"LoadModel","(zlen got + 1)","(zlen got)","order byte not counted",["C52"],"reported size")
F="LMAlias.v"
m(F,"go_append","(s_len s + length xs <=? s_cap s)%nat","(s_len s + length xs <=? S (s_cap s))%nat","append one past the capacity",["C53"],"writes outside of the slice's capacity")
m(F,"rightWrapSentence","append_ m s [lm_end lm].","append_ m (reslice s 0 (s_len s - 1)) [lm_end lm].","end symbol replaces the last word",["C53"],"caller's last word overwritten")
m(F,"leftWrapSentence","let '(m', l) := new_slice m [lm_start lm] in append_ m' l (contents m' s).","append_ m (reslice s 0 0) (lm_start lm :: contents m s).","shift in place",["C53"],"caller's words shifted in place")
m(F,"reslice","(s_cap s - i)","(j - i)","three-index slicing in Next (harmless)",["C53"],"harmless: capacities of subslices smaller; expect proofs to need repair only")
F="Scanner.v"
m(F,"fill","(end_ =? sc_size s) && (maxTokenSize <=? sc_size s)","(end_ =? sc_size s) && (maxTokenSize <? sc_size s)","full buffer not detected",["C60","C68"],"too long tokens")
m(F,"fill","skipn n (sc_rest s)","skipn (S n) (sc_rest s)","a byte is dropped at each read",["C60","C68"],"bytes lost")
m(F,"fill","sc_data s ++ firstn n (sc_rest s)","firstn n (sc_rest s)","unconsumed data dropped",["C60","C68"],"chunk dependent")
m(F,"step","skipn adv (sc_data s)","skipn (S adv) (sc_data s)","one byte too much consumed",["C60","C68"],"bytes lost")
m(F,"dropCR","13 :: t => rev t","13 :: t => t","line reversed without CR",["C68"],"line reversed")
m(F,"ScanLines","(S i, Some (dropCR (firstn i data)))","(i, Some (dropCR (firstn i data)))","newline not consumed",["C68"],"endless empty lines")
m(F,"ScanLines","if atEOF then (List.length data, Some (dropCR data)) else (O, None)","(O, None)","last line without newline lost",["C68"],"last line lost")
m(F,"skip_seps","skip_seps f data (start + width)","skip_seps f data (start + 1)","multi-byte separators skipped bytewise",["C60"],"sentence starts inside a character")
m(F,"find_sep","find_sep f data (i + width)","find_sep f data (i + 1)","characters stepped over bytewise",["C60"],"separator seen inside a character")
m(F,"scanSentence","((i + width)%nat, Some","((i + 1)%nat, Some","separator consumed by one byte",["C60"],"rest of separator starts the next sentence")
m(F,"scanSentence","if atEOF && (start <? List.length data)%nat","if (start <? List.length data)%nat","incomplete data returned as a sentence",["C60"],"chunk dependent")
m(F,"scanSentence","(List.length data, Some (skipn start data))","(List.length data, Some data)","leading separators kept in the last sentence",["C60"],"separators in sentence")
F="GoogleNGram.v"
m(F,"Join","w ++ 32 :: Join ws'","w ++ Join ws'","no separator",["C59"],"words glued")
m(F,"ngram_line","Join g ++ 9 :: dec c ++ [10]","Join g ++ 9 :: dec c","no newline",["C59"],"lines glued")
m(F,"write_ngram","append_at outs (length g - 1) (ngram_line g c)","append_at outs 0 (ngram_line g c)","all orders into the first file",["C59"],"files mixed")
m(F,"ParseUint32","(digits_val s <? 2 ^ 32)","(digits_val s <? 2 ^ 31)","int32 parse",["C59"],"large counts rejected")
m(F,"parse_line","skipn (S tab) line","skipn tab line","tab kept in the count",["C59"],"unreadable")
m(F,"readNGramVector","t <- read_lines parents [] lines ;; _ <- e ;; Ret t","t <- read_lines parents [] lines ;; Ret t","scanner error ignored",["C59"],"truncated file accepted silently")
m(F,"read_files","read_files n' (vectors ++ [CreatePackedArray tree]) fs","read_files n' (CreatePackedArray tree :: vectors) fs","vectors in reverse",["C59"],"orders mixed")
m(F,"item_less","if snd b <? snd a then true else if snd a =? snd b","if snd a <? snd b then true else if snd a =? snd b","ascending counts",["C69"],"ids follow ascending frequency")
m(F,"tree_insert","else if item_less x y then x :: t else t","else x :: t'","insert replaces",["C69"],"words lost")
m(F,"dictionaryWords","Ret (map fst t)","Ret (map fst (rev t))","dictionary reversed",["C69"],"ids reversed")
m(F,"StoreBinaryLMFromGoogleFormat","ReadNGrams (IndexerGet words table) chunk fuel order files","ReadNGrams (IndexerGet words table) chunk fuel 1 files","only unigrams read",["C69"],"higher counts lost")
m(F,"RetrieveLMFromBinary","en <- IndexerGet words table endSymbol","en <- IndexerGet words table startSymbol","end symbol is the start symbol",["C69"],"end id")
F="Decimal.v"
m(F,"dec_loop","if n / 10 =? 0 then acc","if n / 10 <? 10 then acc","leading digit dropped",["C52","C59"],"numbers truncated")
F="TopK.v"
m(F,"Reset","(topK : Z) : queue := mkQueue topK []","(topK : Z) : queue := mkQueue 1 []","Reset ignores its k",["C38"],"queue keeps one element")
json.dump(M,open("/verif/tools/mutations.json","w"),indent=1)
print(len(M))
