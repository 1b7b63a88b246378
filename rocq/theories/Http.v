(** Model of pkg/suggest/search.go and of the request validation of the HTTP layer
    (internal/http/utils.go, internal/suggest/api, internal/spellchecker/api).
    Definitions only.  Routing, JSON and the net/http server are not modelled;
    strconv.ParseInt is, strconv.ParseFloat is a parameter. *)
From Coq Require Import String.
From Verif Require Import Base GoMap Float64 Metric.
Local Open Scope Z_scope.

(* search.go:10-15 *)
Record config := mkConfig { c_query : bytes; c_topK : Z; c_metric : metric; c_similarity : f64 }.
(* :18-33 *)
Definition NewSearchConfig (query : bytes) (topK : Z) (m : metric) (similarity : f64) : res config :=
  if topK <=? 0 then Fail (ErrOther 1)
  else if fle similarity (S754_zero false) || flt (of_int 1) similarity then Fail (ErrOther 2)
  else Ret (mkConfig query topK m similarity).

(* strconv.ParseUint(s, 10, 64) on the digits: cutoff = maxUint64/10 + 1.  Codes: 10 syntax, 11 range *)
Fixpoint parse_digits (s : bytes) (n : Z) : res Z :=
  match s with
  | [] => Ret n
  | c :: t =>
      if negb ((48 <=? c) && (c <=? 57)) then Fail (ErrOther 10)
      else if (2 ^ 64 - 1) / 10 + 1 <=? n then Fail (ErrOther 11)
      else let n10 := wrap64 (n * 10) in
           let n1 := wrap64 (n10 + (c - 48)) in
           if (n1 <? n10) || (2 ^ 64 - 1 <? n1) then Fail (ErrOther 11) else parse_digits t n1
  end.
Definition ParseUint (s : bytes) : res Z := match s with [] => Fail (ErrOther 10) | _ => parse_digits s 0 end.
(* strconv.ParseInt(s, 10, 0): bitSize 0 is int, 64 bits.  A range error of ParseUint is a
   range error here too *)
Definition ParseInt (s : bytes) : res Z :=
  match s with
  | [] => Fail (ErrOther 10)
  | c :: t =>
      let neg := c =? 45 in
      un <- ParseUint (if (c =? 43) || (c =? 45) then t else s) ;;
      if negb neg && (2 ^ 63 <=? un) then Fail (ErrOther 11)
      else if neg && (2 ^ 63 <? un) then Fail (ErrOther 11)
      else Ret (if neg then - un else un)
  end.

(* utils.go:41-55; [val] is r.FormValue(field) *)
Definition FormIntValue (val : bytes) (defaultVal : Z) : res Z :=
  match val with [] => Ret defaultVal | _ => ParseInt val end.
(* utils.go:11-23 *)
Definition FormTopKValue (val : bytes) (defaultVal : Z) : res Z :=
  v <- FormIntValue val defaultVal ;;
  if v <? 0 then Fail (ErrOther 12) else Ret v.

Section Float.
Context (parse_float : bytes -> option f64).   (* strconv.ParseFloat(val, 64); None is an error *)
(* utils.go:57-71 *)
Definition FormFloatValue (val : bytes) (defaultVal : f64) : res f64 :=
  match val with
  | [] => Ret defaultVal
  | _ => match parse_float val with Some f => Ret f | None => Fail (ErrOther 13) end
  end.
(* utils.go:27-39 *)
Definition FormSimilarityValue (val : bytes) (defaultVal : f64) : res f64 :=
  v <- FormFloatValue val defaultVal ;;
  if flt v (S754_zero false) || flt (of_int 1) v then Fail (ErrOther 14) else Ret v.

(* suggest_handler.go:13-34 *)
Definition metrics : list (bytes * metric) :=
  [(bs "Jaccard", Jaccard); (bs "Cosine", Cosine); (bs "Dice", Dice); (bs "Exact", Exact); (bs "Overlap", Overlap)].
Definition defaultSimilarity : f64 := f_half.
Definition defaultTopK : Z := 5.
(* suggest_handler.go:79-101 *)
Definition buildSearchConfig (query topK_val metric_val similarity_val : bytes) : res config :=
  topK <- FormTopKValue topK_val defaultTopK ;;
  match mget beqb metrics metric_val with
  | None => Fail (ErrOther 15)
  | Some m =>
      similarity <- FormSimilarityValue similarity_val defaultSimilarity ;;
      NewSearchConfig query topK m similarity
  end.
(* predict_handler.go:25-39: what reaches SpellChecker.Predict *)
Definition predict_params (topK_val similarity_val : bytes) : res (Z * f64) :=
  topK <- FormTopKValue topK_val 5 ;;
  similarity <- FormSimilarityValue similarity_val f_half ;;
  Ret (topK, similarity).
End Float.
(* autocomplete_handler.go:25-32: the limit that reaches Service.Autocomplete *)
Definition autocomplete_limit (topK_val : bytes) : res Z := FormTopKValue topK_val defaultTopK.
