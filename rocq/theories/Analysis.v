(** Model of pkg/alphabet and pkg/analysis.  Definitions only. *)
From Coq Require Import String.
From Verif Require Import Base GoMap Text.
Local Open Scope Z_scope.

(** ** pkg/alphabet *)
Inductive alphabet :=
| ASeq (lo hi : Z)                 (* sequential_alphabet.go; english, numbers *)
| ASimple (cs : list Z)            (* simple_alphabet.go *)
| ARussian                         (* russian_alphabet.go *)
| AComposite (parts : list alphabet). (* composite_alphabet.go; parts in the order after sort.Slice *)
Fixpoint zrange (lo : Z) (n : nat) : list Z := match n with O => [] | S n' => lo :: zrange (lo + 1) n' end.
(* sequential_alphabet.go:23-25, simple_alphabet.go:24-27, russian_alphabet.go:16-22,
   composite_alphabet.go:35-45 *)
Fixpoint Has (a : alphabet) (c : Z) : bool :=
  match a with
  | ASeq lo hi => (c >=? lo) && (c <=? hi)
  | ASimple cs => existsb (Z.eqb c) cs
  | ARussian => if c =? 1105 then (1077 >=? 1072) && (1077 <=? 1103) else (c >=? 1072) && (c <=? 1103)
  | AComposite l => existsb (fun a => Has a c) l
  end.
(* alphabet.go:38-50 and the constructors *)
Fixpoint Chars (a : alphabet) : list Z :=
  match a with
  | ASeq lo hi => zrange lo (Z.to_nat (hi - lo + 1))
  | ASimple cs => cs
  | ARussian => zrange 1072 (Z.to_nat (1103 - 1072 + 1))
  | AComposite l => concat (map Chars l)
  end.
Definition Size (a : alphabet) : Z := zlen (Chars a).
(* alphabet.go:22-36 CreateAlphabet; [srt] is sort.Slice by Size *)
Definition English := ASeq 97 122.
Definition Numbers := ASeq 48 57.
Definition CreateAlphabet (srt : list alphabet -> list alphabet) (description : list bytes) : alphabet :=
  AComposite (srt (map (fun s =>
    if beqb s (bs "english") then English
    else if beqb s (bs "russian") then ARussian
    else if beqb s (bs "numbers") then Numbers
    else ASimple (map fst (runes s))) description)).

(** ** pkg/analysis/ngram_tokenizer.go *)
Definition maxN : nat := 8.                                  (* :3 *)
(* :46-54 *)
Definition appendUnique (a : list bytes) (x : bytes) : list bytes :=
  if existsb (beqb x) a then a else a ++ [x].
(* i % n: a run-time panic for n = 0 *)
Definition rem (i n : Z) : res Z := if n =? 0 then Panic else Ret (Z.rem i n).
Definition upd (arr : list Z) (k v : Z) : res (list Z) :=
  if (0 <=? k) && (k <? zlen arr) then Ret (firstn (Z.to_nat k) arr ++ v :: skipn (Z.to_nat k + 1) arr) else Panic.
(* :26-36 the loop over the remaining characters: [i] counts them, [index] is the byte
   offset of the next one *)
Fixpoint ngram_loop (n : Z) (text : bytes) (cs : list bytes) (i index_ : Z) (prev : list Z) (result : list bytes)
  : res (Z * list Z * list bytes) :=
  match cs with
  | [] => Ret (i, prev, result)
  | c :: cs' =>
      let i := i + 1 in
      result <- (if i >? n then
                   k <- rem (i - n) n ;;
                   top <- index prev k ;;
                   g <- slice text top index_ ;;
                   Ret (appendUnique result g)
                 else Ret result) ;;
      k <- rem i n ;;
      prev <- upd prev k index_ ;;
      ngram_loop n text cs' i (index_ + zlen c) prev result
  end.
(* :17-43.  make's limit on the capacity (reached only by huge negative sizes) is not
   modelled. *)
Definition NGramTokenize (n : Z) (text : bytes) : res (list bytes) :=
  if zlen text <? n then Ret []
  else
    '(i, prev, result) <- ngram_loop n text (chars text) 0 0 (repeat 0 maxN) [] ;;
    k <- rem (i + 1) n ;;
    top <- index prev k ;;
    g <- slice text top (zlen text) ;;
    Ret (appendUnique result g).

(** ** word_tokenizer.go:22-47 *)
Fixpoint word_loop (has : Z -> bool) (text : bytes) (rs : list (Z * bytes)) (i start len : Z) (words : list bytes)
  : res (Z * Z * list bytes) :=
  match rs with
  | [] => Ret (start, len, words)
  | (r, b) :: rs' =>
      if has r then
        word_loop has text rs' (i + zlen b) (if start =? -1 then i else start) (len + RuneLen r) words
      else
        words <- (if negb (start =? -1) then w <- slice text start (start + len) ;; Ret (words ++ [w]) else Ret words) ;;
        word_loop has text rs' (i + zlen b) (-1) 0 words
  end.
Definition WordTokenize (has : Z -> bool) (text : bytes) : res (list bytes) :=
  '(start, len, words) <- word_loop has text (runes text) 0 (-1) 0 [] ;;
  if negb (start =? -1) then w <- slice text start (start + len) ;; Ret (words ++ [w]) else Ret words.

(** ** normalizer.go:21-37 *)
Definition normalize (has : Z -> bool) (pad token : bytes) : bytes :=
  concat (map (fun rb => if has (fst rb) then encode_rune (fst rb) else pad) (runes token)).
Definition NormalizerFilter (has : Z -> bool) (pad : bytes) (l : list bytes) : list bytes := map (normalize has pad) l.

(** ** stemmer_filter.go:34-49; the snowball stemmer is an oracle here; StemFilter.v has the two stemmers *)
Definition StemmerFilter (stop : list bytes) (stem : bytes -> bytes) (l : list bytes) : list bytes :=
  map stem (filter (fun t => negb (existsb (beqb t) stop)) l).

(** ** filter_tokenizer.go:20-27, wrap_tokenizer.go:18-20; strings.ToLower is an oracle *)
Definition FilterTokenize (lower : bytes -> bytes) (tok : bytes -> res (list bytes)) (flt : list bytes -> list bytes) (text : bytes)
  : res (list bytes) :=
  ts <- tok (Trim (lower text)) ;; Ret (flt ts).
Definition WrapTokenize (tok : bytes -> res (list bytes)) (start end_ : bytes) (text : bytes) : res (list bytes) :=
  tok (start ++ text ++ end_).

(** ** pkg/suggest/tokenizer.go:9-34 *)
Record tokconf := mkTok { t_n : Z; t_has : Z -> bool; t_pad : bytes; t_wrap0 : bytes; t_wrap1 : bytes }.
Definition SuggestTokenize (lower : bytes -> bytes) (d : tokconf) : bytes -> res (list bytes) :=
  WrapTokenize (FilterTokenize lower (NGramTokenize (t_n d)) (NormalizerFilter (t_has d) (t_pad d))) (t_wrap0 d) (t_wrap1 d).
Definition AutocompleteTokenize (lower : bytes -> bytes) (d : tokconf) : bytes -> res (list bytes) :=
  WrapTokenize (FilterTokenize lower (NGramTokenize (t_n d)) (NormalizerFilter (t_has d) (t_pad d))) (t_wrap0 d) [].
