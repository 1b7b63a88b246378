(** Model of reading a configuration: pkg/suggest/config.go:24-35, 83-112 and
    pkg/lm/config.go:13-24, 64-89, with encoding/json's Unmarshal.  Definitions only.

    Simplified: the scanner's state machine with its stack of states is a recursive descent
    over the same grammar (the text is first scanned as a whole, then decoded; here the scan
    builds a tree and the decoder walks the tree).  go.mod asks for Go 1.13, which has no limit
    on the nesting; later versions refuse texts nested deeper than 10000. *)
From Coq Require Import String.
From Verif Require Import Base GoMap Text Http Paths.
Local Open Scope Z_scope.
Local Notation length := List.length.

(** ** encoding/json: the scanner *)
Inductive gvalue :=
| GNull | GBool (b : bool)
| GNumber (text : bytes)
| GString (s : bytes)
| GArray (l : list gvalue)
| GObject (l : list (bytes * gvalue)).

(* isSpace *)
Fixpoint spaces (s : bytes) : bytes :=
  match s with
  | c :: t => if (c =? 32) || (c =? 9) || (c =? 13) || (c =? 10) then spaces t else s
  | [] => []
  end.
Definition is_hex (c : Z) : bool := (48 <=? c) && (c <=? 57) || (97 <=? c) && (c <=? 102) || (65 <=? c) && (c <=? 70).
(* stateInStringEsc: b f n r t, backslash, slash, quotation mark *)
Definition is_esc (c : Z) : bool :=
  (c =? 98) || (c =? 102) || (c =? 110) || (c =? 114) || (c =? 116) || (c =? 92) || (c =? 47) || (c =? 34).
Definition and_then (l : bytes) (o : option (bytes * bytes)) : option (bytes * bytes) :=
  match o with Some (a, r) => Some (l ++ a, r) | None => None end.
(* stateInString, stateInStringEsc, stateInStringEscU...: the text between the quotation marks
   and what is behind them *)
Fixpoint scan_string (s : bytes) : option (bytes * bytes) :=
  match s with
  | [] => None
  | c :: t =>
      if c =? 34 then Some ([], t)
      else if c =? 92 then
        match t with
        | [] => None
        | e :: t1 =>
            if is_esc e then and_then [c; e] (scan_string t1)
            else if e =? 117 then
              match t1 with
              | h1 :: h2 :: h3 :: h4 :: t2 => if is_hex h1 && is_hex h2 && is_hex h3 && is_hex h4 then and_then [c; e; h1; h2; h3; h4] (scan_string t2) else None
              | _ => None
              end
            else None
        end
      else if c <? 32 then None else and_then [c] (scan_string t)
  end.
(* getu4 *)
Definition hex_digit (c : Z) : Z := if c <=? 57 then c - 48 else if 97 <=? c then c - 97 + 10 else c - 65 + 10.
Definition getu4 (s : bytes) : Z :=
  match s with
  | b :: u :: h1 :: h2 :: h3 :: h4 :: _ =>
      if negb (b =? 92) || negb (u =? 117) then -1
      else if is_hex h1 && is_hex h2 && is_hex h3 && is_hex h4
      then fold_left (fun r c => r * 16 + hex_digit c) [h1; h2; h3; h4] 0 else -1
  | _ => -1
  end.
(* utf16.IsSurrogate, utf16.DecodeRune *)
Definition is_surrogate (r : Z) : bool := (55296 <=? r) && (r <? 57344).
Definition utf16_decode (r1 r2 : Z) : Z :=
  if (55296 <=? r1) && (r1 <? 56320) && (56320 <=? r2) && (r2 <? 57344) then (r1 - 55296) * 1024 + (r2 - 56320) + 65536 else RuneError.
Definition esc_byte (e : Z) : Z := if e =? 98 then 8 else if e =? 102 then 12 else if e =? 110 then 10 else if e =? 114 then 13 else if e =? 116 then 9 else e.
(* unquoteBytes; each round takes at least one byte *)
Fixpoint unquote_fuel (fuel : nat) (s : bytes) : bytes :=
  match fuel, s with
  | S f, c :: t =>
      if c =? 92 then
        match t with
        | e :: t1 =>
            if e =? 117 then
              let rr := getu4 s in
              let s' := skipn 6 s in
              if is_surrogate rr then
                let dec := utf16_decode rr (getu4 s') in
                if negb (dec =? RuneError) then encode_rune dec ++ unquote_fuel f (skipn 6 s') else encode_rune RuneError ++ unquote_fuel f s'
              else encode_rune rr ++ unquote_fuel f s'
            else esc_byte e :: unquote_fuel f t1
        | [] => []
        end
      else if c <? 128 then c :: unquote_fuel f t
      else let '(r, w) := decode_rune s in encode_rune r ++ unquote_fuel f (skipn w s)
  | _, _ => []
  end.
Definition unquote (s : bytes) : bytes := unquote_fuel (length s) s.

(* stateNeg, state0, state1, stateDot, stateDot0, stateE, stateESign, stateE0: the text of the
   number and what is behind it *)
Definition is_digit (c : Z) : bool := (48 <=? c) && (c <=? 57).
Fixpoint scan_digits (k : bytes -> option (bytes * bytes)) (s : bytes) : option (bytes * bytes) :=
  match s with c :: t => if is_digit c then and_then [c] (scan_digits k t) else k s | [] => k [] end.
Definition one_digit (k : bytes -> option (bytes * bytes)) (s : bytes) : option (bytes * bytes) :=
  match s with c :: t => if is_digit c then and_then [c] (scan_digits k t) else None | [] => None end.
Definition scan_end (s : bytes) : option (bytes * bytes) := Some ([], s).
Definition state_e_sign (s : bytes) : option (bytes * bytes) := one_digit scan_end s.
Definition state_e (s : bytes) : option (bytes * bytes) :=
  match s with c :: t => if (c =? 43) || (c =? 45) then and_then [c] (state_e_sign t) else state_e_sign s | [] => None end.
Definition state_exp (s : bytes) : option (bytes * bytes) :=
  match s with c :: t => if (c =? 101) || (c =? 69) then and_then [c] (state_e t) else scan_end s | [] => scan_end [] end.
Definition state_0 (s : bytes) : option (bytes * bytes) :=
  match s with c :: t => if c =? 46 then and_then [c] (one_digit state_exp t) else state_exp s | [] => scan_end [] end.
Definition state_neg (s : bytes) : option (bytes * bytes) :=
  match s with c :: t => if c =? 48 then and_then [c] (state_0 t) else if is_digit c then and_then [c] (scan_digits state_0 t) else None | [] => None end.
Definition scan_number (s : bytes) : option (bytes * bytes) :=
  match s with c :: t => if c =? 45 then and_then [c] (state_neg t) else state_neg s | [] => None end.

Fixpoint scan_word (word s : bytes) : option bytes :=
  match word, s with
  | [], _ => Some s
  | w :: ws, c :: t => if w =? c then scan_word ws t else None
  | _ :: _, [] => None
  end.
Definition begins (c : Z) (s : bytes) : bool := match s with x :: _ => x =? c | [] => false end.

(* stateBeginValue with the stack of parseArrayValue, parseObjectKey, parseObjectValue *)
Fixpoint scan_value (fuel : nat) (s : bytes) : option (gvalue * bytes) :=
  match fuel with
  | O => None
  | S f =>
      match spaces s with
      | [] => None
      | c :: t =>
          if c =? 123 then
            (if begins 125 (spaces t) then Some (GObject [], tl (spaces t))
             else match scan_members f t with Some (l, r) => Some (GObject l, r) | None => None end)
          else if c =? 91 then
            (if begins 93 (spaces t) then Some (GArray [], tl (spaces t))
             else match scan_elements f t with Some (l, r) => Some (GArray l, r) | None => None end)
          else if c =? 34 then match scan_string t with Some (q, r) => Some (GString (unquote q), r) | None => None end
          else if c =? 116 then match scan_word (bs "true") (c :: t) with Some r => Some (GBool true, r) | None => None end
          else if c =? 102 then match scan_word (bs "false") (c :: t) with Some r => Some (GBool false, r) | None => None end
          else if c =? 110 then match scan_word (bs "null") (c :: t) with Some r => Some (GNull, r) | None => None end
          else match scan_number (c :: t) with Some (n, r) => Some (GNumber n, r) | None => None end
      end
  end
with scan_elements (fuel : nat) (s : bytes) : option (list gvalue * bytes) :=
  match fuel with
  | O => None
  | S f =>
      match scan_value f s with
      | Some (v, r) =>
          if begins 44 (spaces r) then match scan_elements f (tl (spaces r)) with Some (l, e) => Some (v :: l, e) | None => None end
          else if begins 93 (spaces r) then Some ([v], tl (spaces r)) else None
      | None => None
      end
  end
with scan_members (fuel : nat) (s : bytes) : option (list (bytes * gvalue) * bytes) :=
  match fuel with
  | O => None
  | S f =>
      if begins 34 (spaces s) then
        match scan_string (tl (spaces s)) with
        | Some (q, r) =>
            if begins 58 (spaces r) then
              match scan_value f (tl (spaces r)) with
              | Some (v, r2) =>
                  if begins 44 (spaces r2) then match scan_members f (tl (spaces r2)) with Some (l, e) => Some ((unquote q, v) :: l, e) | None => None end
                  else if begins 125 (spaces r2) then Some ([(unquote q, v)], tl (spaces r2)) else None
              | None => None
              end
            else None
        | None => None
        end
      else None
  end.
(* checkValid and the tree; each step into a value takes at most two rounds per byte *)
Definition scan (data : bytes) : option gvalue :=
  match scan_value (2 * length data + 2) data with
  | Some (v, r) => match spaces r with [] => Some v | _ => None end
  | None => None
  end.

(** ** encoding/json: the decoder, for the types the configurations have *)
(* string; an integer type with its range; []string; [2]string *)
Inductive ftype := TString | TInt (low high : Z) | TStrings | TPair.
(* a slice: its length and all cells up to its capacity *)
Inductive fvalue := FString (s : bytes) | FInt (n : Z) | FStrings (len : nat) (cells : list bytes) | FPair (a b : bytes).
Definition zero (t : ftype) : fvalue :=
  match t with TString => FString [] | TInt _ _ => FInt 0 | TStrings => FStrings 0 [] | TPair => FPair [] [] end.
(* a struct type: the names in the tags, in order *)
Definition stype := list (bytes * ftype).

(* literalStore, array, object on a string; the flag: an UnmarshalTypeError was saved *)
Definition store_string (old : bytes) (v : gvalue) : bytes * bool :=
  match v with GNull => (old, false) | GString s => (s, false) | _ => (old, true) end.
(* literalStore on an integer: ParseInt(s, 10, 64) and OverflowInt, or ParseUint and
   OverflowUint (which knows no sign) *)
Definition parse_int (low : Z) (t : bytes) : res Z := if 0 <=? low then ParseUint t else ParseInt t.
Definition store_int (low high old : Z) (v : gvalue) : Z * bool :=
  match v with
  | GNull => (old, false)
  | GNumber t => match parse_int low t with Ret n => if (low <=? n) && (n <=? high) then (n, false) else (old, true) | _ => (old, true) end
  | _ => (old, true)
  end.
(* array: the cells of the slice are reused, null leaves a cell as it is *)
Definition set_cell (cells : list bytes) (i : nat) (s : bytes) : list bytes := firstn i cells ++ s :: skipn (S i) cells.
Definition grown (i len : nat) (cells : list bytes) : list bytes :=
  if (i <? length cells)%nat then cells
  else let cap := (length cells + length cells / 2)%nat in
       let cap := if (cap <? 4)%nat then 4%nat else cap in
       firstn len cells ++ repeat [] (cap - len).
Fixpoint store_cells (i len : nat) (cells : list bytes) (l : list gvalue) : nat * nat * list bytes * bool :=
  match l with
  | [] => (i, len, cells, false)
  | v :: t =>
      let cells1 := grown i len cells in
      let len1 := Nat.max len (S i) in
      let '(s, e) := store_string (nth i cells1 []) v in
      let '(n, len2, cells2, e2) := store_cells (S i) len1 (set_cell cells1 i s) t in
      (n, len2, cells2, e || e2)
  end.
Definition store_strings (len : nat) (cells : list bytes) (v : gvalue) : fvalue * bool :=
  match v with
  | GNull => (FStrings 0 [], false)
  | GArray l =>
      let '(n, len1, cells1, e) := store_cells 0 len cells l in
      ((if (n =? 0)%nat then FStrings 0 [] else FStrings n cells1), e)
  | _ => (FStrings len cells, true)
  end.
(* array, on an array of two: further elements are skipped, missing ones are made zero *)
Definition store_pair (a b : bytes) (v : gvalue) : fvalue * bool :=
  match v with
  | GNull => (FPair a b, false)
  | GArray l =>
      let '(a', e1) := match l with x :: _ => store_string a x | [] => ([], false) end in
      let '(b', e2) := match l with _ :: x :: _ => store_string b x | _ => ([], false) end in
      (FPair a' b', e1 || e2)
  | _ => (FPair a b, true)
  end.
Definition store (t : ftype) (old : fvalue) (v : gvalue) : fvalue * bool :=
  match t, old with
  | TString, FString s => let '(s', e) := store_string s v in (FString s', e)
  | TInt low high, FInt n => let '(n', e) := store_int low high n v in (FInt n', e)
  | TStrings, FStrings len cells => store_strings len cells v
  | TPair, FPair a b => store_pair a b v
  | _, _ => (old, true)
  end.

(* fold.go: letters up to case; K also as the Kelvin sign (E2 84 AA), S as the long s (C5 BF) *)
Definition lower_ascii (c : Z) : Z := if (65 <=? c) && (c <=? 90) then c + 32 else c.
Fixpoint equal_fold (name key : bytes) : bool :=
  match name, key with
  | [], [] => true
  | n :: ns, k :: ks =>
      if k <? 128 then (lower_ascii n =? lower_ascii k) && equal_fold ns ks
      else match ks with
           | k2 :: ks2 =>
               if (k =? 197) && (k2 =? 191) then (lower_ascii n =? 115) && equal_fold ns ks2
               else match ks2 with
                    | k3 :: ks3 => if (k =? 226) && (k2 =? 132) && (k3 =? 170) then (lower_ascii n =? 107) && equal_fold ns ks3 else false
                    | [] => false
                    end
           | [] => false
           end
  | _, _ => false
  end.
(* decode.go object: the field of that very name, otherwise the first one up to case *)
Fixpoint first_index {A} (p : A -> bool) (i : nat) (l : list A) : option nat :=
  match l with [] => None | x :: t => if p x then Some i else first_index p (S i) t end.
Definition field_of (T : stype) (key : bytes) : option nat :=
  match first_index (fun ft => beqb (fst ft) key) 0 T with
  | Some i => Some i
  | None => first_index (fun ft => equal_fold (fst ft) key) 0 T
  end.
Definition set_field (i : nat) (v : fvalue) (l : list fvalue) : list fvalue := firstn i l ++ v :: skipn (S i) l.
Definition store_member (T : stype) (st : list fvalue * bool) (m : bytes * gvalue) : list fvalue * bool :=
  let '(fs, e) := st in
  match field_of T (fst m) with
  | None => (fs, e)
  | Some i =>
      match nth_error T i, nth_error fs i with
      | Some (_, t), Some old => let '(v, e') := store t old (snd m) in (set_field i v fs, e || e')
      | _, _ => (fs, e)
      end
  end.
Definition zeros (T : stype) : list fvalue := map (fun ft => zero (snd ft)) T.
(* object into a struct; null leaves it as it is *)
Definition store_struct (T : stype) (v : gvalue) : list fvalue * bool :=
  match v with
  | GNull => (zeros T, false)
  | GObject l => fold_left (store_member T) l (zeros T, false)
  | _ => (zeros T, true)
  end.
(* Unmarshal into an empty slice of structs: every cell is new *)
Definition unmarshal_list (T : stype) (data : bytes) : res (list (list fvalue)) :=
  match scan data with
  | None => Fail (ErrOther 20)
  | Some GNull => Ret []
  | Some (GArray l) => if existsb (fun v => snd (store_struct T v)) l then Fail (ErrOther 21) else Ret (map (fun v => fst (store_struct T v)) l)
  | Some _ => Fail (ErrOther 21)
  end.
(* Unmarshal into a struct *)
Definition unmarshal_one (T : stype) (data : bytes) : res (list fvalue) :=
  match scan data with
  | None => Fail (ErrOther 20)
  | Some v => if snd (store_struct T v) then Fail (ErrOther 21) else Ret (fst (store_struct T v))
  end.

(** ** The configurations *)
(* suggest/config.go:26-35 *)
Definition index_tags : stype :=
  [(bs "driver", TString); (bs "name", TString); (bs "nGramSize", TInt (- 2 ^ 63) (2 ^ 63 - 1)); (bs "source", TString); (bs "output", TString);
   (bs "alphabet", TStrings); (bs "pad", TString); (bs "wrap", TPair)].
Record IndexDescription := mkIndexDescription {
  i_driver : bytes; i_name : bytes; i_ngram : Z; i_source : bytes; i_output : bytes; i_alphabet : list bytes; i_pad : bytes; i_wrap : bytes * bytes; i_base : bytes }.
Definition as_string (o : option fvalue) : bytes := match o with Some (FString s) => s | _ => [] end.
Definition as_int (o : option fvalue) : Z := match o with Some (FInt n) => n | _ => 0 end.
Definition as_strings (o : option fvalue) : list bytes := match o with Some (FStrings len cells) => firstn len cells | _ => [] end.
Definition as_pair (o : option fvalue) : bytes * bytes := match o with Some (FPair a b) => (a, b) | _ => ([], []) end.
Definition index_description (base : bytes) (fs : list fvalue) : IndexDescription :=
  let at_ i := nth_error fs i in
  mkIndexDescription (as_string (at_ 0%nat)) (as_string (at_ 1%nat)) (as_int (at_ 2%nat)) (as_string (at_ 3%nat)) (as_string (at_ 4%nat))
    (as_strings (at_ 5%nat)) (as_string (at_ 6%nat)) (as_pair (at_ 7%nat)) base.
(* suggest/config.go:84-110; [file]: what os.Open and ioutil.ReadAll give *)
Definition ReadConfigs (configPath : bytes) (file : res bytes) : res (list IndexDescription) :=
  data <- file ;;
  configs <- unmarshal_list index_tags data ;;
  Ret (map (index_description (Dir configPath)) configs).

(* lm/config.go:14-24 *)
Definition model_tags : stype :=
  [(bs "name", TString); (bs "nGramOrder", TInt 0 255); (bs "source", TString); (bs "output", TString); (bs "alphabet", TStrings);
   (bs "separators", TStrings); (bs "startSymbol", TString); (bs "endSymbol", TString)].
Record ModelConfig := mkModelConfig {
  m_name : bytes; m_order : Z; m_source : bytes; m_output : bytes; m_alphabet : list bytes; m_separators : list bytes; m_start : bytes; m_end : bytes; m_base : bytes }.
Definition model_config (base : bytes) (fs : list fvalue) : ModelConfig :=
  let at_ i := nth_error fs i in
  mkModelConfig (as_string (at_ 0%nat)) (as_int (at_ 1%nat)) (as_string (at_ 2%nat)) (as_string (at_ 3%nat)) (as_strings (at_ 4%nat)) (as_strings (at_ 5%nat))
    (as_string (at_ 6%nat)) (as_string (at_ 7%nat)) base.
(* lm/config.go:65-88 *)
Definition ReadConfig (configPath : bytes) (file : res bytes) : res ModelConfig :=
  data <- file ;;
  config <- unmarshal_one model_tags data ;;
  Ret (model_config (Dir configPath) config).
