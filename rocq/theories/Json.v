(** Model of the JSON text the handlers send: encoding/json's Marshal (standard library) for
    the three shapes of value the handlers give it: []suggest.ResultItem
    (suggest_handler.go:63, autocomplete_handler.go:39; pkg/suggest/service.go:12-17),
    []string (predict_handler.go:46, dict_handler.go:17) and map[string]string
    (home_handler.go:14).  Definitions only.

    Simplified: json copies runs of unescaped bytes with one write; here every character is
    written on its own.  The text of a floating point number (strconv.AppendFloat with the
    shortest digits) is a parameter.  [bf] says whether the release writes the short escapes
    of backspace and form feed (Go 1.22 and later) or their six-character ones. *)
From Coq Require Import String.
From Verif Require Import Base Float64 Text.
Local Open Scope Z_scope.
Local Notation length := List.length.

Section Marshal.
Context (bf : bool) (ftext : f64 -> bytes).

(* encoding/json/encode.go: const hex = "0123456789abcdef" *)
Definition hexdigit (n : Z) : Z := if n <? 10 then 48 + n else 87 + n.
(* encoding/json/tables.go: htmlSafeSet; 34 is the quotation mark, 92 the backslash, 38 60 62
   are & < > *)
Definition htmlSafe (b : Z) : bool :=
  (32 <=? b) && negb ((b =? 34) || (b =? 92) || (b =? 60) || (b =? 62) || (b =? 38)).
(* encode.go: (e *encodeState) string, with escapeHTML, one character: the rune and the bytes
   it was decoded from *)
Definition quote_char (c : Z * bytes) : bytes :=
  let '(r, b) := c in
  if r <? 128 then
    if htmlSafe r then b
    else if (r =? 92) || (r =? 34) then [92; r]
    else if r =? 10 then [92; 110]
    else if r =? 13 then [92; 114]
    else if r =? 9 then [92; 116]
    else if bf && (r =? 8) then [92; 98]
    else if bf && (r =? 12) then [92; 102]
    else [92; 117; 48; 48; hexdigit (Z.shiftr r 4); hexdigit (Z.land r 15)]
  else if (r =? RuneError) && (length b =? 1)%nat then [92; 117; 102; 102; 102; 100]
  else if (r =? 8232) || (r =? 8233) then [92; 117; 50; 48; 50; hexdigit (Z.land r 15)]
  else b.
Definition quote (s : bytes) : bytes := 34 :: concat (map quote_char (runes s)) ++ [34].

(* encode.go: arrayEncoder.encode: [ elements separated by commas ] *)
Fixpoint commas (l : list bytes) : bytes :=
  match l with [] => [] | [x] => x | x :: t => x ++ 44 :: commas t end.
Definition array (l : list bytes) : bytes := 91 :: commas l ++ [93].
(* encode.go: structEncoder.encode on ResultItem: its two fields in declaration order under
   their own names (service.go:12-17 has no tags) *)
Definition item_text (it : f64 * bytes) : bytes :=
  123 :: quote (bs "Score") ++ 58 :: ftext (fst it) ++ 44 :: quote (bs "Value") ++ 58 :: quote (snd it) ++ [125].
(* encode.go: floatEncoder.encode refuses the infinities and NaN (UnsupportedValueError) *)
Definition json_number (x : f64) : bool := match x with S754_infinity _ | S754_nan => false | _ => true end.

(* json.Marshal([]ResultItem); the handlers' slices are never nil (service.go:128, :166) *)
Definition MarshalItems (items : list (f64 * bytes)) : res bytes :=
  if forallb (fun it => json_number (fst it)) items then Ret (array (map item_text items)) else Fail (ErrOther 70).
(* json.Marshal([]string); never nil (spellchecker.go:44, :171; service.go:96) *)
Definition MarshalStrings (l : list bytes) : res bytes := Ret (array (map quote l)).
(* json.Marshal(map[string]string) of home_handler.go:14-17: keys sorted *)
Definition MarshalHome (project version : bytes) : res bytes :=
  Ret (123 :: quote (bs "project") ++ 58 :: quote project ++ 44 :: quote (bs "version") ++ 58 :: quote version ++ [125]).
End Marshal.
