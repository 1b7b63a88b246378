(** UTF-8 as Go's [range] over strings and [string(rune)] do it (package unicode/utf8
    of the standard library), and strings.Trim.  Definitions only. *)
From Verif Require Import Base.
Local Open Scope Z_scope.

Definition RuneError : Z := 65533.      (* utf8.RuneError, U+FFFD *)
Definition cont (lo hi b : Z) : bool := (lo <=? b) && (b <=? hi).
Definition c6 (b : Z) : Z := Z.land b 63.
(* utf8.DecodeRuneInString on a non-empty string: the rune and its width; an invalid
   encoding is (RuneError, 1) *)
Definition decode_rune (s : bytes) : Z * nat :=
  let bad := (RuneError, 1%nat) in
  let two a b := (Z.lor (Z.shiftl (Z.land a 31) 6) (c6 b), 2%nat) in
  let three a b c := (Z.lor (Z.shiftl (Z.land a 15) 12) (Z.lor (Z.shiftl (c6 b) 6) (c6 c)), 3%nat) in
  let four a b c d := (Z.lor (Z.shiftl (Z.land a 7) 18) (Z.lor (Z.shiftl (c6 b) 12) (Z.lor (Z.shiftl (c6 c) 6) (c6 d))), 4%nat) in
  match s with
  | [] => (RuneError, 0%nat)
  | a :: s1 =>
      if a <? 128 then (a, 1%nat)
      else if a <? 194 then bad
      else if a <? 224 then
        match s1 with b :: _ => if cont 128 191 b then two a b else bad | _ => bad end
      else if a <? 240 then
        let lo := if a =? 224 then 160 else 128 in
        let hi := if a =? 237 then 159 else 191 in
        match s1 with b :: c :: _ => if cont lo hi b && cont 128 191 c then three a b c else bad | _ => bad end
      else if a <? 245 then
        let lo := if a =? 240 then 144 else 128 in
        let hi := if a =? 244 then 143 else 191 in
        match s1 with
        | b :: c :: d :: _ => if cont lo hi b && cont 128 191 c && cont 128 191 d then four a b c d else bad
        | _ => bad
        end
      else bad
  end.

(** [range] over a string: the runes with the bytes they were decoded from *)
Fixpoint runes_fuel (fuel : nat) (s : bytes) : list (Z * bytes) :=
  match fuel, s with
  | S fuel', _ :: _ =>
      let '(r, w) := decode_rune s in (r, firstn w s) :: runes_fuel fuel' (skipn w s)
  | _, _ => []
  end.
Definition runes (s : bytes) : list (Z * bytes) := runes_fuel (length s) s.
Definition chars (s : bytes) : list bytes := map snd (runes s).

(* utf8.EncodeRune / string(rune) *)
Definition valid_rune (r : Z) : bool := (0 <=? r) && (r <? 55296) || (57343 <? r) && (r <=? 1114111).
Definition encode_rune (r : Z) : bytes :=
  let r := if valid_rune r then r else RuneError in
  if r <? 128 then [r]
  else if r <? 2048 then [Z.lor 192 (Z.shiftr r 6); Z.lor 128 (c6 r)]
  else if r <? 65536 then [Z.lor 224 (Z.shiftr r 12); Z.lor 128 (c6 (Z.shiftr r 6)); Z.lor 128 (c6 r)]
  else [Z.lor 240 (Z.shiftr r 18); Z.lor 128 (c6 (Z.shiftr r 12)); Z.lor 128 (c6 (Z.shiftr r 6)); Z.lor 128 (c6 r)].
(* utf8.RuneLen *)
Definition RuneLen (r : Z) : Z :=
  if r <? 0 then -1
  else if r <? 128 then 1
  else if r <? 2048 then 2
  else if (55296 <=? r) && (r <=? 57343) then -1
  else if r <? 65536 then 3
  else if r <=? 1114111 then 4
  else -1.

(* strings.Trim(s, " ") *)
Fixpoint trim_left (s : bytes) : bytes :=
  match s with 32 :: t => trim_left t | _ => s end.
Definition Trim (s : bytes) : bytes := rev (trim_left (rev (trim_left s))).

(* strings.ToLower = strings.Map(unicode.ToLower, s) (its ASCII fast path gives the
   same result); [lowr] is unicode.ToLower, a table of the standard library that is
   not modelled.  strings.Map re-encodes every rune, so an invalid byte becomes the
   three bytes of U+FFFD. *)
Definition ToLower (lowr : Z -> Z) (s : bytes) : bytes :=
  concat (map (fun rb => encode_rune (lowr (fst rb))) (runes s)).
