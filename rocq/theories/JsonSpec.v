(** What a client reads: a parser of JSON texts after RFC 8259, independent of the encoder.
    Numbers are kept as their text, strings become their code points. *)
From Coq Require Import Floats.SpecFloat.
From Verif Require Import Base Text Float64.
Local Open Scope Z_scope.

Inductive json :=
| JNull | JTrue | JFalse
| JNumber (text : bytes)
| JString (code_points : list Z)
| JArray (l : list json)
| JObject (l : list (list Z * json)).

(** section 2: insignificant white space *)
Fixpoint skip_ws (s : bytes) : bytes :=
  match s with
  | c :: t => if (c =? 32) || (c =? 9) || (c =? 10) || (c =? 13) then skip_ws t else s
  | [] => []
  end.
(** section 6: numbers: an optional minus; 0 or digits that do not begin with 0; optionally a
    point and digits; optionally e or E, an optional sign and digits *)
Definition is_dig (c : Z) : bool := (48 <=? c) && (c <=? 57).
Fixpoint span (p : Z -> bool) (s : bytes) : bytes * bytes :=
  match s with
  | c :: t => if p c then (c :: fst (span p t), snd (span p t)) else ([], s)
  | [] => ([], [])
  end.
Definition some_digits (s : bytes) : option bytes :=
  match span is_dig s with ([], _) => None | (_, r) => Some r end.
Definition exponent (s : bytes) : bool :=
  match s with
  | [] => true
  | e :: t => if (e =? 101) || (e =? 69)
              then match some_digits (match t with c :: t' => if (c =? 43) || (c =? 45) then t' else t | [] => t end) with Some [] => true | _ => false end
              else false
  end.
Definition fraction (s : bytes) : bool :=
  match s with
  | c :: t => if c =? 46 then match some_digits t with Some r => exponent r | None => false end else exponent s
  | [] => true
  end.
Definition integer (s : bytes) : bool :=
  match s with
  | c :: t => if c =? 48 then fraction t else match some_digits s with Some r => fraction r | None => false end
  | [] => false
  end.
Definition is_number (s : bytes) : bool :=
  match s with c :: t => if c =? 45 then integer t else integer s | [] => false end.
Definition number_char (c : Z) : bool := is_dig c || (c =? 43) || (c =? 45) || (c =? 46) || (c =? 101) || (c =? 69).

(** section 7: strings.  Unescaped: any character but the quotation mark, the backslash and
    the control characters; the text is UTF-8. *)
Definition hexval (c : Z) : option Z :=
  if is_dig c then Some (c - 48) else if (97 <=? c) && (c <=? 102) then Some (c - 87) else if (65 <=? c) && (c <=? 70) then Some (c - 55) else None.
Definition hex4 (s : bytes) : option (Z * bytes) :=
  match s with
  | a :: b :: c :: d :: t =>
      match hexval a, hexval b, hexval c, hexval d with
      | Some a, Some b, Some c, Some d => Some (((a * 16 + b) * 16 + c) * 16 + d, t)
      | _, _, _, _ => None
      end
  | _ => None
  end.
Definition short_escape (c : Z) : option Z :=
  if (c =? 34) || (c =? 92) || (c =? 47) then Some c
  else if c =? 98 then Some 8 else if c =? 102 then Some 12 else if c =? 110 then Some 10
  else if c =? 114 then Some 13 else if c =? 116 then Some 9 else None.
Definition prepend (r : Z) (o : option (list Z * bytes)) : option (list Z * bytes) :=
  match o with Some (l, s) => Some (r :: l, s) | None => None end.
Fixpoint string_body (fuel : nat) (s : bytes) : option (list Z * bytes) :=
  match fuel, s with
  | S f, c :: t =>
      if c =? 34 then Some ([], t)
      else if c =? 92 then
        match t with
        | e :: t1 =>
            match short_escape e with
            | Some r => prepend r (string_body f t1)
            | None =>
                if e =? 117 then
                  match hex4 t1 with
                  | Some (u, t2) =>
                      if (55296 <=? u) && (u <=? 56319) then
                        match t2 with
                        | 92 :: 117 :: t3 =>
                            match hex4 t3 with
                            | Some (v, t4) => if (56320 <=? v) && (v <=? 57343) then prepend (65536 + (u - 55296) * 1024 + (v - 56320)) (string_body f t4) else None
                            | None => None
                            end
                        | _ => None
                        end
                      else if (56320 <=? u) && (u <=? 57343) then None
                      else prepend u (string_body f t2)
                  | None => None
                  end
                else None
            end
        | [] => None
        end
      else if c <? 32 then None
      else let '(r, w) := decode_rune s in
           if (r =? RuneError) && (w =? 1)%nat then None else prepend r (string_body f (skipn w s))
  | _, _ => None
  end.

(** sections 3 to 5: values, objects, arrays *)
Definition literal (word s : bytes) : option bytes :=
  if list_eq_dec Z.eq_dec (firstn (length word) s) word then Some (skipn (length word) s) else None.
Definition number (s : bytes) : option (json * bytes) :=
  let '(t, r) := span number_char s in if is_number t then Some (JNumber t, r) else None.
Fixpoint value (fuel : nat) (s : bytes) : option (json * bytes) :=
  match fuel with
  | O => None
  | S f =>
      match skip_ws s with
      | c :: t =>
          if c =? 34 then match string_body f t with Some (l, r) => Some (JString l, r) | None => None end
          else if c =? 91 then
            match skip_ws t with
            | 93 :: r => Some (JArray [], r)
            | _ => match elements f t with Some (l, r) => Some (JArray l, r) | None => None end
            end
          else if c =? 123 then
            match skip_ws t with
            | 125 :: r => Some (JObject [], r)
            | _ => match members f t with Some (l, r) => Some (JObject l, r) | None => None end
            end
          else match literal [110; 117; 108; 108] (c :: t) with
               | Some r => Some (JNull, r)
               | None => match literal [116; 114; 117; 101] (c :: t) with
                         | Some r => Some (JTrue, r)
                         | None => match literal [102; 97; 108; 115; 101] (c :: t) with
                                   | Some r => Some (JFalse, r)
                                   | None => number (c :: t)
                                   end
                         end
               end
      | [] => None
      end
  end
with elements (fuel : nat) (s : bytes) : option (list json * bytes) :=
  match fuel with
  | O => None
  | S f =>
      match value f s with
      | Some (j, r) =>
          match skip_ws r with
          | 44 :: r' => match elements f r' with Some (l, e) => Some (j :: l, e) | None => None end
          | 93 :: e => Some ([j], e)
          | _ => None
          end
      | None => None
      end
  end
with members (fuel : nat) (s : bytes) : option (list (list Z * json) * bytes) :=
  match fuel with
  | O => None
  | S f =>
      match skip_ws s with
      | 34 :: t =>
          match string_body f t with
          | Some (k, r) =>
              match skip_ws r with
              | 58 :: r' =>
                  match value f r' with
                  | Some (j, r2) =>
                      match skip_ws r2 with
                      | 44 :: r3 => match members f r3 with Some (l, e) => Some ((k, j) :: l, e) | None => None end
                      | 125 :: e => Some ([(k, j)], e)
                      | _ => None
                      end
                  | None => None
                  end
              | _ => None
              end
          | None => None
          end
      | _ => None
      end
  end.
(** A JSON text: one value, white space around it. *)
Definition parse (s : bytes) : option json :=
  match value (2 * length s + 2) s with
  | Some (j, r) => match skip_ws r with [] => Some j | _ => None end
  | None => None
  end.

(** the code points of a text (an invalid byte counts as U+FFFD) and the text of code points *)
Definition code_points (s : bytes) : list Z := map fst (runes s).
Definition utf8 (l : list Z) : bytes := concat (map encode_rune l).

(** What a client makes of a response to a search: the text of the score and the bytes of the
    value of every element; nothing if the response has another form. *)
Definition field (name : bytes) (l : list (list Z * json)) : option json :=
  match find (fun kv => if list_eq_dec Z.eq_dec (fst kv) (code_points name) then true else false) l with Some (_, j) => Some j | None => None end.
Definition read_item (score value : bytes) (j : json) : option (bytes * bytes) :=
  match j with
  | JObject l => match field score l, field value l with Some (JNumber t), Some (JString c) => Some (t, utf8 c) | _, _ => None end
  | _ => None
  end.
Definition read_string (j : json) : option bytes := match j with JString c => Some (utf8 c) | _ => None end.
Fixpoint all_of {A B} (f : A -> option B) (l : list A) : option (list B) :=
  match l with
  | [] => Some []
  | x :: t => match f x, all_of f t with Some y, Some r => Some (y :: r) | _, _ => None end
  end.
Definition read_array {B} (f : json -> option B) (body : bytes) : option (list B) :=
  match parse body with Some (JArray l) => all_of f l | _ => None end.
(** bytes a browser does not take for markup, and no control characters *)
Definition harmless (b : Z) : Prop := 32 <= b /\ b <> 38 /\ b <> 60 /\ b <> 62.

(** A binary64 that stands for a number: neither an infinity nor NaN. *)
Definition finite_score (x : f64) : bool := match x with S754_zero _ | S754_finite _ _ _ => true | S754_infinity _ | S754_nan => false end.
