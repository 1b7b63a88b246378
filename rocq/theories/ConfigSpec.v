(** What a configuration says, in terms of the JSON value it is (JsonSpec.v), independent of
    the decoder. *)
From Coq Require Import String.
From Verif Require Import Base Text JsonSpec Paths Config.
Local Open Scope Z_scope.

(** Names are compared up to the case of letters; the Kelvin sign is a K, the long s an S. *)
Definition small (c : Z) : Z := if (65 <=? c) && (c <=? 90) then c + 32 else if c =? 8490 then 107 else if c =? 383 then 115 else c.
Definition named (name : bytes) (key : list Z) : Prop := map small key = map small name.
Definition named_dec name key : {named name key} + {~ named name key} := list_eq_dec Z.eq_dec _ _.
(** the member of that name; null is as good as none *)
Definition says (o : list (list Z * json)) (name : bytes) : option json :=
  match find (fun m => if named_dec name (fst m) then true else false) o with
  | Some (_, JNull) | None => None
  | Some (_, j) => Some j
  end.
(** a text: empty if nothing is said, nothing else than a string will do *)
Definition text_of (o : option json) : option bytes :=
  match o with None | Some JNull => Some [] | Some (JString c) => Some (utf8 c) | Some _ => None end.
(** an integer: 0 if nothing is said; digits, perhaps after a minus, in the range *)
Fixpoint digits_value (acc : Z) (s : bytes) : option Z :=
  match s with [] => Some acc | c :: t => if is_dig c then digits_value (10 * acc + (c - 48)) t else None end.
Definition integer_value (signed : bool) (s : bytes) : option Z :=
  match s with
  | c :: t => if c =? 45 then (if signed then match t with [] => None | _ => option_map Z.opp (digits_value 0 t) end else None) else digits_value 0 s
  | [] => None
  end.
Definition integer_of (low high : Z) (o : option json) : option Z :=
  match o with
  | None => Some 0
  | Some (JNumber t) => match integer_value (low <? 0) t with Some n => if (low <=? n) && (n <=? high) then Some n else None | None => None end
  | Some _ => None
  end.
(** a list of texts *)
Definition texts_of (o : option json) : option (list bytes) :=
  match o with None => Some [] | Some (JArray l) => all_of (fun j => text_of (Some j)) l | Some _ => None end.
(** two texts: the first two of a list *)
Definition pair_of (o : option json) : option (bytes * bytes) :=
  match o with
  | None => Some ([], [])
  | Some (JArray l) => match text_of (nth_error l 0), text_of (nth_error l 1) with Some a, Some b => Some (a, b) | _, _ => None end
  | Some _ => None
  end.

(** A description of an index, and of a language model. *)
Definition members (j : json) : option (list (list Z * json)) := match j with JNull => Some [] | JObject l => Some l | _ => None end.
Definition described (base : bytes) (j : json) : option IndexDescription :=
  match members j with
  | None => None
  | Some o =>
      match text_of (says o (bs "driver")), text_of (says o (bs "name")), integer_of (- 2 ^ 63) (2 ^ 63 - 1) (says o (bs "nGramSize")),
            text_of (says o (bs "source")), text_of (says o (bs "output")), texts_of (says o (bs "alphabet")), text_of (says o (bs "pad")), pair_of (says o (bs "wrap")) with
      | Some d, Some n, Some k, Some s, Some out, Some a, Some p, Some w => Some (mkIndexDescription d n k s out a p w base)
      | _, _, _, _, _, _, _, _ => None
      end
  end.
Definition configured (base : bytes) (j : json) : option (list IndexDescription) :=
  match j with JNull => Some [] | JArray l => all_of (described base) l | _ => None end.
Definition model_described (base : bytes) (j : json) : option ModelConfig :=
  match members j with
  | None => None
  | Some o =>
      match text_of (says o (bs "name")), integer_of 0 255 (says o (bs "nGramOrder")), text_of (says o (bs "source")), text_of (says o (bs "output")),
            texts_of (says o (bs "alphabet")), texts_of (says o (bs "separators")), text_of (says o (bs "startSymbol")), text_of (says o (bs "endSymbol")) with
      | Some n, Some k, Some s, Some out, Some a, Some sep, Some st, Some e => Some (mkModelConfig n k s out a sep st e base)
      | _, _, _, _, _, _, _, _ => None
      end
  end.

(** No member of an object is named twice. *)
Fixpoint distinct_names (o : list (list Z * json)) : Prop :=
  match o with [] => True | (k, _) :: t => (forall k' j, In (k', j) t -> map small k' <> map small k) /\ distinct_names t end.
Definition plain_config (j : json) : Prop :=
  match j with
  | JObject o => distinct_names o
  | JArray l => Forall (fun e => match e with JObject o => distinct_names o | _ => True end) l
  | _ => True
  end.
(** A text without escapes of the form backslash, u and four hexadecimal digits. *)
Definition no_escapes (s : bytes) : Prop := forall a b, s <> a ++ 92 :: 117 :: b.
