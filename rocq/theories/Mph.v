(** Model of pkg/mph/mph.go, pkg/dictionary/memory_dictionary.go and pkg/lm/indexer.go
    (Get, Find).  Definitions only.

    A dictionary is the list of its words (NewInMemoryDictionary copies it); the key of a
    word is its position. *)
From Coq Require Import String.
From Verif Require Import Base GoMap Store.
Local Open Scope Z_scope.

(** ** In-memory dictionary *)
(* dictionary.go:4-8 *)
Definition NilValue : bytes := bs "<nil/>".
(* memory_dictionary.go:19-25 *)
Definition DictGet (words : list bytes) (key : Z) : bytes :=
  if (key <? 0) || (zlen words <=? key) then NilValue else nth (Z.to_nat key) words NilValue.
(* :28-30 *)
Definition DictSize (words : list bytes) : Z := zlen words.
(* :33-41; Key(key) is uint32 *)
Fixpoint DictIterate_from {S} (f : S -> Z -> bytes -> option err * S) (i : Z) (words : list bytes) (s : S) : option err * S :=
  match words with
  | [] => (None, s)
  | w :: ws => match f s (wrap32 i) w with
               | (Some e, s') => (Some e, s')
               | (None, s') => DictIterate_from f (i + 1) ws s'
               end
  end.
Definition DictIterate {S} (f : S -> Z -> bytes -> option err * S) (words : list bytes) (s : S) : option err * S := DictIterate_from f 0 words s.

(** ** Minimal perfect hash *)
(* mph.go:235-247 *)
Definition hash (h : Z) (value : bytes) : Z :=
  fold_left (fun h c => Z.lxor (wrap32 (h * 16777619)) c) value (if h =? 0 then 2166136261 else h).
(* math.MaxUint32: an unused slot *)
Definition unused : Z := 2 ^ 32 - 1.
(* int32(x) *)
Definition to_i32 (x : Z) : Z := (x + 2 ^ 31) mod 2 ^ 32 - 2 ^ 31.
(* x % size; a run-time panic for 0 *)
Definition modu (x size : Z) : res Z := if size =? 0 then Panic else Ret (x mod size).
(* s[i] = v *)
Definition set_index {A} (l : list A) (i : Z) (v : A) : res (list A) :=
  if (0 <=? i) && (i <? zlen l) then Ret (firstn (Z.to_nat i) l ++ v :: skipn (Z.to_nat i + 1) l) else Panic.
(* :33-36 *)
Record mph := mkMph { auxiliary : list Z; values : list Z }.

(* :46-53 *)
Fixpoint fill (size : Z) (key : Z) (words : list bytes) (buckets : list (list Z)) : res (list (list Z)) :=
  match words with
  | [] => Ret buckets
  | w :: ws =>
      d <- modu (hash 0 w) size ;;
      b <- index buckets d ;;
      buckets' <- set_index buckets d (b ++ [wrap32 key]) ;;
      fill size (key + 1) ws buckets'
  end.
(* :78-96; fuel: iterations *)
Fixpoint find_slots (fuel : nat) (words : list bytes) (size : Z) (vals bucket : list Z) (item d : Z) (slots : list Z) : res (Z * list Z) :=
  match fuel with
  | O => NoFuel
  | S f =>
      if item <? zlen bucket then
        key <- index bucket item ;;
        slot <- modu (hash d (DictGet words key)) size ;;
        v <- index vals slot ;;
        if negb (v =? unused) || existsb (Z.eqb slot) slots
        then find_slots f words size vals bucket 0 (wrap32 (d + 1)) []
        else find_slots f words size vals bucket (item + 1) d (slots ++ [slot])
      else Ret (d, slots)
  end.
(* :106-108 *)
Fixpoint set_values (vals slots bucket : list Z) (i : Z) : res (list Z) :=
  match bucket with
  | [] => Ret vals
  | key :: ks => s <- index slots i ;; vals' <- set_index vals s key ;; set_values vals' slots ks (i + 1)
  end.
(* :68-111: the buckets with several keys; also returns buckets[bucketIter:] *)
Fixpoint place_big (fuel : nat) (words : list bytes) (size : Z) (aux vals : list Z) (buckets : list (list Z)) : res (list Z * list Z * list (list Z)) :=
  match buckets with
  | [] => Ret (aux, vals, [])
  | bucket :: rest =>
      if zlen bucket <=? 1 then Ret (aux, vals, buckets)
      else
        '(d, slots) <- find_slots fuel words size vals bucket 0 1 [] ;;
        k0 <- index bucket 0 ;;
        h <- modu (hash 0 (DictGet words k0)) size ;;
        aux' <- set_index aux h (to_i32 d) ;;
        vals' <- set_values vals slots bucket 0 ;;
        place_big fuel words size aux' vals' rest
  end.
(* :116-122; in reverse: the next free slot first *)
Fixpoint free_slots (i : Z) (vals : list Z) (acc : list Z) : list Z :=
  match vals with
  | [] => acc
  | v :: vs => free_slots (i + 1) vs (if v =? unused then i :: acc else acc)
  end.
(* :124-141 *)
Fixpoint place_one (words : list bytes) (size : Z) (aux vals free : list Z) (buckets : list (list Z)) : res (list Z * list Z) :=
  match buckets with
  | [] => Ret (aux, vals)
  | [] :: _ => Ret (aux, vals)
  | (k :: _) :: rest =>
      match free with
      | [] => Ret (aux, vals)
      | slot :: free' =>
          h <- modu (hash 0 (DictGet words k)) size ;;
          aux' <- set_index aux h (to_i32 (- slot - 1)) ;;
          vals' <- set_index vals slot k ;;
          place_one words size aux' vals' free' rest
      end
  end.
(* :40-145; [srt] is sort.Slice with "has at least as many keys" as less *)
Definition BuildMph (fuel : nat) (srt : list (list Z) -> list (list Z)) (words : list bytes) : res mph :=
  let size := wrap32 (DictSize words) in
  buckets <- fill size 0 words (repeat [] (Z.to_nat size)) ;;
  let buckets := srt buckets in
  '(aux, vals, rest) <- place_big fuel words size (repeat 0 (Z.to_nat size)) (map (fun _ => unused) words) buckets ;;
  '(aux, vals) <- place_one words size aux vals (free_slots 0 vals []) rest ;;
  Ret (mkMph aux vals).
(* :148-156; -d-1 in int32 *)
Definition GetMph (m : mph) (word : bytes) : res Z :=
  i <- modu (hash 0 word) (wrap32 (zlen (auxiliary m))) ;;
  d <- index (auxiliary m) i ;;
  if d <? 0 then index (values m) (to_i32 (to_i32 (- d) - 1))
  else j <- modu (hash (wrap32 d) word) (wrap32 (zlen (values m))) ;; index (values m) j.

(** ** Indexer *)
(* indexer.go:16-21 *)
Definition UnknownWordID : Z := 2 ^ 32 - 1.
Definition UnknownWordSymbol : bytes := bs "<UNK>".
(* :57-70 *)
Definition IndexerGet (words : list bytes) (m : mph) (token : bytes) : res Z :=
  i <- GetMph m token ;;
  Ret (if beqb (DictGet words i) token then i else UnknownWordID).
(* :73-85 *)
Definition IndexerFind (words : list bytes) (i : Z) : bytes :=
  let v := DictGet words i in if beqb v NilValue then UnknownWordSymbol else v.

(** ** Store and Load *)
(* mph.go:159-192 *)
Fixpoint write_all (o : output) (l : list Z) (n : Z) : res (Z * output) :=
  match l with
  | [] => Ret (n, o)
  | v :: t => '(s, o') <- WriteUInt32 o v ;; write_all o' t (n + s)
  end.
Definition StoreMph (m : mph) (o : output) : res (Z * output) :=
  '(n, o) <- WriteUInt32 o (wrap32 (zlen (values m))) ;;
  '(n, o) <- write_all o (values m) n ;;
  '(s, o) <- WriteUInt32 o (wrap32 (zlen (auxiliary m))) ;;
  write_all o (map wrap32 (auxiliary m)) (n + s).
(* :196-227; make of the announced length is taken to succeed.  The errors are wrapped *)
Fixpoint read_all (k : nat) (r : input) : res (list Z) * input :=
  match k with
  | O => (Ret [], r)
  | S k' => match ReadUInt32 r with
            | (Ret v, r') => let '(x, r'') := read_all k' r' in (l <- x ;; Ret (v :: l), r'')
            | (Fail e, r') => (Fail (ErrWrapped e), r')
            | (_, r') => (Panic, r')
            end
  end.
Definition LoadMph (r : input) : res (mph * Z) * input :=
  match ReadUInt32 r with
  | (Ret n, r) =>
      match read_all (Z.to_nat n) r with
      | (Ret vals, r) =>
          match ReadUInt32 r with
          | (Ret s, r) =>
              match read_all (Z.to_nat s) r with
              | (Ret aux, r) => (Ret (mkMph (map to_i32 aux) vals, wrap32 (n + s) * 4 + 8), r)
              | (Fail e, r) => (Fail e, r) | (_, r) => (Panic, r)
              end
          | (Fail e, r) => (Fail (ErrWrapped e), r) | (_, r) => (Panic, r)
          end
      | (Fail e, r) => (Fail e, r) | (_, r) => (Panic, r)
      end
  | (Fail e, r) => (Fail (ErrWrapped e), r) | (_, r) => (Panic, r)
  end.
