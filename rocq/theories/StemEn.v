(** pkg/analysis/en/algorithm.go (generated by Snowball 2.0.0) and pkg/analysis/en/stop_words.go.
    Same conventions as StemRu.v. *)
From Coq Require Import String.
From Verif Require Import Base Text Snowball.
Local Open Scope Z_scope.

(* en/algorithm.go:9-13 *)
Definition A_0 : list among := [
  Among (bs "arsen") (-1) (-1);
  Among (bs "commun") (-1) (-1);
  Among (bs "gener") (-1) (-1)].
(* en/algorithm.go:15-19 *)
Definition A_1 : list among := [
  Among (bs "'") (-1) 1;
  Among (bs "'s'") 0 1;
  Among (bs "'s") (-1) 1].
(* en/algorithm.go:21-28 *)
Definition A_2 : list among := [
  Among (bs "ied") (-1) 2;
  Among (bs "s") (-1) 3;
  Among (bs "ies") 1 2;
  Among (bs "sses") 1 1;
  Among (bs "ss") 1 (-1);
  Among (bs "us") 1 (-1)].
(* en/algorithm.go:30-44 *)
Definition A_3 : list among := [
  Among (bs "") (-1) 3;
  Among (bs "bb") 0 2;
  Among (bs "dd") 0 2;
  Among (bs "ff") 0 2;
  Among (bs "gg") 0 2;
  Among (bs "bl") 0 1;
  Among (bs "mm") 0 2;
  Among (bs "nn") 0 2;
  Among (bs "pp") 0 2;
  Among (bs "rr") 0 2;
  Among (bs "at") 0 1;
  Among (bs "tt") 0 2;
  Among (bs "iz") 0 1].
(* en/algorithm.go:46-53 *)
Definition A_4 : list among := [
  Among (bs "ed") (-1) 2;
  Among (bs "eed") 0 1;
  Among (bs "ing") (-1) 2;
  Among (bs "edly") (-1) 2;
  Among (bs "eedly") 3 1;
  Among (bs "ingly") (-1) 2].
(* en/algorithm.go:55-80 *)
Definition A_5 : list among := [
  Among (bs "anci") (-1) 3;
  Among (bs "enci") (-1) 2;
  Among (bs "ogi") (-1) 13;
  Among (bs "li") (-1) 15;
  Among (bs "bli") 3 12;
  Among (bs "abli") 4 4;
  Among (bs "alli") 3 8;
  Among (bs "fulli") 3 9;
  Among (bs "lessli") 3 14;
  Among (bs "ousli") 3 10;
  Among (bs "entli") 3 5;
  Among (bs "aliti") (-1) 8;
  Among (bs "biliti") (-1) 12;
  Among (bs "iviti") (-1) 11;
  Among (bs "tional") (-1) 1;
  Among (bs "ational") 14 7;
  Among (bs "alism") (-1) 8;
  Among (bs "ation") (-1) 7;
  Among (bs "ization") 17 6;
  Among (bs "izer") (-1) 6;
  Among (bs "ator") (-1) 7;
  Among (bs "iveness") (-1) 11;
  Among (bs "fulness") (-1) 9;
  Among (bs "ousness") (-1) 10].
(* en/algorithm.go:82-92 *)
Definition A_6 : list among := [
  Among (bs "icate") (-1) 4;
  Among (bs "ative") (-1) 6;
  Among (bs "alize") (-1) 3;
  Among (bs "iciti") (-1) 4;
  Among (bs "ical") (-1) 4;
  Among (bs "tional") (-1) 1;
  Among (bs "ational") 5 2;
  Among (bs "ful") (-1) 5;
  Among (bs "ness") (-1) 5].
(* en/algorithm.go:94-113 *)
Definition A_7 : list among := [
  Among (bs "ic") (-1) 1;
  Among (bs "ance") (-1) 1;
  Among (bs "ence") (-1) 1;
  Among (bs "able") (-1) 1;
  Among (bs "ible") (-1) 1;
  Among (bs "ate") (-1) 1;
  Among (bs "ive") (-1) 1;
  Among (bs "ize") (-1) 1;
  Among (bs "iti") (-1) 1;
  Among (bs "al") (-1) 1;
  Among (bs "ism") (-1) 1;
  Among (bs "ion") (-1) 2;
  Among (bs "er") (-1) 1;
  Among (bs "ous") (-1) 1;
  Among (bs "ant") (-1) 1;
  Among (bs "ent") (-1) 1;
  Among (bs "ment") 15 1;
  Among (bs "ement") 16 1].
(* en/algorithm.go:115-118 *)
Definition A_8 : list among := [
  Among (bs "e") (-1) 1;
  Among (bs "l") (-1) 2].
(* en/algorithm.go:120-129 *)
Definition A_9 : list among := [
  Among (bs "succeed") (-1) (-1);
  Among (bs "proceed") (-1) (-1);
  Among (bs "exceed") (-1) (-1);
  Among (bs "canning") (-1) (-1);
  Among (bs "inning") (-1) (-1);
  Among (bs "earring") (-1) (-1);
  Among (bs "herring") (-1) (-1);
  Among (bs "outing") (-1) (-1)].
(* en/algorithm.go:131-150 *)
Definition A_10 : list among := [
  Among (bs "andes") (-1) (-1);
  Among (bs "atlas") (-1) (-1);
  Among (bs "bias") (-1) (-1);
  Among (bs "cosmos") (-1) (-1);
  Among (bs "dying") (-1) 3;
  Among (bs "early") (-1) 9;
  Among (bs "gently") (-1) 7;
  Among (bs "howe") (-1) (-1);
  Among (bs "idly") (-1) 6;
  Among (bs "lying") (-1) 4;
  Among (bs "news") (-1) (-1);
  Among (bs "only") (-1) 10;
  Among (bs "singly") (-1) 11;
  Among (bs "skies") (-1) 2;
  Among (bs "skis") (-1) 1;
  Among (bs "sky") (-1) (-1);
  Among (bs "tying") (-1) 5;
  Among (bs "ugly") (-1) 8].

(* en/algorithm.go:152-156 *)
Definition G_v : list Z := [17; 65; 16; 1].
Definition G_v_WXY : list Z := [1; 17; 65; 208; 1].
Definition G_valid_LI : list Z := [55; 141; 2].
Definition in_v : env -> res (bool * env) := InGrouping G_v 97 121.
Definition out_v : env -> res (bool * env) := OutGrouping G_v 97 121.
Definition in_v_b : env -> res (bool * env) := InGroupingB G_v 97 121.
Definition out_v_b : env -> res (bool * env) := OutGroupingB G_v 97 121.
Definition out_wxy_b : env -> res (bool * env) := OutGroupingB G_v_WXY 89 121.
Definition in_li_b : env -> res (bool * env) := InGroupingB G_valid_LI 99 116.

(* en/algorithm.go:158-162 *)
Record Context := mkContext { b_Y_found : bool; i_p2 : Z; i_p1 : Z }.
Definition set_Y (b : bool) (c : Context) : Context := mkContext b (i_p2 c) (i_p1 c).

(* "if !env.InGrouping(G_v, 97, 121) { break lab6 }; env.Bra = env.Cursor; if !env.EqS("y") { break lab6 }; env.Ket = env.Cursor"
   (en/algorithm.go:210-218) *)
Definition find_vy (e : env) : res (bool * env) :=
  '(ok, e) <- in_v e ;;
  if negb ok then Ret (false, e) else
  let e := set_Bra (Cursor e) e in
  '(ok, e) <- EqS (bs "y") e ;;
  if ok : bool then Ret (true, set_Ket (Cursor e) e) else Ret (false, e).
(* en/algorithm.go:886-890 *)
Definition find_Y (e : env) : res (bool * env) :=
  let e := set_Bra (Cursor e) e in
  '(ok, e) <- EqS (bs "Y") e ;;
  if ok : bool then Ret (true, set_Ket (Cursor e) e) else Ret (false, e).

(* en/algorithm.go:164-240 *)
Definition r_prelude (e : env) (ctx : Context) : res (env * Context) :=
  let ctx := set_Y false ctx in
  let v_1 := Cursor e in
  let e := set_Bra (Cursor e) e in
  '(ok, e) <- EqS (bs "'") e ;;
  e <- (if ok : bool then SliceDel (set_Ket (Cursor e) e) else Ret e) ;;
  let e := set_Cursor v_1 e in
  let v_2 := Cursor e in
  let e := set_Bra (Cursor e) e in
  '(ok, e) <- EqS (bs "y") e ;;
  '(e, ctx) <- (if ok : bool then e <- SliceFrom (bs "Y") (set_Ket (Cursor e) e) ;; Ret (e, set_Y true ctx) else Ret (e, ctx)) ;;
  let e := set_Cursor v_2 e in
  let v_3 := Cursor e in
  '(found, e) <- repeat_replace find_vy (bs "Y") (fuel_of e) (b_Y_found ctx) e ;;
  Ret (set_Cursor v_3 e, set_Y found ctx).

(* en/algorithm.go:242-325 *)
Definition r_mark_regions (e : env) (ctx : Context) : res (env * Context) :=
  let ctx := mkContext (b_Y_found ctx) (Limit e) (Limit e) in
  let v_1 := Cursor e in
  let v_2 := Cursor e in
  '(among_var, e) <- FindAmong A_0 e ;;
  '(ok, e) <- (if negb (among_var =? 0) then Ret (true, e)
              else '(ok, e) <- go_past in_v (fuel_of e) (set_Cursor v_2 e) ;;
                   if negb ok then Ret (false, e) else go_past out_v (fuel_of e) e) ;;
  if negb ok then Ret (set_Cursor v_1 e, ctx) else
  let ctx := mkContext (b_Y_found ctx) (i_p2 ctx) (Cursor e) in
  '(ok, e) <- go_past in_v (fuel_of e) e ;;
  if negb ok then Ret (set_Cursor v_1 e, ctx) else
  '(ok, e) <- go_past out_v (fuel_of e) e ;;
  if negb ok then Ret (set_Cursor v_1 e, ctx) else
  Ret (set_Cursor v_1 e, mkContext (b_Y_found ctx) (Cursor e) (i_p1 ctx)).

(* en/algorithm.go:327-359 *)
Definition r_shortv (e : env) : res (bool * env) :=
  let v_1 := Limit e - Cursor e in
  '(ok, e) <- out_wxy_b e ;;
  '(ok, e) <- (if ok : bool then in_v_b e else Ret (false, e)) ;;
  '(ok, e) <- (if ok : bool then out_v_b e else Ret (false, e)) ;;
  if ok : bool then Ret (true, e) else
  let e := set_Cursor (Limit e - v_1) e in
  '(ok, e) <- out_v_b e ;;
  if negb ok then Ret (false, e) else
  '(ok, e) <- in_v_b e ;;
  if negb ok then Ret (false, e) else
  Ret (negb (LimitBackward e <? Cursor e), e).

(* en/algorithm.go:361-368, 370-377 *)
Definition r_R1 (e : env) (ctx : Context) : bool := i_p1 ctx <=? Cursor e.
Definition r_R2 (e : env) (ctx : Context) : bool := i_p2 ctx <=? Cursor e.

(* en/algorithm.go:379-455 *)
Definition r_Step_1a (e : env) : res (bool * env) :=
  let v_1 := Limit e - Cursor e in
  let e := set_Ket (Cursor e) e in
  '(among_var, e) <- FindAmongB A_1 e ;;
  e <- (if among_var =? 0 then Ret (set_Cursor (Limit e - v_1) e) else SliceDel (set_Bra (Cursor e) e)) ;;
  let e := set_Ket (Cursor e) e in
  '(among_var, e) <- FindAmongB A_2 e ;;
  if among_var =? 0 then Ret (false, e) else
  let e := set_Bra (Cursor e) e in
  if among_var =? 1 then e <- SliceFrom (bs "ss") e ;; Ret (true, e)
  else if among_var =? 2 then
    let v_2 := Limit e - Cursor e in
    let c := hop_back 2 e in
    if (c <? LimitBackward e) || (Limit e <? c)
    then e <- SliceFrom (bs "ie") (set_Cursor (Limit e - v_2) e) ;; Ret (true, e)
    else e <- SliceFrom (bs "i") (set_Cursor c e) ;; Ret (true, e)
  else if among_var =? 3 then
    if Cursor e <=? LimitBackward e then Ret (false, e) else
    let e := PrevChar e in
    '(ok, e) <- go_past_b in_v_b (fuel_of e) e ;;
    if negb ok then Ret (false, e) else e <- SliceDel e ;; Ret (true, e)
  else Ret (true, e).

(* "var c = env.Cursor; bra, ket := env.Cursor, env.Cursor; env.Insert(bra, ket, "e"); env.Cursor = c" (en/algorithm.go:502-505, 527-530) *)
Definition insert_e (e : env) : res env :=
  let c := Cursor e in
  e <- Insert c c (bs "e") e ;; Ret (set_Cursor c e).

(* en/algorithm.go:457-535 *)
Definition r_Step_1b (e : env) (ctx : Context) : res (bool * env) :=
  let e := set_Ket (Cursor e) e in
  '(among_var, e) <- FindAmongB A_4 e ;;
  if among_var =? 0 then Ret (false, e) else
  let e := set_Bra (Cursor e) e in
  if among_var =? 1 then
    if negb (r_R1 e ctx) then Ret (false, e) else e <- SliceFrom (bs "ee") e ;; Ret (true, e)
  else if among_var =? 2 then
    let v_1 := Limit e - Cursor e in
    '(ok, e) <- go_past_b in_v_b (fuel_of e) e ;;
    if negb ok then Ret (false, e) else
    e <- SliceDel (set_Cursor (Limit e - v_1) e) ;;
    let v_3 := Limit e - Cursor e in
    '(among_var, e) <- FindAmongB A_3 e ;;
    if among_var =? 0 then Ret (false, e) else
    let e := set_Cursor (Limit e - v_3) e in
    if among_var =? 1 then e <- insert_e e ;; Ret (true, e)
    else if among_var =? 2 then
      let e := set_Ket (Cursor e) e in
      if Cursor e <=? LimitBackward e then Ret (false, e) else
      let e := PrevChar e in
      let e := set_Bra (Cursor e) e in
      e <- SliceDel e ;; Ret (true, e)
    else if among_var =? 3 then
      if negb (Cursor e =? i_p1 ctx) then Ret (false, e) else
      let v_4 := Limit e - Cursor e in
      '(ok, e) <- r_shortv e ;;
      if negb ok then Ret (false, e) else
      e <- insert_e (set_Cursor (Limit e - v_4) e) ;; Ret (true, e)
    else Ret (true, e)
  else Ret (true, e).

(* en/algorithm.go:537-572 *)
Definition r_Step_1c (e : env) : res (bool * env) :=
  let e := set_Ket (Cursor e) e in
  let v_1 := Limit e - Cursor e in
  '(ok, e) <- EqSB (bs "y") e ;;
  '(ok, e) <- (if ok : bool then Ret (true, e) else EqSB (bs "Y") (set_Cursor (Limit e - v_1) e)) ;;
  if negb ok then Ret (false, e) else
  let e := set_Bra (Cursor e) e in
  '(ok, e) <- out_v_b e ;;
  if negb ok then Ret (false, e) else
  if negb (LimitBackward e <? Cursor e) then Ret (false, e) else
  e <- SliceFrom (bs "i") e ;; Ret (true, e).

(* en/algorithm.go:574-655 *)
Definition r_Step_2 (e : env) (ctx : Context) : res (bool * env) :=
  let e := set_Ket (Cursor e) e in
  '(among_var, e) <- FindAmongB A_5 e ;;
  if among_var =? 0 then Ret (false, e) else
  let e := set_Bra (Cursor e) e in
  if negb (r_R1 e ctx) then Ret (false, e) else
  let put (s : bytes) := e <- SliceFrom s e ;; Ret (true, e) in
  if among_var =? 1 then put (bs "tion")
  else if among_var =? 2 then put (bs "ence")
  else if among_var =? 3 then put (bs "ance")
  else if among_var =? 4 then put (bs "able")
  else if among_var =? 5 then put (bs "ent")
  else if among_var =? 6 then put (bs "ize")
  else if among_var =? 7 then put (bs "ate")
  else if among_var =? 8 then put (bs "al")
  else if among_var =? 9 then put (bs "ful")
  else if among_var =? 10 then put (bs "ous")
  else if among_var =? 11 then put (bs "ive")
  else if among_var =? 12 then put (bs "ble")
  else if among_var =? 13 then
    '(ok, e) <- EqSB (bs "l") e ;;
    if negb ok then Ret (false, e) else e <- SliceFrom (bs "og") e ;; Ret (true, e)
  else if among_var =? 14 then put (bs "less")
  else if among_var =? 15 then
    '(ok, e) <- in_li_b e ;;
    if negb ok then Ret (false, e) else e <- SliceDel e ;; Ret (true, e)
  else Ret (true, e).

(* en/algorithm.go:657-699 *)
Definition r_Step_3 (e : env) (ctx : Context) : res (bool * env) :=
  let e := set_Ket (Cursor e) e in
  '(among_var, e) <- FindAmongB A_6 e ;;
  if among_var =? 0 then Ret (false, e) else
  let e := set_Bra (Cursor e) e in
  if negb (r_R1 e ctx) then Ret (false, e) else
  let put (s : bytes) := e <- SliceFrom s e ;; Ret (true, e) in
  if among_var =? 1 then put (bs "tion")
  else if among_var =? 2 then put (bs "ate")
  else if among_var =? 3 then put (bs "al")
  else if among_var =? 4 then put (bs "ic")
  else if among_var =? 5 then e <- SliceDel e ;; Ret (true, e)
  else if among_var =? 6 then
    if negb (r_R2 e ctx) then Ret (false, e) else e <- SliceDel e ;; Ret (true, e)
  else Ret (true, e).

(* en/algorithm.go:701-740 *)
Definition r_Step_4 (e : env) (ctx : Context) : res (bool * env) :=
  let e := set_Ket (Cursor e) e in
  '(among_var, e) <- FindAmongB A_7 e ;;
  if among_var =? 0 then Ret (false, e) else
  let e := set_Bra (Cursor e) e in
  if negb (r_R2 e ctx) then Ret (false, e) else
  if among_var =? 1 then e <- SliceDel e ;; Ret (true, e)
  else if among_var =? 2 then
    let v_1 := Limit e - Cursor e in
    '(ok, e) <- EqSB (bs "s") e ;;
    '(ok, e) <- (if ok : bool then Ret (true, e) else EqSB (bs "t") (set_Cursor (Limit e - v_1) e)) ;;
    if negb ok then Ret (false, e) else e <- SliceDel e ;; Ret (true, e)
  else Ret (true, e).

(* en/algorithm.go:742-793 *)
Definition r_Step_5 (e : env) (ctx : Context) : res (bool * env) :=
  let e := set_Ket (Cursor e) e in
  '(among_var, e) <- FindAmongB A_8 e ;;
  if among_var =? 0 then Ret (false, e) else
  let e := set_Bra (Cursor e) e in
  if among_var =? 1 then
    let v_1 := Limit e - Cursor e in
    if r_R2 e ctx then e <- SliceDel e ;; Ret (true, e) else
    let e := set_Cursor (Limit e - v_1) e in
    if negb (r_R1 e ctx) then Ret (false, e) else
    let v_2 := Limit e - Cursor e in
    '(ok, e) <- r_shortv e ;;
    if ok : bool then Ret (false, e) else
    e <- SliceDel (set_Cursor (Limit e - v_2) e) ;; Ret (true, e)
  else if among_var =? 2 then
    if negb (r_R2 e ctx) then Ret (false, e) else
    '(ok, e) <- EqSB (bs "l") e ;;
    if negb ok then Ret (false, e) else e <- SliceDel e ;; Ret (true, e)
  else Ret (true, e).

(* en/algorithm.go:795-807 *)
Definition r_exception2 (e : env) : res (bool * env) :=
  let e := set_Ket (Cursor e) e in
  '(among_var, e) <- FindAmongB A_9 e ;;
  if among_var =? 0 then Ret (false, e) else
  let e := set_Bra (Cursor e) e in
  if LimitBackward e <? Cursor e then Ret (false, e) else Ret (true, e).

(* en/algorithm.go:809-868 *)
Definition r_exception1 (e : env) : res (bool * env) :=
  let e := set_Bra (Cursor e) e in
  '(among_var, e) <- FindAmong A_10 e ;;
  if among_var =? 0 then Ret (false, e) else
  let e := set_Ket (Cursor e) e in
  if Cursor e <? Limit e then Ret (false, e) else
  let put (s : bytes) := e <- SliceFrom s e ;; Ret (true, e) in
  if among_var =? 1 then put (bs "ski")
  else if among_var =? 2 then put (bs "sky")
  else if among_var =? 3 then put (bs "die")
  else if among_var =? 4 then put (bs "lie")
  else if among_var =? 5 then put (bs "tie")
  else if among_var =? 6 then put (bs "idl")
  else if among_var =? 7 then put (bs "gentl")
  else if among_var =? 8 then put (bs "ugli")
  else if among_var =? 9 then put (bs "earli")
  else if among_var =? 10 then put (bs "onli")
  else if among_var =? 11 then put (bs "singl")
  else Ret (true, e).

(* en/algorithm.go:870-909 *)
Definition r_postlude (e : env) (ctx : Context) : res (bool * env) :=
  if negb (b_Y_found ctx) then Ret (false, e) else
  '(_, e) <- repeat_replace find_Y (bs "y") (fuel_of e) false e ;; Ret (true, e).

(* "var v = env.Limit - env.Cursor; r(env, context); env.Cursor = env.Limit - v" *)
Definition do_b (r : env -> res (bool * env)) (e : env) : res env :=
  let v := Limit e - Cursor e in
  '(_, e) <- r e ;; Ret (set_Cursor (Limit e - v) e).

(* en/algorithm.go:911-992 *)
Definition Stem (e : env) : res (bool * env) :=
  let v_1 := Cursor e in
  '(ok, e) <- r_exception1 e ;;
  if ok : bool then Ret (true, e) else
  let e := set_Cursor v_1 e in
  let v_2 := Cursor e in
  let c := hop_fwd 3 e in
  if (c <? 0) || (Limit e <? c) then Ret (true, set_Cursor v_2 e) else
  let e := set_Cursor v_1 (set_Cursor c e) in
  '(e, ctx) <- r_prelude e (mkContext false 0 0) ;;
  '(e, ctx) <- r_mark_regions e ctx ;;
  let e := set_LimitBackward (Cursor e) e in
  let e := set_Cursor (Limit e) e in
  e <- do_b r_Step_1a e ;;
  let v_6 := Limit e - Cursor e in
  '(ok, e) <- r_exception2 e ;;
  e <- (if ok : bool then Ret e else
        let e := set_Cursor (Limit e - v_6) e in
        e <- do_b (fun e => r_Step_1b e ctx) e ;;
        e <- do_b r_Step_1c e ;;
        e <- do_b (fun e => r_Step_2 e ctx) e ;;
        e <- do_b (fun e => r_Step_3 e ctx) e ;;
        e <- do_b (fun e => r_Step_4 e ctx) e ;;
        do_b (fun e => r_Step_5 e ctx) e) ;;
  let e := set_Cursor (LimitBackward e) e in
  let v_13 := Cursor e in
  '(_, e) <- r_postlude e ctx ;;
  Ret (true, set_Cursor v_13 e).

(* en/stop_words.go:6-197 *)
Definition StopWords : list bytes := [
  bs "i"; bs "me"; bs "my"; bs "myself"; bs "we"; bs "our"; bs "ours"; bs "ourselves"; bs "you"; bs "your";
  bs "yours"; bs "yourself"; bs "yourselves"; bs "he"; bs "him"; bs "his"; bs "himself"; bs "she"; bs "her"; bs "hers";
  bs "herself"; bs "it"; bs "its"; bs "itself"; bs "they"; bs "them"; bs "their"; bs "theirs"; bs "themselves"; bs "what";
  bs "which"; bs "who"; bs "whom"; bs "this"; bs "that"; bs "these"; bs "those"; bs "am"; bs "is"; bs "are";
  bs "was"; bs "were"; bs "be"; bs "been"; bs "being"; bs "have"; bs "has"; bs "had"; bs "having"; bs "do";
  bs "does"; bs "did"; bs "doing"; bs "would"; bs "should"; bs "could"; bs "ought"; bs "i'm"; bs "you're"; bs "he's";
  bs "she's"; bs "it's"; bs "we're"; bs "they're"; bs "i've"; bs "you've"; bs "we've"; bs "they've"; bs "i'd"; bs "you'd";
  bs "he'd"; bs "she'd"; bs "we'd"; bs "they'd"; bs "i'll"; bs "you'll"; bs "he'll"; bs "she'll"; bs "we'll"; bs "they'll";
  bs "isn't"; bs "aren't"; bs "wasn't"; bs "weren't"; bs "hasn't"; bs "haven't"; bs "hadn't"; bs "doesn't"; bs "don't"; bs "didn't";
  bs "won't"; bs "wouldn't"; bs "shan't"; bs "shouldn't"; bs "can't"; bs "cannot"; bs "couldn't"; bs "mustn't"; bs "let's"; bs "that's";
  bs "who's"; bs "what's"; bs "here's"; bs "there's"; bs "when's"; bs "where's"; bs "why's"; bs "how's"; bs "a"; bs "an";
  bs "the"; bs "and"; bs "but"; bs "if"; bs "or"; bs "because"; bs "as"; bs "until"; bs "while"; bs "of";
  bs "at"; bs "by"; bs "for"; bs "with"; bs "about"; bs "against"; bs "between"; bs "into"; bs "through"; bs "during";
  bs "before"; bs "after"; bs "above"; bs "below"; bs "to"; bs "from"; bs "up"; bs "down"; bs "in"; bs "out";
  bs "on"; bs "off"; bs "over"; bs "under"; bs "again"; bs "further"; bs "then"; bs "once"; bs "here"; bs "there";
  bs "when"; bs "where"; bs "why"; bs "how"; bs "all"; bs "any"; bs "both"; bs "each"; bs "few"; bs "more";
  bs "most"; bs "other"; bs "some"; bs "such"; bs "no"; bs "nor"; bs "not"; bs "only"; bs "own"; bs "same";
  bs "so"; bs "than"; bs "too"; bs "very"].
