(** pkg/analysis/ru/algorithm.go (generated by Snowball 2.0.0) and pkg/analysis/ru/stop_words.go.
    The labelled loops of the generated code each run once and only serve as jump targets: "break labN"
    is the end of that alternative.  SliceDel and SliceFrom always return true, so the
    "if !env.SliceDel() { return false }" branches are not modelled.  The unused ctx plumbing is left out. *)
From Verif Require Import Base Text Snowball.
Local Open Scope Z_scope.

(* a string literal of \uXXXX escapes: the code points in UTF-8 *)
Definition u8 (l : list Z) : bytes := concat (map encode_rune l).

(* ru/algorithm.go:9-19 *)
Definition A_0 : list among := [
  Among (u8 [1074; 1096; 1080; 1089; 1100]) (-1) 1   (* вшись *);
  Among (u8 [1099; 1074; 1096; 1080; 1089; 1100]) 0 2   (* ывшись *);
  Among (u8 [1080; 1074; 1096; 1080; 1089; 1100]) 0 2   (* ившись *);
  Among (u8 [1074]) (-1) 1   (* в *);
  Among (u8 [1099; 1074]) 3 2   (* ыв *);
  Among (u8 [1080; 1074]) 3 2   (* ив *);
  Among (u8 [1074; 1096; 1080]) (-1) 1   (* вши *);
  Among (u8 [1099; 1074; 1096; 1080]) 6 2   (* ывши *);
  Among (u8 [1080; 1074; 1096; 1080]) 6 2   (* ивши *)].
(* ru/algorithm.go:21-48 *)
Definition A_1 : list among := [
  Among (u8 [1077; 1084; 1091]) (-1) 1   (* ему *);
  Among (u8 [1086; 1084; 1091]) (-1) 1   (* ому *);
  Among (u8 [1099; 1093]) (-1) 1   (* ых *);
  Among (u8 [1080; 1093]) (-1) 1   (* их *);
  Among (u8 [1091; 1102]) (-1) 1   (* ую *);
  Among (u8 [1102; 1102]) (-1) 1   (* юю *);
  Among (u8 [1077; 1102]) (-1) 1   (* ею *);
  Among (u8 [1086; 1102]) (-1) 1   (* ою *);
  Among (u8 [1103; 1103]) (-1) 1   (* яя *);
  Among (u8 [1072; 1103]) (-1) 1   (* ая *);
  Among (u8 [1099; 1077]) (-1) 1   (* ые *);
  Among (u8 [1077; 1077]) (-1) 1   (* ее *);
  Among (u8 [1080; 1077]) (-1) 1   (* ие *);
  Among (u8 [1086; 1077]) (-1) 1   (* ое *);
  Among (u8 [1099; 1084; 1080]) (-1) 1   (* ыми *);
  Among (u8 [1080; 1084; 1080]) (-1) 1   (* ими *);
  Among (u8 [1099; 1081]) (-1) 1   (* ый *);
  Among (u8 [1077; 1081]) (-1) 1   (* ей *);
  Among (u8 [1080; 1081]) (-1) 1   (* ий *);
  Among (u8 [1086; 1081]) (-1) 1   (* ой *);
  Among (u8 [1099; 1084]) (-1) 1   (* ым *);
  Among (u8 [1077; 1084]) (-1) 1   (* ем *);
  Among (u8 [1080; 1084]) (-1) 1   (* им *);
  Among (u8 [1086; 1084]) (-1) 1   (* ом *);
  Among (u8 [1077; 1075; 1086]) (-1) 1   (* его *);
  Among (u8 [1086; 1075; 1086]) (-1) 1   (* ого *)].
(* ru/algorithm.go:50-59 *)
Definition A_2 : list among := [
  Among (u8 [1074; 1096]) (-1) 1   (* вш *);
  Among (u8 [1099; 1074; 1096]) 0 2   (* ывш *);
  Among (u8 [1080; 1074; 1096]) 0 2   (* ивш *);
  Among (u8 [1097]) (-1) 1   (* щ *);
  Among (u8 [1102; 1097]) 3 1   (* ющ *);
  Among (u8 [1091; 1102; 1097]) 4 2   (* ующ *);
  Among (u8 [1077; 1084]) (-1) 1   (* ем *);
  Among (u8 [1085; 1085]) (-1) 1   (* нн *)].
(* ru/algorithm.go:61-64 *)
Definition A_3 : list among := [
  Among (u8 [1089; 1100]) (-1) 1   (* сь *);
  Among (u8 [1089; 1103]) (-1) 1   (* ся *)].
(* ru/algorithm.go:66-113 *)
Definition A_4 : list among := [
  Among (u8 [1099; 1090]) (-1) 2   (* ыт *);
  Among (u8 [1102; 1090]) (-1) 1   (* ют *);
  Among (u8 [1091; 1102; 1090]) 1 2   (* уют *);
  Among (u8 [1103; 1090]) (-1) 2   (* ят *);
  Among (u8 [1077; 1090]) (-1) 1   (* ет *);
  Among (u8 [1091; 1077; 1090]) 4 2   (* ует *);
  Among (u8 [1080; 1090]) (-1) 2   (* ит *);
  Among (u8 [1085; 1099]) (-1) 1   (* ны *);
  Among (u8 [1077; 1085; 1099]) 7 2   (* ены *);
  Among (u8 [1090; 1100]) (-1) 1   (* ть *);
  Among (u8 [1099; 1090; 1100]) 9 2   (* ыть *);
  Among (u8 [1080; 1090; 1100]) 9 2   (* ить *);
  Among (u8 [1077; 1096; 1100]) (-1) 1   (* ешь *);
  Among (u8 [1080; 1096; 1100]) (-1) 2   (* ишь *);
  Among (u8 [1102]) (-1) 2   (* ю *);
  Among (u8 [1091; 1102]) 14 2   (* ую *);
  Among (u8 [1083; 1072]) (-1) 1   (* ла *);
  Among (u8 [1099; 1083; 1072]) 16 2   (* ыла *);
  Among (u8 [1080; 1083; 1072]) 16 2   (* ила *);
  Among (u8 [1085; 1072]) (-1) 1   (* на *);
  Among (u8 [1077; 1085; 1072]) 19 2   (* ена *);
  Among (u8 [1077; 1090; 1077]) (-1) 1   (* ете *);
  Among (u8 [1080; 1090; 1077]) (-1) 2   (* ите *);
  Among (u8 [1081; 1090; 1077]) (-1) 1   (* йте *);
  Among (u8 [1091; 1081; 1090; 1077]) 23 2   (* уйте *);
  Among (u8 [1077; 1081; 1090; 1077]) 23 2   (* ейте *);
  Among (u8 [1083; 1080]) (-1) 1   (* ли *);
  Among (u8 [1099; 1083; 1080]) 26 2   (* ыли *);
  Among (u8 [1080; 1083; 1080]) 26 2   (* или *);
  Among (u8 [1081]) (-1) 1   (* й *);
  Among (u8 [1091; 1081]) 29 2   (* уй *);
  Among (u8 [1077; 1081]) 29 2   (* ей *);
  Among (u8 [1083]) (-1) 1   (* л *);
  Among (u8 [1099; 1083]) 32 2   (* ыл *);
  Among (u8 [1080; 1083]) 32 2   (* ил *);
  Among (u8 [1099; 1084]) (-1) 2   (* ым *);
  Among (u8 [1077; 1084]) (-1) 1   (* ем *);
  Among (u8 [1080; 1084]) (-1) 2   (* им *);
  Among (u8 [1085]) (-1) 1   (* н *);
  Among (u8 [1077; 1085]) 38 2   (* ен *);
  Among (u8 [1083; 1086]) (-1) 1   (* ло *);
  Among (u8 [1099; 1083; 1086]) 40 2   (* ыло *);
  Among (u8 [1080; 1083; 1086]) 40 2   (* ило *);
  Among (u8 [1085; 1086]) (-1) 1   (* но *);
  Among (u8 [1077; 1085; 1086]) 43 2   (* ено *);
  Among (u8 [1085; 1085; 1086]) 43 1   (* нно *)].
(* ru/algorithm.go:115-152 *)
Definition A_5 : list among := [
  Among (u8 [1091]) (-1) 1   (* у *);
  Among (u8 [1103; 1093]) (-1) 1   (* ях *);
  Among (u8 [1080; 1103; 1093]) 1 1   (* иях *);
  Among (u8 [1072; 1093]) (-1) 1   (* ах *);
  Among (u8 [1099]) (-1) 1   (* ы *);
  Among (u8 [1100]) (-1) 1   (* ь *);
  Among (u8 [1102]) (-1) 1   (* ю *);
  Among (u8 [1100; 1102]) 6 1   (* ью *);
  Among (u8 [1080; 1102]) 6 1   (* ию *);
  Among (u8 [1103]) (-1) 1   (* я *);
  Among (u8 [1100; 1103]) 9 1   (* ья *);
  Among (u8 [1080; 1103]) 9 1   (* ия *);
  Among (u8 [1072]) (-1) 1   (* а *);
  Among (u8 [1077; 1074]) (-1) 1   (* ев *);
  Among (u8 [1086; 1074]) (-1) 1   (* ов *);
  Among (u8 [1077]) (-1) 1   (* е *);
  Among (u8 [1100; 1077]) 15 1   (* ье *);
  Among (u8 [1080; 1077]) 15 1   (* ие *);
  Among (u8 [1080]) (-1) 1   (* и *);
  Among (u8 [1077; 1080]) 18 1   (* еи *);
  Among (u8 [1080; 1080]) 18 1   (* ии *);
  Among (u8 [1103; 1084; 1080]) 18 1   (* ями *);
  Among (u8 [1080; 1103; 1084; 1080]) 21 1   (* иями *);
  Among (u8 [1072; 1084; 1080]) 18 1   (* ами *);
  Among (u8 [1081]) (-1) 1   (* й *);
  Among (u8 [1077; 1081]) 24 1   (* ей *);
  Among (u8 [1080; 1077; 1081]) 25 1   (* ией *);
  Among (u8 [1080; 1081]) 24 1   (* ий *);
  Among (u8 [1086; 1081]) 24 1   (* ой *);
  Among (u8 [1103; 1084]) (-1) 1   (* ям *);
  Among (u8 [1080; 1103; 1084]) 29 1   (* иям *);
  Among (u8 [1072; 1084]) (-1) 1   (* ам *);
  Among (u8 [1077; 1084]) (-1) 1   (* ем *);
  Among (u8 [1080; 1077; 1084]) 32 1   (* ием *);
  Among (u8 [1086; 1084]) (-1) 1   (* ом *);
  Among (u8 [1086]) (-1) 1   (* о *)].
(* ru/algorithm.go:154-157 *)
Definition A_6 : list among := [
  Among (u8 [1086; 1089; 1090]) (-1) 1   (* ост *);
  Among (u8 [1086; 1089; 1090; 1100]) (-1) 1   (* ость *)].
(* ru/algorithm.go:159-164 *)
Definition A_7 : list among := [
  Among (u8 [1077; 1081; 1096]) (-1) 1   (* ейш *);
  Among (u8 [1100]) (-1) 3   (* ь *);
  Among (u8 [1077; 1081; 1096; 1077]) (-1) 1   (* ейше *);
  Among (u8 [1085]) (-1) 2   (* н *)].

(* ru/algorithm.go:166 *)
Definition G_v : list Z := [33; 65; 8; 232].
Definition in_v : env -> res (bool * env) := InGrouping G_v 1072 1103.
Definition out_v : env -> res (bool * env) := OutGrouping G_v 1072 1103.

(* ru/algorithm.go:168-171 *)
Record Context := mkContext { i_p2 : Z; i_pV : Z }.

(* ru/algorithm.go:173-243; "break lab0" leaves the marks set so far *)
Definition r_mark_regions (e : env) (ctx : Context) : res (env * Context) :=
  let ctx := mkContext (Limit e) (Limit e) in
  let v_1 := Cursor e in
  '(ok, e) <- go_past in_v (fuel_of e) e ;;
  if negb ok then Ret (set_Cursor v_1 e, ctx) else
  let ctx := mkContext (i_p2 ctx) (Cursor e) in
  '(ok, e) <- go_past out_v (fuel_of e) e ;;
  if negb ok then Ret (set_Cursor v_1 e, ctx) else
  '(ok, e) <- go_past in_v (fuel_of e) e ;;
  if negb ok then Ret (set_Cursor v_1 e, ctx) else
  '(ok, e) <- go_past out_v (fuel_of e) e ;;
  if negb ok then Ret (set_Cursor v_1 e, ctx) else
  Ret (set_Cursor v_1 e, mkContext (Cursor e) (i_pV ctx)).

(* ru/algorithm.go:245-252 *)
Definition r_R2 (e : env) (ctx : Context) : bool := i_p2 ctx <=? Cursor e.

(* "lab0: for { v := env.Limit - env.Cursor; lab1: for { if !env.EqSB(a) { break lab1 }; break lab0 };
   env.Cursor = env.Limit - v; if !env.EqSB(b) { <fail> }; break lab0 }" (ru/algorithm.go:265-280, 324-341, 379-394) *)
Definition a_or_ya (e : env) : res (bool * env) :=
  let v := Limit e - Cursor e in
  '(ok, e) <- EqSB (u8 [1072]) e ;;
  if ok : bool then Ret (true, e) else EqSB (u8 [1103]) (set_Cursor (Limit e - v) e).

(* ru/algorithm.go:254-290 *)
Definition r_perfective_gerund (e : env) : res (bool * env) :=
  let e := set_Ket (Cursor e) e in
  '(among_var, e) <- FindAmongB A_0 e ;;
  if among_var =? 0 then Ret (false, e) else
  let e := set_Bra (Cursor e) e in
  if among_var =? 1 then
    '(ok, e) <- a_or_ya e ;;
    if negb ok then Ret (false, e) else e <- SliceDel e ;; Ret (true, e)
  else if among_var =? 2 then e <- SliceDel e ;; Ret (true, e)
  else Ret (true, e).

(* "env.Ket = env.Cursor; if env.FindAmongB(A, context) == 0 { return false }; env.Bra = env.Cursor; env.SliceDel(); return true":
   the whole of r_adjective (292-304), r_reflexive (354-366) and r_noun (406-418) *)
Definition strip_ending (A : list among) (e : env) : res (bool * env) :=
  let e := set_Ket (Cursor e) e in
  '(among_var, e) <- FindAmongB A e ;;
  if among_var =? 0 then Ret (false, e) else
  let e := set_Bra (Cursor e) e in
  e <- SliceDel e ;; Ret (true, e).
Definition r_adjective : env -> res (bool * env) := strip_ending A_1.
Definition r_reflexive : env -> res (bool * env) := strip_ending A_3.
Definition r_noun : env -> res (bool * env) := strip_ending A_5.

(* ru/algorithm.go:306-352 *)
Definition r_adjectival (e : env) : res (bool * env) :=
  '(ok, e) <- r_adjective e ;;
  if negb ok then Ret (false, e) else
  let v_1 := Limit e - Cursor e in
  let e := set_Ket (Cursor e) e in
  '(among_var, e) <- FindAmongB A_2 e ;;
  if among_var =? 0 then Ret (true, set_Cursor (Limit e - v_1) e) else
  let e := set_Bra (Cursor e) e in
  if among_var =? 1 then
    '(ok, e) <- a_or_ya e ;;
    if negb ok then Ret (true, set_Cursor (Limit e - v_1) e) else e <- SliceDel e ;; Ret (true, e)
  else if among_var =? 2 then e <- SliceDel e ;; Ret (true, e)
  else Ret (true, e).

(* ru/algorithm.go:368-404 *)
Definition r_verb (e : env) : res (bool * env) :=
  let e := set_Ket (Cursor e) e in
  '(among_var, e) <- FindAmongB A_4 e ;;
  if among_var =? 0 then Ret (false, e) else
  let e := set_Bra (Cursor e) e in
  if among_var =? 1 then
    '(ok, e) <- a_or_ya e ;;
    if negb ok then Ret (false, e) else e <- SliceDel e ;; Ret (true, e)
  else if among_var =? 2 then e <- SliceDel e ;; Ret (true, e)
  else Ret (true, e).

(* ru/algorithm.go:420-435 *)
Definition r_derivational (e : env) (ctx : Context) : res (bool * env) :=
  let e := set_Ket (Cursor e) e in
  '(among_var, e) <- FindAmongB A_6 e ;;
  if among_var =? 0 then Ret (false, e) else
  let e := set_Bra (Cursor e) e in
  if negb (r_R2 e ctx) then Ret (false, e) else
  e <- SliceDel e ;; Ret (true, e).

(* ru/algorithm.go:437-475 *)
Definition r_tidy_up (e : env) : res (bool * env) :=
  let e := set_Ket (Cursor e) e in
  '(among_var, e) <- FindAmongB A_7 e ;;
  if among_var =? 0 then Ret (false, e) else
  let e := set_Bra (Cursor e) e in
  if among_var =? 1 then
    e <- SliceDel e ;;
    let e := set_Ket (Cursor e) e in
    '(ok, e) <- EqSB (u8 [1085]) e ;;
    if negb ok then Ret (false, e) else
    let e := set_Bra (Cursor e) e in
    '(ok, e) <- EqSB (u8 [1085]) e ;;
    if negb ok then Ret (false, e) else
    e <- SliceDel e ;; Ret (true, e)
  else if among_var =? 2 then
    '(ok, e) <- EqSB (u8 [1085]) e ;;
    if negb ok then Ret (false, e) else e <- SliceDel e ;; Ret (true, e)
  else if among_var =? 3 then e <- SliceDel e ;; Ret (true, e)
  else Ret (true, e).

(* ru/algorithm.go:496-500: "env.Bra = env.Cursor; if !env.EqS("\u0451") { break lab4 }; env.Ket = env.Cursor" *)
Definition find_yo (e : env) : res (bool * env) :=
  let e := set_Bra (Cursor e) e in
  '(ok, e) <- EqS (u8 [1105]) e ;;
  if ok : bool then Ret (true, set_Ket (Cursor e) e) else Ret (false, e).

(* ru/algorithm.go:530-578, lab5: one of perfective gerund, or an optional reflexive ending and then
   one of adjectival, verb and noun ending; the cursor is left anywhere *)
Definition r_step1 (e : env) : res env :=
  let v_8 := Limit e - Cursor e in
  '(ok, e) <- r_perfective_gerund e ;;
  if ok : bool then Ret e else
  let e := set_Cursor (Limit e - v_8) e in
  let v_9 := Limit e - Cursor e in
  '(ok, e) <- r_reflexive e ;;
  let e := if ok : bool then e else set_Cursor (Limit e - v_9) e in
  let v_10 := Limit e - Cursor e in
  '(ok, e) <- r_adjectival e ;;
  if ok : bool then Ret e else
  let e := set_Cursor (Limit e - v_10) e in
  '(ok, e) <- r_verb e ;;
  if ok : bool then Ret e else
  let e := set_Cursor (Limit e - v_10) e in
  '(ok, e) <- r_noun e ;; Ret e.

(* ru/algorithm.go:477-604 *)
Definition Stem (e : env) : res (bool * env) :=
  let v_1 := Cursor e in
  '(_, e) <- repeat_replace find_yo (u8 [1077]) (fuel_of e) false e ;;
  let e := set_Cursor v_1 e in
  '(e, ctx) <- r_mark_regions e (mkContext 0 0) ;;
  let e := set_LimitBackward (Cursor e) e in
  let e := set_Cursor (Limit e) e in
  if Cursor e <? i_pV ctx then Ret (false, e) else
  let v_6 := LimitBackward e in
  let e := set_LimitBackward (i_pV ctx) e in
  let v_7 := Limit e - Cursor e in
  e <- r_step1 e ;;
  let e := set_Cursor (Limit e - v_7) e in
  let v_11 := Limit e - Cursor e in
  let e := set_Ket (Cursor e) e in
  '(ok, e) <- EqSB (u8 [1080]) e ;;
  e <- (if ok : bool then SliceDel (set_Bra (Cursor e) e) else Ret (set_Cursor (Limit e - v_11) e)) ;;
  let v_12 := Limit e - Cursor e in
  '(_, e) <- r_derivational e ctx ;;
  let e := set_Cursor (Limit e - v_12) e in
  let v_13 := Limit e - Cursor e in
  '(_, e) <- r_tidy_up e ;;
  let e := set_Cursor (Limit e - v_13) e in
  let e := set_LimitBackward v_6 e in
  Ret (true, set_Cursor (LimitBackward e) e).

(* ru/stop_words.go:6-166 *)
Definition StopWords : list bytes := [
  u8 [1080]; u8 [1074]; u8 [1074; 1086]; u8 [1085; 1077]; u8 [1095; 1090; 1086]; u8 [1086; 1085]   (* и в во не что он *);
  u8 [1085; 1072]; u8 [1103]; u8 [1089]; u8 [1089; 1086]; u8 [1082; 1072; 1082]; u8 [1072]   (* на я с со как а *);
  u8 [1090; 1086]; u8 [1074; 1089; 1077]; u8 [1086; 1085; 1072]; u8 [1090; 1072; 1082]; u8 [1077; 1075; 1086]; u8 [1085; 1086]   (* то все она так его но *);
  u8 [1076; 1072]; u8 [1090; 1099]; u8 [1082]; u8 [1091]; u8 [1078; 1077]; u8 [1074; 1099]   (* да ты к у же вы *);
  u8 [1079; 1072]; u8 [1073; 1099]; u8 [1087; 1086]; u8 [1090; 1086; 1083; 1100; 1082; 1086]; u8 [1077; 1077]; u8 [1084; 1085; 1077]   (* за бы по только ее мне *);
  u8 [1073; 1099; 1083; 1086]; u8 [1074; 1086; 1090]; u8 [1086; 1090]; u8 [1084; 1077; 1085; 1103]; u8 [1077; 1097; 1077]; u8 [1085; 1077; 1090]   (* было вот от меня еще нет *);
  u8 [1086]; u8 [1080; 1079]; u8 [1077; 1084; 1091]; u8 [1090; 1077; 1087; 1077; 1088; 1100]; u8 [1082; 1086; 1075; 1076; 1072]; u8 [1076; 1072; 1078; 1077]   (* о из ему теперь когда даже *);
  u8 [1085; 1091]; u8 [1074; 1076; 1088; 1091; 1075]; u8 [1083; 1080]; u8 [1077; 1089; 1083; 1080]; u8 [1091; 1078; 1077]; u8 [1080; 1083; 1080]   (* ну вдруг ли если уже или *);
  u8 [1085; 1080]; u8 [1073; 1099; 1090; 1100]; u8 [1073; 1099; 1083]; u8 [1085; 1077; 1075; 1086]; u8 [1076; 1086]; u8 [1074; 1072; 1089]   (* ни быть был него до вас *);
  u8 [1085; 1080; 1073; 1091; 1076; 1100]; u8 [1086; 1087; 1103; 1090; 1100]; u8 [1091; 1078]; u8 [1074; 1072; 1084]; u8 [1089; 1082; 1072; 1079; 1072; 1083]; u8 [1074; 1077; 1076; 1100]   (* нибудь опять уж вам сказал ведь *);
  u8 [1090; 1072; 1084]; u8 [1087; 1086; 1090; 1086; 1084]; u8 [1089; 1077; 1073; 1103]; u8 [1085; 1080; 1095; 1077; 1075; 1086]; u8 [1077; 1081]; u8 [1084; 1086; 1078; 1077; 1090]   (* там потом себя ничего ей может *);
  u8 [1086; 1085; 1080]; u8 [1090; 1091; 1090]; u8 [1075; 1076; 1077]; u8 [1077; 1089; 1090; 1100]; u8 [1085; 1072; 1076; 1086]; u8 [1085; 1077; 1081]   (* они тут где есть надо ней *);
  u8 [1076; 1083; 1103]; u8 [1084; 1099]; u8 [1090; 1077; 1073; 1103]; u8 [1080; 1093]; u8 [1095; 1077; 1084]; u8 [1073; 1099; 1083; 1072]   (* для мы тебя их чем была *);
  u8 [1089; 1072; 1084]; u8 [1095; 1090; 1086; 1073]; u8 [1073; 1077; 1079]; u8 [1073; 1091; 1076; 1090; 1086]; u8 [1095; 1077; 1083; 1086; 1074; 1077; 1082]; u8 [1095; 1077; 1075; 1086]   (* сам чтоб без будто человек чего *);
  u8 [1088; 1072; 1079]; u8 [1090; 1086; 1078; 1077]; u8 [1089; 1077; 1073; 1077]; u8 [1087; 1086; 1076]; u8 [1078; 1080; 1079; 1085; 1100]; u8 [1073; 1091; 1076; 1077; 1090]   (* раз тоже себе под жизнь будет *);
  u8 [1078]; u8 [1090; 1086; 1075; 1076; 1072]; u8 [1082; 1090; 1086]; u8 [1101; 1090; 1086; 1090]; u8 [1075; 1086; 1074; 1086; 1088; 1080; 1083]; u8 [1090; 1086; 1075; 1086]   (* ж тогда кто этот говорил того *);
  u8 [1087; 1086; 1090; 1086; 1084; 1091]; u8 [1101; 1090; 1086; 1075; 1086]; u8 [1082; 1072; 1082; 1086; 1081]; u8 [1089; 1086; 1074; 1089; 1077; 1084]; u8 [1085; 1080; 1084]; u8 [1079; 1076; 1077; 1089; 1100]   (* потому этого какой совсем ним здесь *);
  u8 [1101; 1090; 1086; 1084]; u8 [1086; 1076; 1080; 1085]; u8 [1087; 1086; 1095; 1090; 1080]; u8 [1084; 1086; 1081]; u8 [1090; 1077; 1084]; u8 [1095; 1090; 1086; 1073; 1099]   (* этом один почти мой тем чтобы *);
  u8 [1085; 1077; 1077]; u8 [1082; 1072; 1078; 1077; 1090; 1089; 1103]; u8 [1089; 1077; 1081; 1095; 1072; 1089]; u8 [1073; 1099; 1083; 1080]; u8 [1082; 1091; 1076; 1072]; u8 [1079; 1072; 1095; 1077; 1084]   (* нее кажется сейчас были куда зачем *);
  u8 [1089; 1082; 1072; 1079; 1072; 1090; 1100]; u8 [1074; 1089; 1077; 1093]; u8 [1085; 1080; 1082; 1086; 1075; 1076; 1072]; u8 [1089; 1077; 1075; 1086; 1076; 1085; 1103]; u8 [1084; 1086; 1078; 1085; 1086]; u8 [1087; 1088; 1080]   (* сказать всех никогда сегодня можно при *);
  u8 [1085; 1072; 1082; 1086; 1085; 1077; 1094]; u8 [1076; 1074; 1072]; u8 [1086; 1073]; u8 [1076; 1088; 1091; 1075; 1086; 1081]; u8 [1093; 1086; 1090; 1100]; u8 [1087; 1086; 1089; 1083; 1077]   (* наконец два об другой хоть после *);
  u8 [1085; 1072; 1076]; u8 [1073; 1086; 1083; 1100; 1096; 1077]; u8 [1090; 1086; 1090]; u8 [1095; 1077; 1088; 1077; 1079]; u8 [1101; 1090; 1080]; u8 [1085; 1072; 1089]   (* над больше тот через эти нас *);
  u8 [1087; 1088; 1086]; u8 [1074; 1089; 1077; 1075; 1086]; u8 [1085; 1080; 1093]; u8 [1082; 1072; 1082; 1072; 1103]; u8 [1084; 1085; 1086; 1075; 1086]; u8 [1088; 1072; 1079; 1074; 1077]   (* про всего них какая много разве *);
  u8 [1089; 1082; 1072; 1079; 1072; 1083; 1072]; u8 [1090; 1088; 1080]; u8 [1101; 1090; 1091]; u8 [1084; 1086; 1103]; u8 [1074; 1087; 1088; 1086; 1095; 1077; 1084]; u8 [1093; 1086; 1088; 1086; 1096; 1086]   (* сказала три эту моя впрочем хорошо *);
  u8 [1089; 1074; 1086; 1102]; u8 [1101; 1090; 1086; 1081]; u8 [1087; 1077; 1088; 1077; 1076]; u8 [1080; 1085; 1086; 1075; 1076; 1072]; u8 [1083; 1091; 1095; 1096; 1077]; u8 [1095; 1091; 1090; 1100]   (* свою этой перед иногда лучше чуть *);
  u8 [1090; 1086; 1084]; u8 [1085; 1077; 1083; 1100; 1079; 1103]; u8 [1090; 1072; 1082; 1086; 1081]; u8 [1080; 1084]; u8 [1073; 1086; 1083; 1077; 1077]; u8 [1074; 1089; 1077; 1075; 1076; 1072]   (* том нельзя такой им более всегда *);
  u8 [1082; 1086; 1085; 1077; 1095; 1085; 1086]; u8 [1074; 1089; 1102]; u8 [1084; 1077; 1078; 1076; 1091]   (* конечно всю между *)].
