(** What the Russian stemmer is to compute, after the published description of the algorithm
    (snowballstem.org/algorithms/russian/stemmer.html), as relations between words.  Endings are
    written as code points; a word is a Go string, so they are matched in UTF-8. *)
From Verif Require Import Base Text AnalysisSpec VGramSpec TextProofs2.
Local Open Scope Z_scope.

Definition text (l : list Z) : bytes := concat (map encode_rune l).
Definition letter (c : Z) : bytes := encode_rune c.

Definition ends (w s : bytes) : Prop := exists p, w = p ++ s.
(* taking the longest of the endings off [w] leaves [p] *)
Definition takes_off (es : list bytes) (s w p : bytes) : Prop :=
  w = p ++ s /\ In s es /\ forall s', In s' es -> ends w s' -> (length s' <= length s)%nat.
Definition removes (es : list bytes) (w p : bytes) : Prop := exists s, takes_off es s w p.
(* endings in two groups; those of the first must follow the letter a or ya *)
Definition removes2 (g1 g2 : list bytes) (w p : bytes) : Prop :=
  exists s, takes_off (g1 ++ g2) s w p /\ (In s g1 -> ends p (letter 1072) \/ ends p (letter 1103)).
(* the second way is tried when the first does not apply *)
Definition or_else (R S : bytes -> bytes -> Prop) (w p : bytes) : Prop := R w p \/ (~ (exists x, R w x)) /\ S w p.
Definition optional (R : bytes -> bytes -> Prop) : bytes -> bytes -> Prop := or_else R eq.
Definition and_then (R S : bytes -> bytes -> Prop) (w p : bytes) : Prop := exists u, R w u /\ S u p.

(** the endings of the published description *)
Definition gerund1 := map text [[1074]; [1074; 1096; 1080]; [1074; 1096; 1080; 1089; 1100]].                      (* в вши вшись *)
Definition gerund2 := map text [[1080; 1074]; [1080; 1074; 1096; 1080]; [1080; 1074; 1096; 1080; 1089; 1100];    (* ив ивши ившись *)
  [1099; 1074]; [1099; 1074; 1096; 1080]; [1099; 1074; 1096; 1080; 1089; 1100]].                                 (* ыв ывши ывшись *)
Definition adjective := map text [[1077; 1077]; [1080; 1077]; [1099; 1077]; [1086; 1077]; [1080; 1084; 1080]; [1099; 1084; 1080]; (* ее ие ые ое ими ыми *)
  [1077; 1081]; [1080; 1081]; [1099; 1081]; [1086; 1081]; [1077; 1084]; [1080; 1084]; [1099; 1084]; [1086; 1084]; (* ей ий ый ой ем им ым ом *)
  [1077; 1075; 1086]; [1086; 1075; 1086]; [1077; 1084; 1091]; [1086; 1084; 1091];                                 (* его ого ему ому *)
  [1080; 1093]; [1099; 1093]; [1091; 1102]; [1102; 1102]; [1072; 1103]; [1103; 1103]; [1086; 1102]; [1077; 1102]]. (* их ых ую юю ая яя ою ею *)
Definition participle1 := map text [[1077; 1084]; [1085; 1085]; [1074; 1096]; [1102; 1097]; [1097]].              (* ем нн вш ющ щ *)
Definition participle2 := map text [[1080; 1074; 1096]; [1099; 1074; 1096]; [1091; 1102; 1097]].                  (* ивш ывш ующ *)
Definition reflexive := map text [[1089; 1103]; [1089; 1100]].                                                    (* ся сь *)
Definition verb1 := map text [[1083; 1072]; [1085; 1072]; [1077; 1090; 1077]; [1081; 1090; 1077]; [1083; 1080]; [1081]; [1083]; [1077; 1084]; [1085]; (* ла на ете йте ли й л ем н *)
  [1083; 1086]; [1085; 1086]; [1077; 1090]; [1102; 1090]; [1085; 1099]; [1090; 1100]; [1077; 1096; 1100]; [1085; 1085; 1086]]. (* ло но ет ют ны ть ешь нно *)
Definition verb2 := map text [[1080; 1083; 1072]; [1099; 1083; 1072]; [1077; 1085; 1072]; [1077; 1081; 1090; 1077]; [1091; 1081; 1090; 1077]; [1080; 1090; 1077]; (* ила ыла ена ейте уйте ите *)
  [1080; 1083; 1080]; [1099; 1083; 1080]; [1077; 1081]; [1091; 1081]; [1080; 1083]; [1099; 1083]; [1080; 1084]; [1099; 1084]; [1077; 1085]; (* или ыли ей уй ил ыл им ым ен *)
  [1080; 1083; 1086]; [1099; 1083; 1086]; [1077; 1085; 1086]; [1103; 1090]; [1091; 1077; 1090]; [1091; 1102; 1090]; [1080; 1090]; [1099; 1090]; (* ило ыло ено ят ует уют ит ыт *)
  [1077; 1085; 1099]; [1080; 1090; 1100]; [1099; 1090; 1100]; [1080; 1096; 1100]; [1091; 1102]; [1102]]. (* ены ить ыть ишь ую ю *)
Definition noun := map text [[1072]; [1077; 1074]; [1086; 1074]; [1080; 1077]; [1100; 1077]; [1077]; [1080; 1103; 1084; 1080]; [1103; 1084; 1080]; [1072; 1084; 1080]; (* а ев ов ие ье е иями ями ами *)
  [1077; 1080]; [1080; 1080]; [1080]; [1080; 1077; 1081]; [1077; 1081]; [1086; 1081]; [1080; 1081]; [1081]; [1080; 1103; 1084]; [1103; 1084]; [1080; 1077; 1084]; (* еи ии и ией ей ой ий й иям ям ием *)
  [1077; 1084]; [1072; 1084]; [1086; 1084]; [1086]; [1091]; [1072; 1093]; [1080; 1103; 1093]; [1103; 1093]; [1099]; [1100]; [1080; 1102]; [1100; 1102]; [1102]; (* ем ам ом о у ах иях ях ы ь ию ью ю *)
  [1080; 1103]; [1100; 1103]; [1103]]. (* ия ья я *)
Definition superlative := map text [[1077; 1081; 1096]; [1077; 1081; 1096; 1077]].  (* ейш ейше *)
Definition derivational := map text [[1086; 1089; 1090]; [1086; 1089; 1090; 1100]]. (* ост ость *)

(** the four steps, on the part of the word after its first vowel (RV) *)
Definition adjectival : bytes -> bytes -> Prop := and_then (removes adjective) (optional (removes2 participle1 participle2)).
Definition step1 : bytes -> bytes -> Prop :=
  or_else (removes2 gerund1 gerund2)
    (and_then (optional (removes reflexive))
       (or_else adjectival (or_else (removes2 verb1 verb2) (optional (removes noun))))).
Definition step2 : bytes -> bytes -> Prop := optional (removes [letter 1080]).      (* и *)
(* only where the ending lies in R2, which starts [p2] bytes into RV *)
Definition step3 (p2 : Z) : bytes -> bytes -> Prop := optional (fun w p => removes derivational w p /\ p2 <= zlen p).
Definition undouble (w p : bytes) : Prop := ends p (letter 1085) /\ w = p ++ letter 1085.   (* нн -> н *)
Definition step4 : bytes -> bytes -> Prop :=
  optional (or_else undouble (or_else (and_then (removes superlative) (optional undouble)) (removes [letter 1100]))).

(** the regions: what follows the first character of a kind, nothing if there is none *)
Fixpoint after (is : Z -> bool) (l : list Z) : list Z :=
  match l with [] => [] | c :: t => if is c then t else after is t end.
Definition vowel (c : Z) : bool := existsb (Z.eqb c) [1072; 1077; 1080; 1086; 1091; 1099; 1101; 1102; 1103].   (* а е и о у ы э ю я *)
(* the replacement character counts neither as a vowel nor as a consonant *)
Definition consonant (c : Z) : bool := negb (vowel c) && negb (c =? RuneError).
Definition RV (l : list Z) : list Z := after vowel l.
Definition R2 (l : list Z) : list Z := after consonant (after vowel (after consonant (RV l))).
Definition no_yo (c : Z) : Z := if c =? 1105 then 1077 else c.     (* ё -> е *)

(* [out] is the stem of the word [w] (a list of characters) *)
Definition stem_of (w : list Z) (out : bytes) : Prop :=
  let l := map no_yo w in
  let keep := text (firstn (length l - length (RV l)) l) in
  exists p, out = keep ++ p /\
    and_then step1 (and_then step2 (and_then (step3 (zlen (text (RV l)) - zlen (text (R2 l)))) step4)) (text (RV l)) p.
