(** What the English stemmer is to compute: the published algorithm "Porter2"
    (snowballstem.org/algorithms/english/stemmer.html, Snowball 2.0) as a function on words.
    A word is a Go string; its characters are the pieces of it that start with a byte other than a
    UTF-8 continuation byte, so that the description covers every string, not only valid UTF-8. *)
From Coq Require Import String.
From Verif Require Import Base Text GoMap.
Local Open Scope Z_scope.
Local Notation length := List.length.

Definition continuation (b : Z) : bool := Z.land b 192 =? 128.    (* 10xxxxxx *)
Fixpoint chars (s : bytes) : list bytes :=
  match s with
  | [] => []
  | b :: t =>
      match chars t with
      | ((x :: _) as ch) :: r => if continuation x then (b :: ch) :: r else [b] :: ch :: r
      | r => [b] :: r
      end
  end.
Definition code (ch : bytes) : Z := fst (decode_rune ch).
Definition one_of (s ch : bytes) : bool := existsb (Z.eqb (code ch)) s.
Definition vowel : bytes -> bool := one_of (bs "aeiouy").
(* the replacement character and malformed characters are neither vowels nor non-vowels *)
Definition but (s ch : bytes) : bool := negb (code ch =? RuneError) && negb (one_of s ch).
Definition nonvowel : bytes -> bool := but (bs "aeiouy").
Definition valid_li : bytes -> bool := one_of (bs "cdeghkmnrt").

(** a list of endings, the longest first; the first that the word has decides: its action gives the new
    word from what precedes the ending, or leaves the word alone *)
Definition strip (s w : bytes) : option bytes :=
  let n := (length w - length s)%nat in if beqb (skipn n w) s then Some (firstn n w) else None.
Definition rule : Type := bytes * (bytes -> option bytes).
Fixpoint rules (rs : list rule) (w : bytes) : bytes :=
  match rs with
  | [] => w
  | (s, act) :: rs' =>
      match strip s w with
      | Some p => match act p with Some w' => w' | None => w end
      | None => rules rs' w
      end
  end.
Definition put (s p : bytes) : option bytes := Some (p ++ s).
Definition del : bytes -> option bytes := Some.
Definition keep (_ : bytes) : option bytes := None.
Definition when (c : bytes -> bool) (act : bytes -> option bytes) (p : bytes) : option bytes := if c p then act p else None.
Definition has_end (s p : bytes) : bool := match strip s p with Some _ => true | None => false end.

(** the word must hold a vowel; it must hold one before its last character; two characters *)
Definition has_vowel (p : bytes) : bool := existsb vowel (chars p).
Definition earlier_vowel (p : bytes) : bool := existsb vowel (removelast (chars p)).
Definition two_chars (p : bytes) : bool := (2 <=? length (chars p))%nat.
(* a vowel followed by a non-vowel other than w, x, Y and preceded by a non-vowel, or a vowel at the
   beginning followed by a non-vowel *)
Definition short_syllable (p : bytes) : bool :=
  match rev (chars p) with
  | [c; v] => nonvowel c && vowel v
  | c :: v :: n :: _ => but (bs "aeiouywxY") c && vowel v && nonvowel n
  | _ => false
  end.
Definition last_is (P : bytes -> bool) (p : bytes) : bool := match rev (chars p) with c :: _ => P c | [] => false end.

Definition step0 : bytes -> bytes := rules [(bs "'s'", del); (bs "'s", del); (bs "'", del)].
Definition ie : bytes -> option bytes := fun p => if two_chars p then put (bs "i") p else put (bs "ie") p.
Definition step1a : bytes -> bytes := rules
  [(bs "sses", put (bs "ss")); (bs "ied", ie); (bs "ies", ie); (bs "us", keep); (bs "ss", keep); (bs "s", when earlier_vowel del)].

Section Regions.
  (* how much of the word comes before the regions R1 and R2 *)
  Variables (p1 p2 : Z).
  Definition inR1 (p : bytes) : bool := p1 <=? zlen p.
  Definition inR2 (p : bytes) : bool := p2 <=? zlen p.
  (* a word is short if it ends in a short syllable and R1 is empty *)
  Definition short_word (p : bytes) : bool := (zlen p =? p1) && short_syllable p.
  Definition tidy : bytes -> bytes := rules
    [(bs "at", put (bs "ate")); (bs "bl", put (bs "ble")); (bs "iz", put (bs "ize"));
     (bs "bb", put (bs "b")); (bs "dd", put (bs "d")); (bs "ff", put (bs "f")); (bs "gg", put (bs "g")); (bs "mm", put (bs "m"));
     (bs "nn", put (bs "n")); (bs "pp", put (bs "p")); (bs "rr", put (bs "r")); (bs "tt", put (bs "t"));
     ([], when short_word (put (bs "e")))].
  Definition past : bytes -> option bytes := when has_vowel (fun p => Some (tidy p)).
  Definition step1b : bytes -> bytes := rules
    [(bs "eedly", when inR1 (put (bs "ee"))); (bs "ingly", past); (bs "edly", past); (bs "eed", when inR1 (put (bs "ee"))); (bs "ing", past); (bs "ed", past)].
  Definition yi : bytes -> option bytes := when (fun p => two_chars p && last_is nonvowel p) (put (bs "i")).
  Definition step1c : bytes -> bytes := rules [(bs "y", yi); (bs "Y", yi)].
  Definition r1 (s : bytes) : bytes -> option bytes := when inR1 (put s).
  Definition step2 : bytes -> bytes := rules
    [(bs "ization", r1 (bs "ize")); (bs "ational", r1 (bs "ate")); (bs "fulness", r1 (bs "ful")); (bs "ousness", r1 (bs "ous")); (bs "iveness", r1 (bs "ive"));
     (bs "tional", r1 (bs "tion")); (bs "biliti", r1 (bs "ble")); (bs "lessli", r1 (bs "less"));
     (bs "entli", r1 (bs "ent")); (bs "ation", r1 (bs "ate")); (bs "alism", r1 (bs "al")); (bs "aliti", r1 (bs "al")); (bs "ousli", r1 (bs "ous"));
     (bs "iviti", r1 (bs "ive")); (bs "fulli", r1 (bs "ful"));
     (bs "enci", r1 (bs "ence")); (bs "anci", r1 (bs "ance")); (bs "abli", r1 (bs "able")); (bs "izer", r1 (bs "ize")); (bs "ator", r1 (bs "ate")); (bs "alli", r1 (bs "al"));
     (bs "bli", r1 (bs "ble")); (bs "ogi", when (has_end (bs "l")) (r1 (bs "og")));
     (bs "li", when (last_is valid_li) (r1 []))].
  Definition step3 : bytes -> bytes := rules
    [(bs "ational", r1 (bs "ate")); (bs "tional", r1 (bs "tion")); (bs "alize", r1 (bs "al")); (bs "icate", r1 (bs "ic")); (bs "iciti", r1 (bs "ic"));
     (bs "ative", when inR2 (r1 [])); (bs "ical", r1 (bs "ic")); (bs "ness", r1 []); (bs "ful", r1 [])].
  Definition r2 : bytes -> option bytes := when inR2 del.
  Definition step4 : bytes -> bytes := rules
    [(bs "ement", r2); (bs "ance", r2); (bs "ence", r2); (bs "able", r2); (bs "ible", r2); (bs "ment", r2); (bs "ant", r2); (bs "ent", r2); (bs "ism", r2);
     (bs "ate", r2); (bs "iti", r2); (bs "ous", r2); (bs "ive", r2); (bs "ize", r2); (bs "ion", when (fun p => has_end (bs "s") p || has_end (bs "t") p) r2);
     (bs "al", r2); (bs "er", r2); (bs "ic", r2)].
  Definition step5 : bytes -> bytes := rules
    [(bs "e", when (fun p => inR2 p || (inR1 p && negb (short_syllable p))) del); (bs "l", when (has_end (bs "l")) r2)].
End Regions.

(** words that are stemmed as a whole, and words that steps 1b to 5 leave alone *)
Definition exceptions : list (bytes * bytes) :=
  [(bs "skis", bs "ski"); (bs "skies", bs "sky"); (bs "dying", bs "die"); (bs "lying", bs "lie"); (bs "tying", bs "tie"); (bs "idly", bs "idl");
   (bs "gently", bs "gentl"); (bs "ugly", bs "ugli"); (bs "early", bs "earli"); (bs "only", bs "onli"); (bs "singly", bs "singl");
   (bs "sky", bs "sky"); (bs "news", bs "news"); (bs "howe", bs "howe"); (bs "atlas", bs "atlas"); (bs "cosmos", bs "cosmos"); (bs "bias", bs "bias"); (bs "andes", bs "andes")].
Definition left_alone : list bytes :=
  [bs "inning"; bs "outing"; bs "canning"; bs "herring"; bs "earring"; bs "proceed"; bs "exceed"; bs "succeed"].

(** the initial apostrophe goes; a y at the beginning or after a vowel becomes Y, which is no vowel *)
Definition no_quote (l : list bytes) : list bytes := match l with ch :: t => if code ch =? 39 then t else l | [] => [] end.
Fixpoint mark (here : bool) (l : list bytes) : list bytes :=
  match l with
  | [] => []
  | ch :: t => if here && (code ch =? 121) then bs "Y" :: mark false t else ch :: mark (vowel ch) t
  end.
Fixpoint marked (here : bool) (l : list bytes) : bool :=
  match l with
  | [] => false
  | ch :: t => if here && (code ch =? 121) then true else marked (vowel ch) t
  end.
Definition unmark (l : list bytes) : list bytes := map (fun ch => if code ch =? 89 then bs "y" else ch) l.

(** R1: after the first non-vowel that follows a vowel, and after "gener", "commun", "arsen" at the beginning;
    R2: the same in R1, without the exceptions *)
Fixpoint after (is : bytes -> bool) (l : list bytes) : list bytes :=
  match l with [] => [] | ch :: t => if is ch then t else after is t end.
Definition region (w : bytes) : bytes := concat (after nonvowel (after vowel (chars w))).
Definition R1 (w : bytes) : bytes :=
  if beqb (firstn 5 w) (bs "gener") then skipn 5 w
  else if beqb (firstn 6 w) (bs "commun") then skipn 6 w
  else if beqb (firstn 5 w) (bs "arsen") then skipn 5 w
  else region w.

Definition porter2 (w : bytes) : bytes :=
  match find (fun x => beqb (fst x) w) exceptions with
  | Some x => snd x
  | None =>
      if (length (chars w) <? 3)%nat then w
      else
        let l := no_quote (chars w) in
        let v := concat (mark true l) in
        let p1 := zlen v - zlen (R1 v) in
        let p2 := zlen v - zlen (region (R1 v)) in
        let u := step1a (step0 v) in
        let u := if existsb (beqb u) left_alone then u
                 else step5 p1 p2 (step4 p2 (step3 p1 p2 (step2 p1 (step1c (step1b p1 u))))) in
        if marked true l then concat (unmark (chars u)) else u
  end.
