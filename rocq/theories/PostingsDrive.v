(** Driving a modelled iterator by a sequence of calls of its interface. *)
From Verif Require Import Base Postings PostingsSpec.
Local Open Scope Z_scope.

(** One call on a modelled iterator. *)
Definition iter_step (i : iter) (o : cop) : cans * iter :=
  match o with
  | CGet => (AVal (it_get i), i)
  | CHasNext => (ABool (it_hasNext i), i)
  | CNext => let '(r, i') := it_next i in (AVal r, i')
  | CLowerBound to => let '(r, i') := it_lowerBound i to in (AVal r, i')
  | CLen => (ALen (it_len i), i)
  end.
Fixpoint iter_run (i : iter) (os : list cop) : list cans :=
  match os with
  | [] => []
  | o :: os' => let '(a, i') := iter_step i o in a :: iter_run i' os'
  end.


(** What is assumed of the roaring library: the set written is the set read back,
    and what is written are bytes. *)
Definition roaring_ok (rb : roaring) : Prop :=
  forall l, posting l -> rb_dec rb (rb_enc rb l) = Some l /\ Forall is_byte (rb_enc rb l).
