(** * Specification: what is left of a message given word by word

    The property C07 says that every feed appends its bits to the message.  It is false; this is what is true instead.
    A block that was completed by a word fed at a word boundary is forgotten as soon as another feed follows.
    [w] and [bb] are the numbers of bits of a word and of a block, [bits f] the bits that the feed [f] gives. *)
From Coq Require Import Arith List Bool.
From Verif Require Import MAcc.
Import ListNotations.

(** The bits still in the message after the feeds [fs], when [M] was there before them. *)
Fixpoint surviving (w bb : nat) (bits : feed -> list bool) (M : list bool) (fs : list feed) : list bool :=
  match fs with
  | [] => M
  | f :: rest =>
      let M' := M ++ bits f in
      let completed := match f with
                       | FBlock _ _ => false
                       | FWord _ _ => (length M mod w =? 0) && (length M' mod bb =? 0)
                       end in
      let followed := match rest with [] => false | _ => true end in
      surviving w bb bits (if completed && followed then firstn (length M' - bb) M' else M') rest
  end.
