(** * Specification of the entry points

    What it means that every way of asking for the hash of the [n] elements at [first] answers [d]. *)
From Coq Require Import NArith Arith List Bool.
From Verif Require Import SpecStream MPack MAcc MMisc MHash.
Import ListNotations.

(** The digest is written at [out], the next position is returned, and nothing else changes. *)
Definition written (m : memory) (out : nat) (d : list N) (r : option (memory * nat)) : Prop :=
  exists m', r = Some (m', out + length d) /\
    forall q, m' q = if (out <=? q) && (q <? out + length d) then nth (q - out) d 0%N else m q.

(** The returned object converts to [d] in every way a digest can be taken from it. *)
Definition object_is (C : construction) (d : list N) (r : option (acc C)) : Prop :=
  exists a, r = Some a /\ as_result C a = Some d /\ as_range C a = Some d /\
    acc_result C (as_accumulator C a) = Some d /\
    forall junk, as_array C (length d) junk a = Some (d ++ skipn (length d) junk).

(** The caller's accumulator and the returned copy both yield [d]. *)
Definition accumulators_are (C : construction) (d : list N) (r : option (acc C * acc C)) : Prop :=
  exists a b, r = Some (a, b) /\ acc_result C a = Some d /\ acc_result C b = Some d.

Definition every_entry_point (C : construction) (inj : injector) (digits : nat) (is_signed : bool)
    (ok_cache : list N -> Prop) (m : memory) (first n : nat) (d : list N) : Prop :=
  forall junk, ok_cache junk ->
  (forall out, written m out d (hash_iter_out C inj digits is_signed junk m first n out)) /\
  (forall out, written m out d (hash_range_out C inj digits is_signed junk m first n out)) /\
  (forall out, written m out d (hash_ilist_out C inj digits is_signed junk m first n out)) /\
  object_is C d (hash_iter C inj digits is_signed junk m first n) /\
  object_is C d (hash_range C inj digits is_signed junk m first n) /\
  object_is C d (hash_ilist C inj digits is_signed junk m first n) /\
  (forall f, object_is C d (hash_adaptor C inj digits is_signed junk m first n f)) /\
  accumulators_are C d (hash_iter_acc C inj digits is_signed m first n (acc_init C junk)) /\
  accumulators_are C d (hash_range_acc C inj digits is_signed m first n (acc_init C junk)) /\
  accumulators_are C d (hash_ilist_acc C inj digits is_signed m first n (acc_init C junk)).
