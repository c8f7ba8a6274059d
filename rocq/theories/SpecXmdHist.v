(** * What a history of updates and extractions of expand_message_xmd or hash_to_field returns *)
From Coq Require Import NArith Arith List.
From Verif Require Import SpecStream SpecOctets MPack MAcc SpecOctetHash SpecXmd MXmd.
Import ListNotations.

(** The values returned when the octets [left] stay behind after every extraction; the accumulator of
    every other hash leaves none. *)
Fixpoint outputs {A} (e : endian) (F : list N -> A) (left msg : list N) (ops : list xop) : list A :=
  match ops with
  | [] => []
  | XUpdate vb xs :: r => outputs e F left (msg ++ range_octets e vb xs) r
  | XExtract _ _ :: r => F msg :: outputs e F left (msg ++ left) r
  end.
(** Everything a history makes the underlying hash absorb. *)
Definition absorbed (e : endian) (left : list N) (ops : list xop) : list N :=
  flat_map (fun o => match o with XUpdate vb xs => range_octets e vb xs | XExtract _ _ => left end) ops.
(** What one extraction appends to the message: msg_prime without the zeros and the message. *)
Definition left_behind (DST : list N) (len : nat) : list N := I2OSP len 2 ++ I2OSP 0 1 ++ DST_prime DST.

(** Successive updates, each with a range of its own element width. *)
Definition updates (ps : list (nat * list N)) : list xop := map (fun p => XUpdate (fst p) (snd p)) ps.
(** Updates with supported ranges; any contents of new accumulators' caches and of the result array. *)
Definition xop_ok (C : construction) (len : nat) (o : xop) : Prop :=
  match o with
  | XUpdate vb xs => piece_ok C (vb, xs)
  | XExtract junks buf => (forall i, block_ok (c_word C) (c_words C) (junks i)) /\ length buf = len
  end.

(** [u] is what a new accumulator returns for the octets [msg], fed in some pieces. *)
Definition expands (C : construction) (inj : injector) (b len : nat) (dst msg u : list N) : Prop :=
  exists junk a pieces junks buf,
    block_ok (c_word C) (c_words C) junk /\ Forall (piece_ok C) pieces /\
    (forall i, block_ok (c_word C) (c_words C) (junks i)) /\ length buf = len /\
    pieces_octets (c_host C) pieces = msg /\ xmd_init C inj junk = Some a /\
    xmd_run C inj b len dst a (updates pieces ++ [XExtract junks buf]) = Some [u].
