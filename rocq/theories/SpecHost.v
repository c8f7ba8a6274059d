(** * The same program on machines of either byte order (C72)

    Specification vocabulary. *)
From Coq Require Import NArith Arith List Bool.
From Verif Require Import SpecStream SpecWords MAcc.
Import ListNotations.

(** The hash [C] compiled for a machine that stores integers in the order [h]; nothing else of it changes
    (detail/block_stream_processor.hpp:78-84 is the only place where a construction reads the caller's values). *)
Definition on_host (h : endian) (C : construction) : construction :=
  Mk_construction (c_endian C) h (c_word C) (c_words C) (c_state C) (c_init C) (c_proc C) (c_digest C).

(** The digests that a history of calls on a fresh accumulator set returns on such a machine. *)
Definition digests_on (h : endian) (C : construction) (inj : MPack.injector) (junk : list N) (ops : list op) :
    option (list (list N)) :=
  run_ops (on_host h C) inj (acc_init (on_host h C) junk) ops.

(** An integer of [n] octets with its octets in the opposite order. *)
Definition swap_octets (n : nat) (x : N) : N := be_value (octets_le n x).
Definition swap_op (o : op) : op :=
  match o with OpHash vb xs => OpHash vb (map (swap_octets (vb / 8)) xs) | OpExtract => OpExtract end.

(** Histories in which every range is a range of octets, of integers of whole octets. *)
Definition octet_op (o : op) : Prop := match o with OpHash vb _ => vb = 8 | OpExtract => True end.
Definition whole_octet_op (o : op) : Prop := match o with OpHash vb _ => vb mod 8 = 0 | OpExtract => True end.
