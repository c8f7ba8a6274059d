(** * Model of find_group_hash *)
From Coq Require Import NArith Arith List Bool.
From Verif Require Import SpecStream MPack MAcc MXmd.
Import ListNotations.

(** find_group_hash.hpp:103-107. *)
Definition urs : list N :=
  [0x30; 0x39; 0x36; 0x62; 0x33; 0x36; 0x61; 0x35; 0x38; 0x30; 0x34; 0x62; 0x66; 0x61; 0x63; 0x65;
   0x66; 0x31; 0x36; 0x39; 0x31; 0x65; 0x31; 0x37; 0x33; 0x63; 0x33; 0x36; 0x36; 0x61; 0x34; 0x37;
   0x66; 0x66; 0x35; 0x62; 0x61; 0x38; 0x34; 0x61; 0x34; 0x34; 0x66; 0x32; 0x36; 0x64; 0x64; 0x64;
   0x37; 0x65; 0x38; 0x64; 0x39; 0x66; 0x37; 0x39; 0x64; 0x35; 0x62; 0x34; 0x32; 0x64; 0x66; 0x30]%N.
(** find_group_hash.hpp:51-56: "Zcash_PH". *)
Definition default_dst : list N := [0x5a; 0x63; 0x61; 0x73; 0x68; 0x5f; 0x50; 0x48]%N.

(** How a call ends: still running after the given number of steps, stopped by an assertion (or an
    out-of-bounds access in the underlying hash), or returned. *)
Inductive outcome (A : Type) := Running | Aborted | Returned (x : A).
Arguments Running {A}. Arguments Aborted {A}. Arguments Returned {A}.

Section Fgh.
Context (C : construction) (inj : injector).
(** External: marshalling of a digest into a point, multiplication by the cofactor, is_zero, is_well_formed. *)
Context {P : Type} (decode : list N -> option P) (cofactor_mul : P -> P) (is_zero well_formed : P -> bool).

(** find_group_hash.hpp:109-112. *)
Definition fgh_init (junk dst : list N) : option (acc C) :=
  bind (hash_octets C inj (acc_init C junk) dst) (fun a => hash_octets C inj a urs).

(** find_group_hash.hpp:129-146; [i] is the uint8_t counter, which wraps; its assertion compares it with
    256. *)
Fixpoint fgh_loop (fuel : nat) (a : acc C) (i : N) : outcome P :=
  match fuel with
  | O => Running
  | S f =>
      let i' := ((i + 1) mod 256)%N in
      match hash_octets C inj a [i] with
      | None => Aborted
      | Some acc_copy =>
          match acc_result C acc_copy with
          | None => Aborted
          | Some d =>
              match decode d with
              | Some q => Returned q
              | None => if (i' <? 256)%N then fgh_loop f a i' else Aborted
              end
          end
      end
  end.
(** find_group_hash.hpp:124-153; the accumulator is not changed. *)
Definition fgh_process (fuel : nat) (a : acc C) : outcome P :=
  match fgh_loop fuel a 0 with
  | Returned q =>
      let q := cofactor_mul q in
      if is_zero q then Aborted else if negb (well_formed q) then Aborted else Returned q
  | r => r
  end.
End Fgh.
