(** * Specification: cyclic redundancy checks

    The parametric CRC of R. Williams ("A painless guide to CRC error detection algorithms", also the
    documentation of Boost.CRC): a [W]-bit register, the truncated polynomial [poly], the initial
    register [init], reflection of the input octets and of the register, and a final xor. *)
From Coq Require Import NArith Arith List Bool.
From Verif Require Import SpecStream.
Import ListNotations.
Local Open Scope N_scope.

Record crc_parameters := Mk_crc { W : nat; poly : N; init : N; final_xor : N; reflect_in : bool; reflect_rem : bool }.

(** The bits of an octet, most significant first, and of an octet string as the CRC takes them. *)
Definition octet_msb_first (o : N) : list bool := map (fun i => N.testbit o (N.of_nat i)) [7; 6; 5; 4; 3; 2; 1; 0]%nat.
Definition message_bits (P : crc_parameters) (os : list N) : list bool :=
  flat_map (fun o => if reflect_in P then rev (octet_msb_first o) else octet_msb_first o) os.

(** One division step: shift left by one; if the bit shifted out differs from the message bit,
    subtract the polynomial. *)
Definition divide_bit (P : crc_parameters) (r : N) (b : bool) : N :=
  let shifted := (2 * r) mod 2 ^ N.of_nat (W P) in
  if xorb (N.testbit r (N.of_nat (W P - 1))) b then N.lxor shifted (poly P) else shifted.

(** The [n] low bits in opposite order. *)
Definition reflect (n : nat) (r : N) : N :=
  fold_left (fun a i => 2 * a + N.b2n (N.testbit r (N.of_nat i))) (seq 0 n) 0.

Definition CRC (P : crc_parameters) (os : list N) : N :=
  let r := fold_left (divide_bit P) (message_bits P os) (init P) in
  N.lxor (if reflect_rem P then reflect (W P) r else r) (final_xor P).

(** The digest: the most significant octet first. *)
Definition CRC_octets (P : crc_parameters) (os : list N) : list N := rev (octets_le (W P / 8) (CRC P os)).

(** PNG specification, annex D: the CRC of crc32_png. *)
Definition CRC32_PNG : crc_parameters := Mk_crc 32 0x04C11DB7 0xFFFFFFFF 0xFFFFFFFF true true.

Definition crc_ok (P : crc_parameters) : Prop :=
  (8 <= W P)%nat /\ (W P mod 8 = 0)%nat /\ fits (W P) (poly P) /\ fits (W P) (init P) /\ fits (W P) (final_xor P).

(** The check value listed for this CRC. *)
Example CRC32_PNG_check : CRC CRC32_PNG [49; 50; 51; 52; 53; 54; 55; 56; 57] = 0xCBF43926.
Proof. vm_compute. reflexivity. Qed.

(** The exclusive or of three octet strings of one length. *)
Definition xor3 (a b c : list N) : list N :=
  map (fun t => N.lxor (fst (fst t)) (N.lxor (snd (fst t)) (snd t))) (combine (combine a b) c).
