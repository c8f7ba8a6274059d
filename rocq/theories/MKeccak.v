(** * Model of the portable Keccak-f[1600] and of the Keccak and SHA-3 hashes *)
From Coq Require Import NArith Arith List Bool.
From Verif Require Import SpecStream MPack MAcc MConstr.
Import ListNotations.
Local Open Scope N_scope.

(** 64-bit operators of basic_functions<64> and of C++: rotl (sibling repository
    nil/crypto3/detail/basic_functions.hpp, used as policy_type::template rotl<k>), [~] and
    boost::endian::endian_reverse_inplace. *)
Definition rotl (w k x : N) : N := N.lor (N.shiftl x k mod 2 ^ w) (N.shiftr x (w - k)).
Definition not64 (x : N) : N := N.lnot x 64.
Definition bswap64 (x : N) : N := stream_word BOBB 64 (word_stream LOBB 64 x).

(** detail/keccak/keccak_impl.hpp:48-56 and detail/sha3/sha3_functions.hpp:54-62. *)
Definition round_constants : list N :=
  [0x0000000000000001; 0x0000000000008082; 0x800000000000808a;
   0x8000000080008000; 0x000000000000808b; 0x0000000080000001;
   0x8000000080008081; 0x8000000000008009; 0x000000000000008a;
   0x0000000000000088; 0x0000000080008009; 0x000000008000000a;
   0x000000008000808b; 0x800000000000008b; 0x8000000000008089;
   0x8000000000008003; 0x8000000000008002; 0x8000000000000080;
   0x000000000000800a; 0x800000008000000a; 0x8000000080008081;
   0x8000000000008080; 0x0000000080000001; 0x8000000080008008].

(** detail/keccak/keccak_impl.hpp:59-124 and detail/sha3/sha3_functions.hpp:65-130: the body of
    the round loop (the two files have the same text). *)
Definition keccak_round (st : list N) (c : N) : list N :=
  let A i := nth i st 0 in
  let rotl := rotl 64 in
  let xor := N.lxor in
  let C0 := xor (xor (xor (xor (A 0%nat) (A 5%nat)) (A 10%nat)) (A 15%nat)) (A 20%nat) in
  let C1 := xor (xor (xor (xor (A 1%nat) (A 6%nat)) (A 11%nat)) (A 16%nat)) (A 21%nat) in
  let C2 := xor (xor (xor (xor (A 2%nat) (A 7%nat)) (A 12%nat)) (A 17%nat)) (A 22%nat) in
  let C3 := xor (xor (xor (xor (A 3%nat) (A 8%nat)) (A 13%nat)) (A 18%nat)) (A 23%nat) in
  let C4 := xor (xor (xor (xor (A 4%nat) (A 9%nat)) (A 14%nat)) (A 19%nat)) (A 24%nat) in
  let D0 := xor (rotl 1 C0) C3 in
  let D1 := xor (rotl 1 C1) C4 in
  let D2 := xor (rotl 1 C2) C0 in
  let D3 := xor (rotl 1 C3) C1 in
  let D4 := xor (rotl 1 C4) C2 in
  let B00 := xor (A 0%nat) D1 in
  let B10 := rotl 1 (xor (A 1%nat) D2) in
  let B20 := rotl 62 (xor (A 2%nat) D3) in
  let B05 := rotl 28 (xor (A 3%nat) D4) in
  let B15 := rotl 27 (xor (A 4%nat) D0) in
  let B16 := rotl 36 (xor (A 5%nat) D1) in
  let B01 := rotl 44 (xor (A 6%nat) D2) in
  let B11 := rotl 6 (xor (A 7%nat) D3) in
  let B21 := rotl 55 (xor (A 8%nat) D4) in
  let B06 := rotl 20 (xor (A 9%nat) D0) in
  let B07 := rotl 3 (xor (A 10%nat) D1) in
  let B17 := rotl 10 (xor (A 11%nat) D2) in
  let B02 := rotl 43 (xor (A 12%nat) D3) in
  let B12 := rotl 25 (xor (A 13%nat) D4) in
  let B22 := rotl 39 (xor (A 14%nat) D0) in
  let B23 := rotl 41 (xor (A 15%nat) D1) in
  let B08 := rotl 45 (xor (A 16%nat) D2) in
  let B18 := rotl 15 (xor (A 17%nat) D3) in
  let B03 := rotl 21 (xor (A 18%nat) D4) in
  let B13 := rotl 8 (xor (A 19%nat) D0) in
  let B14 := rotl 18 (xor (A 20%nat) D1) in
  let B24 := rotl 2 (xor (A 21%nat) D2) in
  let B09 := rotl 61 (xor (A 22%nat) D3) in
  let B19 := rotl 56 (xor (A 23%nat) D4) in
  let B04 := rotl 14 (xor (A 24%nat) D0) in
  let chi x y z := xor x (N.land (not64 y) z) in
  [ xor (chi B00 B01 B02) c;
    chi B01 B02 B03;
    chi B02 B03 B04;
    chi B03 B04 B00;
    chi B04 B00 B01;
    chi B05 B06 B07;
    chi B06 B07 B08;
    chi B07 B08 B09;
    chi B08 B09 B05;
    chi B09 B05 B06;
    chi B10 B11 B12;
    chi B11 B12 B13;
    chi B12 B13 B14;
    chi B13 B14 B10;
    chi B14 B10 B11;
    chi B15 B16 B17;
    chi B16 B17 B18;
    chi B17 B18 B19;
    chi B18 B19 B15;
    chi B19 B15 B16;
    chi B20 B21 B22;
    chi B21 B22 B23;
    chi B22 B23 B24;
    chi B23 B24 B20;
    chi B24 B20 B21 ].

(** detail/keccak/keccak_impl.hpp:58-126 and detail/sha3/sha3_functions.hpp:64-132. *)
Definition permute (st : list N) : list N := fold_left keccak_round round_constants st.

(** The sequence "byte-reverse every word, permute, byte-reverse every word":
    keccak.hpp:66-76, sha3.hpp:63-69, detail/keccak/keccak_finalizer.hpp:73-84,
    detail/sha3/sha3_finalizer.hpp:68-75.  [perm] is impl_type::permute. *)
Definition swapped_permute (perm : list N -> list N) (st : list N) : list N :=
  map bswap64 (perm (map bswap64 st)).

(** keccak.hpp:62-77, sha3.hpp:59-70: xor the block into the first words, then permute. *)
Definition keccak_process_block (perm : list N -> list N) (st block : list N) : list N :=
  swapped_permute perm
    (map (fun p => N.lxor (fst p) (snd p)) (combine (firstn (length block) st) block) ++
     skipn (length block) st).

Section Finalizer.
Context (perm : list N -> list N) (bw digest_bits : nat).

(** detail/keccak/keccak_finalizer.hpp:70-85, detail/sha3/sha3_finalizer.hpp:65-76: the loop over
    whole digest blocks; returns the words written to temp_state and the final state. *)
Fixpoint squeeze_blocks (n : nat) (st : list N) : list N * list N :=
  match n with
  | O => ([], st)
  | S n' => let '(ws, st') := squeeze_blocks n' (swapped_permute perm st) in
            (firstn bw st ++ ws, st')
  end.

(** detail/keccak/keccak_finalizer.hpp:66-93, detail/sha3/sha3_finalizer.hpp:61-84.
    Simplification: the write to temp_state is assumed within the 25 words, which holds for every
    digest size below 800 bits. *)
Definition keccak_finalizer (st : list N) : list N :=
  let block_bits := (64 * bw)%nat in
  let digest_blocks := (digest_bits / block_bits)%nat in
  let last_bits := (digest_bits mod block_bits)%nat in
  let last_words := (last_bits / 64 + (if (last_bits mod 64 =? 0)%nat then 0 else 1))%nat in
  let '(ws, st') := squeeze_blocks digest_blocks st in
  let ws' := ws ++ firstn last_words st' in
  ws' ++ repeat 0 (25 - length ws').
End Finalizer.

(** detail/keccak/keccak_policy.hpp:36-70, detail/sha3/sha3_policy.hpp:122-176: 25 zero words,
    block_bits = 1600 - 2 * digest_bits, digest_endian = big_octet_big_bit; keccak.hpp:97-110,
    sha3.hpp:96-109. [perm] is the permutation selected in
    detail/keccak/keccak_functions.hpp:60-78. *)
Definition keccak_words (d : nat) : nat := ((1600 - 2 * d) / 64)%nat.

Definition keccak_1600 (perm : list N -> list N) (injb : injector) (d : nat) : construction :=
  sponge_construction BOBB 64 (keccak_words d) (d / 8) (repeat 0 25)
    (keccak_process_block perm)
    (keccak_padding injb 64 (keccak_words d)) (keccak_process_last injb 64 (keccak_words d))
    (keccak_finalizer perm (keccak_words d) d).

Definition sha3 (injb : injector) (d : nat) : construction :=
  sponge_construction BOBB 64 (keccak_words d) (d / 8) (repeat 0 25)
    (keccak_process_block permute)
    (sha3_padding injb 64 (keccak_words d)) (sha3_process_last injb 64 (keccak_words d))
    (keccak_finalizer permute (keccak_words d) d).

(** Sanity check of the transcription: SHA3-256 of "abc" (test/data/sha3.json style vector). *)
Example sha3_256_abc :
  hash_once (sha3 (inj_keep BOLB 64 17) 256) (inj_keep BOBB 64 17) 8 (repeat 0 17) [97; 98; 99] =
  Some [0x3a; 0x98; 0x5d; 0xa7; 0x4f; 0xe2; 0x25; 0xb2; 0x04; 0x5c; 0x17; 0x2d; 0x6b; 0xd3; 0x90; 0xbd;
        0x85; 0x5f; 0x08; 0x6e; 0x3e; 0x9d; 0x52; 0x5b; 0x46; 0xbf; 0xe2; 0x45; 0x11; 0x43; 0x15; 0x32].
Proof. vm_compute. reflexivity. Qed.
