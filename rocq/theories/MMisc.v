(** * Model of small helpers: DigestInfo prefixes, pow, strxor, block-cipher compressors *)
From Coq Require Import NArith Arith List Bool.
Import ListNotations.

Section Pkcs.
Local Open Scope N_scope.
(** detail/md5/md5_policy.hpp:63-65. *)
Definition pkcs_md5 : list N := [0x30; 0x20; 0x30; 0x0C; 0x06; 0x08; 0x2A; 0x86; 0x48; 0x86; 0xF7; 0x0D; 0x02; 0x05; 0x05; 0x00; 0x04; 0x10].
(** detail/sha/sha_policy.hpp:61-62. *)
Definition pkcs_sha : list N := [0x30; 0x21; 0x30; 0x09; 0x06; 0x05; 0x2B; 0x0E; 0x03; 0x02; 0x1A; 0x05; 0x00; 0x04; 0x14].
(** detail/sha1/sha1_policy.hpp:61-62. *)
Definition pkcs_sha1 : list N := [0x30; 0x21; 0x30; 0x09; 0x06; 0x05; 0x2B; 0x0E; 0x03; 0x02; 0x1A; 0x05; 0x00; 0x04; 0x14].
(** detail/sha2/sha2_policy.hpp:102-104 (the identifiers of 224 and 384 are empty, lines 77, 125). *)
Definition pkcs_sha2_256 : list N := [0x30; 0x2D; 0x30; 0x0D; 0x06; 0x09; 0x60; 0x86; 0x48; 0x01; 0x65; 0x03; 0x04; 0x02; 0x04; 0x05; 0x00; 0x04; 0x20].
(** detail/sha2/sha2_policy.hpp:151-153. *)
Definition pkcs_sha2_512 : list N := [0x30; 0x2D; 0x30; 0x0D; 0x06; 0x09; 0x60; 0x86; 0x48; 0x01; 0x65; 0x03; 0x04; 0x02; 0x04; 0x05; 0x00; 0x04; 0x40].
(** detail/sha3/sha3_policy.hpp:63-65, 79-81, 95-97, 111-113. *)
Definition pkcs_sha3_224 : list N := [0x30; 0x2D; 0x30; 0x0D; 0x06; 0x09; 0x60; 0x86; 0x48; 0x01; 0x65; 0x03; 0x04; 0x02; 0x07; 0x05; 0x00; 0x04; 0x1C].
Definition pkcs_sha3_256 : list N := [0x30; 0x31; 0x30; 0x0D; 0x06; 0x09; 0x60; 0x86; 0x48; 0x01; 0x65; 0x03; 0x04; 0x02; 0x08; 0x05; 0x00; 0x04; 0x20].
Definition pkcs_sha3_384 : list N := [0x30; 0x41; 0x30; 0x0D; 0x06; 0x09; 0x60; 0x86; 0x48; 0x01; 0x65; 0x03; 0x04; 0x02; 0x09; 0x05; 0x00; 0x04; 0x30].
Definition pkcs_sha3_512 : list N := [0x30; 0x51; 0x30; 0x0D; 0x06; 0x09; 0x60; 0x86; 0x48; 0x01; 0x65; 0x03; 0x04; 0x02; 0x0A; 0x05; 0x00; 0x04; 0x40].
(** detail/ripemd/ripemd_policy.hpp:58-59, the same for every digest size. *)
Definition pkcs_ripemd (digest_bits : nat) : list N := [0x30; 0x21; 0x30; 0x09; 0x06; 0x05; 0x2B; 0x24; 0x03; 0x02; 0x01; 0x05; 0x00; 0x04; 0x14].
(** detail/tiger/tiger_policy.hpp:89-91 (empty for other digest sizes, line 56). *)
Definition pkcs_tiger : list N := [0x30; 0x29; 0x30; 0x0D; 0x06; 0x09; 0x2B; 0x06; 0x01; 0x04; 0x01; 0xDA; 0x47; 0x0C; 0x02; 0x05; 0x00; 0x04; 0x18].
End Pkcs.

(** detail/static_pow.hpp:31-46: pow(x, n), for a type T with multiplication [mul] and unit [one].
    The while loop runs at most [fuel] times; [None] if it has not ended by then. *)
Section Pow.
Context {T : Type} (mul : T -> T -> T) (one : T).
Fixpoint pow_loop (fuel : nat) (x : T) (n : N) (result : T) : option T :=
  match fuel with
  | O => None
  | S k =>
      if (0 <? n)%N then
        if (n mod 2 =? 0)%N then pow_loop k (mul x x) (n / 2)%N result
        else pow_loop k x (n - 1)%N (mul result x)
      else Some result
  end.
Definition pow (fuel : nat) (x : T) (n : N) : option T := pow_loop fuel x n one.
End Pow.

(** Memory: addresses to values. *)
Definition memory := nat -> N.
Definition store (m : memory) (p : nat) (v : N) : memory := fun q => if q =? p then v else m q.

(** detail/strxor.hpp:45-60: the loop, on iterators that are addresses of one memory (so that the
    output may be one of the inputs).  Returns the memory and the advanced output iterator. *)
Fixpoint strxor_loop (n1 n2 : nat) (m : memory) (first1 first2 out : nat) : memory * nat :=
  match n1, n2 with
  | S k1, S k2 =>
      strxor_loop k1 k2 (store m out (N.lxor (m first1) (m first2))) (S first1) (S first2) (S out)
  | _, _ => (m, out)
  end.
(** detail/strxor.hpp:45-60: [n1], [n2] are the distances; the assertion is [None]. *)
Definition strxor (m : memory) (first1 n1 first2 n2 out : nat) : option (memory * nat) :=
  if n1 =? n2 then Some (strxor_loop n1 n2 m first1 first2 out) else None.

(** detail/state_adder.hpp:33-40: s1[i] += s2[i] for i below both sizes, [w]-bit words. *)
Fixpoint state_adder_loop (w : nat) (is : list nat) (s1 s2 : list N) : list N :=
  match is with
  | [] => s1
  | i :: is' =>
      state_adder_loop w is'
        (firstn i s1 ++ ((nth i s1 0 + nth i s2 0) mod 2 ^ N.of_nat w)%N :: skipn (S i) s1) s2
  end.
Definition state_adder (w : nat) (s1 s2 : list N) : list N :=
  let n := if length s2 <? length s1 then length s2 else length s1 in
  state_adder_loop w (seq 0 n) s1 s2.

(** The compressors: [encrypt key text] is BlockCipher(key).encrypt(text) (crypto3-block, not in
    this repository), [f] the CombineFunction (called on its first argument by reference), [k] the
    KeyConverterFunctor.  The block is passed by const reference; the result is the new state. *)
Section Compressors.
Context (encrypt : list N -> list N -> list N) (f : list N -> list N -> list N) (k : list N -> list N).
(** detail/davies_meyer_compressor.hpp:58-63. *)
Definition davies_meyer (state block : list N) : list N :=
  let new_state := encrypt block state in
  f state new_state.
(** detail/matyas_meyer_oseas_compressor.hpp:59-70. *)
Definition matyas_meyer_oseas (state block : list N) : list N :=
  let key := k state in
  let new_state := encrypt key block in
  f new_state block.
(** detail/miyaguchi_preneel_compressor.hpp:59-70. *)
Definition miyaguchi_preneel (state block : list N) : list N :=
  let key := k state in
  let new_state := encrypt key block in
  f (f state new_state) block.
End Compressors.
