(** * Model of expand_message_xmd, of hash-to-field and of their accumulator *)
From Coq Require Import NArith Arith List Bool.
From Verif Require Import SpecStream SpecWords MPack MAcc.
Import ListNotations.

Section Xmd.
(** The underlying hash: its construction, its injector, and digest_bits / 8 (h2f_functions.hpp:67). *)
Context (C : construction) (inj : injector) (b_in_bytes : nat).
(** detail/h2f/h2f_functions.hpp:68: block_bits / 8. *)
Definition r_in_bytes : nat := c_words C * c_word C / 8.

(** detail/h2f/h2f_functions.hpp:71-72. *)
Definition ell (len_in_bytes : nat) : nat :=
  len_in_bytes / b_in_bytes + (if len_in_bytes mod b_in_bytes =? 0 then 0 else 1).
(** detail/h2f/h2f_functions.hpp:69-70: octets of a 64-bit number. *)
Definition l_i_b_str (len_in_bytes : nat) : list N :=
  [(N.shiftr (N.of_nat len_in_bytes) 8 mod 256)%N; (N.of_nat len_in_bytes mod 256)%N].
(** detail/h2f/h2f_functions.hpp:64-65 and 76: the static assertions, with the security level k. *)
Definition accepted (k len_in_bytes : nat) : bool :=
  (2 * k <=? 8 * b_in_bytes) && (N.of_nat len_in_bytes <? 0x10000)%N && (ell len_in_bytes <=? 255).

(** hash<Hash>(range of octets, acc): algorithm/hash.hpp:228-238. *)
Definition hash_octets (a : acc C) (os : list N) : option (acc C) := hash_into C inj 8 a os.

(** detail/h2f/h2f_functions.hpp:82-84: init_accumulator on a new accumulator; [junk] is its
    indeterminate cache. *)
Definition xmd_init (junk : list N) : option (acc C) := hash_octets (acc_init C junk) (repeat 0%N r_in_bytes).

(** detail/h2f/h2f_functions.hpp:86-98: update, with a range of [vb]-bit values. *)
Definition xmd_update (vb : nat) (a : acc C) (xs : list N) : option (acc C) := hash_into C inj vb a xs.

Definition bind {A B} (o : option A) (f : A -> option B) : option B :=
  match o with Some x => f x | None => None end.

(** std::copy(bi.begin(), bi.end(), uniform_bytes.begin() + off); writing past the end of the array
    is [None]. *)
Definition copy_at (buf : list N) (off : nat) (os : list N) : option (list N) :=
  if off + length os <=? length buf
  then Some (firstn off buf ++ os ++ skipn (off + length os) buf) else None.

(** detail/strxor.hpp:45-60 on two digests (the loop itself is modelled in MMisc.v, its effect is C26). *)
Definition strxor_digests (a b : list N) : option (list N) :=
  if length a =? length b then Some (map (fun p => N.lxor (fst p) (snd p)) (combine a b)) else None.

(** detail/h2f/h2f_functions.hpp:117-122 and 127-133: a new accumulator is given the octets [x], one
    octet [i], dst and its size, and extracted. *)
Definition bi_digest (junk : list N) (x : list N) (i : nat) (dst : list N) : option (list N) :=
  bind (hash_octets (acc_init C junk) x) (fun a =>
  bind (hash_octets a [(N.of_nat i mod 256)%N]) (fun a =>
  bind (hash_octets a dst) (fun a =>
  bind (hash_octets a [(N.of_nat (length dst) mod 256)%N]) (fun a =>
  acc_result C a)))).

(** detail/h2f/h2f_functions.hpp:126-135: the loop body for i = [i], ..., [i] + n - 1; [junks i] is the
    indeterminate cache of the accumulator of step i. *)
Fixpoint xmd_loop (junks : nat -> list N) (b0 dst : list N) (n i : nat) (bi buf : list N) : option (list N) :=
  match n with
  | O => Some buf
  | S n' =>
      bind (strxor_digests b0 bi) (fun x =>
      bind (bi_digest (junks i) x i dst) (fun bi =>
      bind (copy_at buf ((i - 1) * b_in_bytes) bi) (fun buf =>
      xmd_loop junks b0 dst n' (S i) bi buf)))
  end.

(** detail/h2f/h2f_functions.hpp:105-137: process.  It updates the accumulator it is given (returned
    with the result); [buf] is the indeterminate uniform_bytes array of len_in_bytes octets. *)
Definition xmd_process (junks : nat -> list N) (len_in_bytes : nat) (dst : list N) (buf : list N) (b0_acc : acc C)
    : option (list N * acc C) :=
  let dst_size := length dst in
  if negb ((16 <=? dst_size) && (dst_size <=? 255)) then None
  else
    bind (hash_octets b0_acc (l_i_b_str len_in_bytes)) (fun a =>
    bind (hash_octets a [0%N]) (fun a =>
    bind (hash_octets a dst) (fun a =>
    bind (hash_octets a [(N.of_nat dst_size mod 256)%N]) (fun a =>
    bind (acc_result C a) (fun b0 =>
    bind (bi_digest (junks 1) b0 1 dst) (fun b1 =>
    bind (copy_at buf 0 b1) (fun buf =>
    bind (xmd_loop junks b0 dst (ell len_in_bytes - 1) 2 b1 buf) (fun uniform_bytes =>
    Some (uniform_bytes, a))))))))).

(** h2f.hpp:129-153 and 157-181: process, for m = 1 and m = 2: the coordinates of each result.
    Marshalling (external) is assumed to read the octets as a big-endian number; modular_type(tmp,
    modulus) reduces it. *)
Definition h2f_process (p : N) (m L count : nat) (junks : nat -> list N) (dst buf : list N) (a : acc C)
    : option (list (list N) * acc C) :=
  bind (xmd_process junks (count * m * L) dst buf a) (fun r =>
  let '(uniform_bytes, a) := r in
  Some (map (fun i => map (fun j =>
          let elm_offset := L * (j + i * m) in
          (be_value (firstn L (skipn elm_offset uniform_bytes)) mod p)%N) (seq 0 m)) (seq 0 count), a)).

(** accumulators/hash.hpp:230-275: the accumulator for such hashes: constructor, updates, and
    extraction, which is const but works on the mutable member itself. *)
Inductive xop := XUpdate (vb : nat) (xs : list N) | XExtract (junks : nat -> list N) (buf : list N).
Fixpoint xmd_run (len_in_bytes : nat) (dst : list N) (a : acc C) (ops : list xop) : option (list (list N)) :=
  match ops with
  | [] => Some []
  | XUpdate vb xs :: r => bind (xmd_update vb a xs) (fun a => xmd_run len_in_bytes dst a r)
  | XExtract junks buf :: r =>
      bind (xmd_process junks len_in_bytes dst buf a) (fun ua =>
      bind (xmd_run len_in_bytes dst (snd ua) r) (fun us => Some (fst ua :: us)))
  end.
Fixpoint h2f_run (p : N) (m L count : nat) (dst : list N) (a : acc C) (ops : list xop) : option (list (list (list N))) :=
  match ops with
  | [] => Some []
  | XUpdate vb xs :: r => bind (xmd_update vb a xs) (fun a => h2f_run p m L count dst a r)
  | XExtract junks buf :: r =>
      bind (h2f_process p m L count junks dst buf a) (fun ua =>
      bind (h2f_run p m L count dst (snd ua) r) (fun us => Some (fst ua :: us)))
  end.
End Xmd.
