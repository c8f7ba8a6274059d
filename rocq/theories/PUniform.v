(** * Property C77: hash_to_field is unbiased

    Specification: SpecUniform.v (field elements from uniform octets).  Models: MXmd.v, MSuites.v. *)
From Coq Require Import NArith ZArith Arith List Bool.
From Verif Require Import SpecStream MPack MAcc MXmd MSuites SpecXmd SpecUniform SpecH2C.
From Verif Require LXmd LUniform.
Import ListNotations.

(** Whatever the history, the hash and the parameters: the field elements extracted are those of the octets
    that expand_message_xmd extracts, each coordinate from L octets of its own. *)
Theorem C77_elements_of_the_octets : forall C inj b p m L count dst a ops,
  h2f_run C inj b p m L count dst a ops =
  option_map (map (elements p m L count)) (xmd_run C inj b (count * m * L) dst a ops).
Proof.
  intros. rewrite LXmd.h2f_run_is. destruct (xmd_run _ _ _ _ _ _ _); reflexivity.
Qed.
Print Assumptions C77_elements_of_the_octets.

(** Every list of elements comes from q^(count m) to (q+1)^(count m) of the octet strings, where q is at least
    2^k if L octets hold k bits more than p: over uniform octets no list is likelier than another by more than
    a factor of (1 + 2^-k)^(count m). *)
Theorem C77_unbiased : forall p m L count k target,
  p <> 0%N -> (p * 2 ^ k <= 256 ^ N.of_nat L)%N ->
  length target = count -> Forall (fun row => length row = m /\ Forall (fun r => (r < p)%N) row) target ->
  let q := (256 ^ N.of_nat L / p)%N in
  exists n, has_members (fun u => octet_string (count * m * L) u /\ elements p m L count u = target) n /\
    (2 ^ k <= q)%N /\ (q ^ N.of_nat (count * m) <= n <= (q + 1) ^ N.of_nat (count * m))%N.
Proof. exact LUniform.unbiased. Qed.
Print Assumptions C77_unbiased.

(** The BLS12-381 suites: L is ceil((ceil(log2 p) + k) / 8), and 64 octets hold k = 128 bits more than p. *)
Theorem C77_suites : forall S, S = h2f_suite_g1 \/ S = h2f_suite_g2 ->
  let p := Z.to_N bls12_381_q in
  p <> 0%N /\ (p * 2 ^ N.of_nat (suite_k S) <= 256 ^ N.of_nat (suite_L S))%N /\
  suite_L S = N.to_nat ((N.log2_up p + N.of_nat (suite_k S) + 7) / 8).
Proof. intros S [->| ->]; vm_compute; repeat split; discriminate. Qed.
Print Assumptions C77_suites.

(** Two elements of two coordinates modulo 11 from two octets each: 65536 = 11 * 5957 + 9, so some values have
    5957 preimages and others 5958. *)
Example C77_hypotheses :
  (11 * 2 ^ 12 <= 256 ^ N.of_nat 2)%N /\
  Forall (fun row => length row = 2 /\ Forall (fun r => (r < 11)%N) row) [[3; 10]; [0; 7]]%N /\
  elements 11 2 2 2 [0; 3; 0; 21; 1; 8; 0; 18]%N = [[3; 10]; [0; 7]]%N.
Proof. vm_compute. repeat split; repeat constructor; discriminate. Qed.
