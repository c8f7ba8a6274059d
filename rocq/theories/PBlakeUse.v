(** * Property C89: BLAKE2b objects return a definite function in every program

    As C87 and C88: no rule of C84 is kept.  Specification: SpecBlakeUse.v ([blake_returns]: what is returned, in terms of the
    compression function of RFC 7693 in SpecBlake2b.v).  Model: MObject.v over MBlake2b.v; [blake2b_object] is C84's. *)
From Coq Require Import NArith Arith List Bool.
From Verif Require Import SpecStream SpecWords SpecBlake2b SpecStore MPack MAcc MBlake2b SpecObject SpecAnyUse MObject PObject SpecBlakeUse.
From Verif Require LBlakeUse.
Import ListNotations.

(** Every program: any objects, calls in any order, any blocks, any counts (whole octets for digest). *)
Theorem C89_every_program : forall bits injb cs, bits <= 512 -> injector_contract LOBB 64 16 injb ->
  Forall (octet_arguments 64 16) cs ->
  object_calls (blake2b_object injb bits) (fun s => s) nothing cs = blake_returns (bits / 8) nothing cs.
Proof. intros bits injb cs Hb HI HA. exact (LBlakeUse.every_blake_program injb bits HI cs Hb HA). Qed.
Print Assumptions C89_every_program.

(** The objects are those of the library's hash. *)
Theorem C89_objects : forall bits injb, ob_class (blake2b_object injb bits) = blake2b injb bits.
Proof. reflexivity. Qed.
Print Assumptions C89_objects.

(** A forgotten reset: the second message is hashed from the state after the first one, in place of the initial state. *)
Theorem C89_forgotten_reset : forall bits injb i m1 m2, injector_contract LOBB 64 16 injb -> bits <= 512 ->
  Forall (fits 8) m1 -> Forall (fits 8) m2 -> (N.of_nat (8 * length m1) < 2 ^ 64)%N -> (N.of_nat (8 * length m2) < 2 ^ 64)%N ->
  object_calls (blake2b_object injb bits) (fun s => s) nothing (New i :: blake_hash_calls i m1 ++ blake_hash_calls i m2) =
  Some [(i, BLAKE2b_observed (bits / 8) m1);
        (i, blake_output (bits / 8) (blake_state (blake_state (initial_state (bits / 8)) m1) m2))].
Proof. intros bits injb i m1 m2. exact (LBlakeUse.blake_reused injb bits i m1 m2). Qed.
Print Assumptions C89_forgotten_reset.
(** [blake_state] from the initial state is the hash. *)
Example C89_function : forall nn m, BLAKE2b_observed nn m = blake_output nn (blake_state (initial_state nn) m).
Proof. exact LBlake2bCol.observed_final. Qed.

(** A state passed on twice is the state: after b.reset(a.state()), c.reset(b.state()) makes c a copy of a. *)
Theorem C89_state_passed_twice : forall bits injb a b c before after ds, a <> b ->
  object_calls (blake2b_object injb bits) (fun s => s) nothing (before ++ Restore a b :: Restore b c :: after) = Some ds ->
  object_calls (blake2b_object injb bits) (fun s => s) nothing (before ++ Restore a b :: Clone a c :: after) = Some ds.
Proof. intros bits injb a b c before after ds Hab H. exact (LBlakeUse.passed_twice injb bits a b c before after ds Hab nothing H). Qed.
Print Assumptions C89_state_passed_twice.

(** Non-vacuity: a program no rule of C84 allows, messages of several blocks, and states passed on twice. *)
Definition careless : list ocall :=
  [New 0; Finish 0 (repeat 7%N 16) 0; Finish 0 (repeat 7%N 16) 1024; New 1; Restore 0 1; Process 1 (repeat 1%N 16) 3; Finish 1 (repeat 0%N 16) 80].
Example C89_example : Nat.leb 512 512 = true /\ Forall (octet_arguments 64 16) careless /\
  map blake_taken [0; 1024; 80]%N = [0; 128; 10].
Proof. split; [reflexivity|]. split; [repeat constructor|reflexivity]. Qed.
Example C89_example_messages : exists m1 m2 : list N, Forall (fits 8) m1 /\ Forall (fits 8) m2 /\
  length (blake_hash_calls 0 m1) = 1 /\ length (blake_hash_calls 0 m2) = 3.
Proof.
  exists (repeat 9%N 100), (repeat 200%N 257). split; [repeat constructor|]. split; [repeat constructor|]. split; reflexivity.
Qed.
Example C89_example_states : exists cs ds, object_calls (blake2b_object (inj_keep LOBB 64 16) 512) (fun s => s) nothing
  ([New 0; New 1; New 2] ++ Restore 0 1 :: Restore 1 2 :: cs) = Some ds.
Proof. exists [], []. reflexivity. Qed.
