(** * Property C84: construction objects used directly, reset, and restored from saved states

    Specification: SpecObject.v (the digests a program over objects must be given), SpecLibrary.v (the hashes by name and the
    functions they are published as).  Model: MObject.v over MConstr.v and the hashes. *)
From Coq Require Import NArith Arith List Bool.
From Verif Require Import SpecStream SpecOctets SpecStore MPack MAcc MConstr SpecLibrary SpecObject MObject.
From Verif Require MMisc SpecSha SpecBlake2b SpecKeccak MSha MRipemd MTiger MKeccak MBlake2b LObject.
Import ListNotations.

(** Merkle-Damgard hashes (MD4, MD5, SHA, SHA-1, SHA-2, RIPEMD, Tiger).  Every program over any number of objects that
    follows the rules of SpecObject.v is given published digests: whatever the unused rest of a last block holds, whatever an
    object did before it is reset, and whatever object a state is saved from and restored to.  The second argument of
    process_block does not matter. *)
Theorem C84_merkle_damgard : forall e w bw lb dw iv comp padding inj H cs ds,
  let o := md_object e w bw lb dw iv comp padding in
  library_hash inj (ob_class o) H -> Forall (arguments_ok w bw) cs ->
  object_digests e w (w * bw / 8) false H nothing cs = Some ds ->
  object_calls o (fun s => s) nothing cs = Some ds.
Proof.
  intros e w bw lb dw iv comp padding inj H cs ds o HL HA HP.
  apply (LObject.programs o (fun s => s) false inj H HL) with (P := nothing); auto.
  - intros s b n. apply LObject.md_returns.
  - apply LObject.nothing_match.
Qed.
Print Assumptions C84_merkle_damgard.

(** The same for SHA-3 and Keccak. *)
Theorem C84_sponge : forall e w bw db iv comp padding last fin inj H cs ds,
  let o := sponge_object e w bw db iv comp padding last fin in
  library_hash inj (ob_class o) H -> Forall (arguments_ok w bw) cs ->
  object_digests e w (w * bw / 8) false H nothing cs = Some ds ->
  object_calls o (fun s => s) nothing cs = Some ds.
Proof.
  intros e w bw db iv comp padding last fin inj H cs ds o HL HA HP.
  apply (LObject.programs o (fun s => s) false inj H HL) with (P := nothing); auto.
  - intros s b n. apply LObject.sponge_returns.
  - apply LObject.nothing_match.
Qed.
Print Assumptions C84_sponge.

(** BLAKE2b: process_block needs its second argument.  The property holds of programs without [Restore], and of those whose
    caller changes the first word of a saved state before passing it to reset. *)
Definition blake2b_object (inj : injector) (bits : nat) : object :=
  haifa_object LOBB 64 16 bits MBlake2b.blake2b_iv MBlake2b.blake2b_process_block (blake2b_padding inj 64 16) 0xFFFFFFFFFFFFFFFF.
Definition undo (bits : nat) (s : list N) : list N :=
  match s with [] => [] | x :: l => N.lxor x (N.lxor 0x01010000 (N.of_nat (bits / 8))) :: l end.
Theorem C84_blake2b_partial : forall bits injb inj cs ds,
  bits mod 8 = 0 /\ 0 < bits <= 512 -> injector_contract LOBB 64 16 injb -> injector_contract LOBB 64 16 inj ->
  Forall (arguments_ok 64 16) cs ->
  object_digests LOBB 64 128 true (SpecBlake2b.BLAKE2b_observed (bits / 8)) nothing cs = Some ds ->
  object_calls (blake2b_object injb bits) (undo bits) nothing cs = Some ds /\
  (~ (exists i j, In (Restore i j) cs) -> object_calls (blake2b_object injb bits) (fun s => s) nothing cs = Some ds).
Proof.
  intros bits injb inj cs ds Hb HB HI HA HP.
  assert (HL : library_hash inj (ob_class (blake2b_object injb bits)) (SpecBlake2b.BLAKE2b_observed (bits / 8)))
    by (exact (L_blake2b inj bits injb Hb HB HI)).
  split; [|intros NR].
  - apply (LObject.programs (blake2b_object injb bits) (undo bits) true inj _ HL) with (P := nothing); auto.
    + intros s b n. apply LObject.haifa_returns.
    + discriminate.
    + intros _ s. exact (LObject.haifa_reset_twice bits s).
    + apply LObject.nothing_match.
  - apply (LObject.programs (blake2b_object injb bits) (fun s => s) true inj _ HL) with (P := nothing); auto.
    + intros s b n. apply LObject.haifa_returns.
    + discriminate.
    + intros ER. exfalso. apply NR. unfold LObject.restores in ER. apply existsb_exists in ER. destruct ER as (c & Hc & Ec).
      destruct c as [?|? ? ?|? ? ?|?|i j|? ?]; try discriminate Ec. now exists i, j.
    + apply LObject.nothing_match.
Qed.
Print Assumptions C84_blake2b_partial.

(** But [b.reset(a.state())] does not give [b] the state of [a], whatever that is, ... *)
Theorem C84_blake2b_reset_state_refuted : forall bits injb (s : list N), bits <= 512 -> s <> [] ->
  ob_reset_to (blake2b_object injb bits) s <> s.
Proof.
  intros bits injb [|x l] Hb Hs; [contradiction|]. intros E. apply (f_equal (hd 0%N)) in E.
  exact (LObject.xor_changes x _ (LObject.parameter_nonzero bits Hb) E).
Qed.
Print Assumptions C84_blake2b_reset_state_refuted.

(** ... and a program that moves the state of a new object to another new object is given another digest of the empty
    message. *)
Definition moved : list ocall := [New 0; New 1; Restore 0 1; Finish 1 (repeat 0%N 16) 0].
Definition first_octet (r : option (list (nat * list N))) : N :=
  match r with Some ((_, x :: _) :: _) => x | _ => 0%N end.
Example C84_moved_ok : Forall (arguments_ok 64 16) moved /\ forall H,
  object_digests LOBB 64 128 true H nothing moved = Some [(1, H [])].
Proof.
  split; [|reflexivity]. repeat (constructor; [exact I|]). constructor; [|constructor].
  split; [reflexivity|]. split; [|reflexivity]. apply Forall_forall. intros x Hx. apply repeat_spec in Hx. now subst x.
Qed.
Theorem C84_blake2b_restore_refuted : forall injb, injector_contract LOBB 64 16 injb ->
  ~ (forall cs ds, Forall (arguments_ok 64 16) cs ->
     object_digests LOBB 64 128 true (SpecBlake2b.BLAKE2b_observed 64) nothing cs = Some ds ->
     object_calls (blake2b_object injb 512) (fun s => s) nothing cs = Some ds).
Proof.
  intros injb HB K. destruct C84_moved_ok as [A E]. specialize (E (SpecBlake2b.BLAKE2b_observed 64)).
  assert (Hb : 512 mod 8 = 0 /\ 0 < 512 <= 512) by (repeat split; repeat constructor).
  pose proof (K _ _ A E) as K1. pose proof (proj1 (C84_blake2b_partial 512 injb injb moved _ Hb HB HB A E)) as K2.
  assert (Q : first_octet (object_calls (blake2b_object injb 512) (fun s => s) nothing moved) =
              first_octet (object_calls (blake2b_object injb 512) (undo 512) nothing moved)) 
    by exact (f_equal first_octet (eq_trans K1 (eq_sym K2))).
  vm_compute in Q. discriminate Q.
Qed.
Print Assumptions C84_blake2b_restore_refuted.

(** The hashes of the library are such constructions, and the rules leave room for real programs. *)
Example C84_sha256_is : forall cipher inj, MSha.sha2_256 cipher inj =
  ob_class (md_object BOBB 32 16 64 8 MSha.sha2_256_iv (MMisc.davies_meyer cipher (MMisc.state_adder 32))
    (merkle_damgard_padding inj BOBB 32 16)).
Proof. reflexivity. Qed.
Example C84_sha3_is : forall injb d, MKeccak.sha3 injb d =
  ob_class (sponge_object BOBB 64 (MKeccak.keccak_words d) (d / 8) (repeat 0%N 25) (MKeccak.keccak_process_block MKeccak.permute)
    (sha3_padding injb 64 (MKeccak.keccak_words d)) (sha3_process_last injb 64 (MKeccak.keccak_words d))
    (MKeccak.keccak_finalizer MKeccak.permute (MKeccak.keccak_words d) d)).
Proof. reflexivity. Qed.
Example C84_blake2b_is : forall injb bits, MBlake2b.blake2b injb bits = ob_class (blake2b_object injb bits).
Proof. reflexivity. Qed.
(** A saved state of 64 octets, continued in two ways, in a used object and after a reset; the word after "ab" is stale. *)
Definition midstate : list ocall :=
  [New 0; New 1; Finish 1 (repeat 7%N 16) 0; Process 0 (repeat 0x01020304%N 16) 0; Restore 0 1; Clone 0 2;
   Finish 1 (0x6162ffff%N :: repeat 9%N 15) 528; Finish 0 (repeat 0x01020304%N 16) 1024;
   Reset 1; Finish 1 (0x61626364%N :: repeat 9%N 15) 24; Finish 2 (repeat 0%N 16) 520].
Example C84_midstate : Forall (arguments_ok 32 16) midstate /\ forall H,
  let block := flat_map (fun _ : nat => [1; 2; 3; 4]%N) (seq 0 16) in
  object_digests BOBB 32 64 false H nothing midstate =
  Some [(1, H []); (1, H (block ++ [0x61; 0x62]%N)); (0, H (block ++ block)); (1, H [0x61; 0x62; 0x63]%N); (2, H (block ++ [0]%N))].
Proof.
  split; [|intros H; vm_compute; reflexivity].
  unfold midstate. repeat constructor; unfold fits; cbn; reflexivity.
Qed.
