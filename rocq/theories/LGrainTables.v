(** The tables of the code are the published constants: proofs by computation. *)
From Coq Require Import NArith ZArith List Bool.
From Verif Require Import SpecGrain SpecPoseidon MPoseidonTables LGrainFast.

Theorem bn254_2 : published (Z.to_N bn254_r) 254 3 8 57 bn254_2_rc bn254_2_mds.
Proof. apply (check_ok _ _ _ _ _ _ _ (N.to_nat 16000) 265). vm_compute. reflexivity. Qed.
Theorem bn254_4 : published (Z.to_N bn254_r) 254 5 8 60 bn254_4_rc bn254_4_mds.
Proof. apply (check_ok _ _ _ _ _ _ _ (N.to_nat 28500) 473). vm_compute. reflexivity. Qed.
Theorem bls12_381_2 : published (Z.to_N bls12_381_r) 255 3 8 57 bls12_381_2_rc bls12_381_2_mds.
Proof. apply (check_ok _ _ _ _ _ _ _ (N.to_nat 13200) 216). vm_compute. reflexivity. Qed.
Theorem bls12_381_4 : published (Z.to_N bls12_381_r) 255 5 8 60 bls12_381_4_rc bls12_381_4_mds.
Proof. apply (check_ok _ _ _ _ _ _ _ (N.to_nat 22700) 375). vm_compute. reflexivity. Qed.
