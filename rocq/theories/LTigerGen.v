(** The S-boxes of the code are the published ones. *)
From Coq Require Import NArith List.
From Verif Require Import MTiger SpecTigerTables.
Import ListNotations.

Lemma tables_eq : tables = [sbox1; sbox2; sbox3; sbox4].
Proof. reflexivity. Qed.
