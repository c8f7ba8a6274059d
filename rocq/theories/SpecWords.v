(** * Octet strings as words, in either byte order (specification vocabulary) *)
From Coq Require Import NArith Arith List.
From Verif Require Import SpecStream.
Import ListNotations.

(** Value of an octet string, least significant octet first / most significant octet first. *)
Fixpoint le_value (os : list N) : N :=
  match os with [] => 0%N | o :: os' => (o + 256 * le_value os')%N end.
Definition be_value (os : list N) : N := le_value (rev os).

(** The [n]-octet words of an octet string. *)
Definition le_words (n : nat) (os : list N) : list N := map le_value (chunks n os).
Definition be_words (n : nat) (os : list N) : list N := map be_value (chunks n os).

(** The octets of [n]-octet words ([octets_le] is in SpecStream.v). *)
Definition le_octets (n : nat) (ws : list N) : list N := flat_map (octets_le n) ws.
Definition be_octets (n : nat) (ws : list N) : list N := flat_map (fun x => rev (octets_le n x)) ws.
