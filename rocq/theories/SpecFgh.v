(** * Specification: FindGroupHash of the Zcash protocol specification (section 5.4.9.5) *)
From Coq Require Import NArith List Bool String Ascii.
Import ListNotations.
Local Open Scope list_scope.

(** Octets of a string of ASCII characters. *)
Definition ascii_octets (s : string) : list N := map N_of_ascii (list_ascii_of_string s).
(** The uniform random string of the Zcash protocol specification (section 5.9), and the personalisation of
    the generators of Pedersen hashes (section 5.4.1.7). *)
Definition URS : list N := ascii_octets "096b36a5804bfacef1691e173c366a47ff5ba84a44f26ddd7e8d9f79d5b42df0".
Definition zcash_PH : list N := ascii_octets "Zcash_PH".

Section Fgh.
(** The hash, the decoding of a digest as a curve point, the cofactor multiple, and its being zero. *)
Context {P : Type} (H : list N -> list N) (decode : list N -> option P) (cofactor_mul : P -> P) (is_zero : P -> bool).

(** The first value of i = from, ..., from + n - 1 for which [f i] is a point. *)
Fixpoint first_of (f : N -> option P) (n : nat) (from : N) : option P :=
  match n with
  | O => None
  | S n' => match f from with Some q => Some q | None => first_of f n' (from + 1)%N end
  end.

(** The candidate with counter octet i, and the property's reading: the cofactor multiple of the first
    candidate that decodes, among i = 0 .. 255. *)
Definition candidate (prefix msg : list N) (i : N) : option P := decode (H (prefix ++ msg ++ [i])).
Definition first_valid (prefix msg : list N) : option P := option_map cofactor_mul (first_of (candidate prefix msg) 256 0).

(** The published definition also skips the candidates of small order. *)
Definition group_hash (prefix msg : list N) (i : N) : option P :=
  match candidate prefix msg i with
  | Some q => if is_zero (cofactor_mul q) then None else Some (cofactor_mul q)
  | None => None
  end.
Definition find_group_hash (prefix msg : list N) : option P := first_of (group_hash prefix msg) 256 0.
End Fgh.
