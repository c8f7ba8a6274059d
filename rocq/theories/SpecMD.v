(** * Specification: Merkle-Damgard hashing of a bit string

    Written from the usual definition (RFC 1321 section 3.1-3.4, FIPS 180-4 section 5.1 and 6):
    append the marker, then the least number of zero bits, then the message length in bits, so
    that the result is a whole number of blocks; chain the compression function over the blocks;
    output the first [db] bits of the state. *)
From Coq Require Import NArith Arith List Bool.
From Verif Require Import SpecStream.
Import ListNotations.

(** Least [k] such that [n + k] is a multiple of [bb]. *)
Definition pad_zeros (bb n : nat) : nat := (bb - n mod bb) mod bb.

(** [e] is the byte order of the hash: the length field of [lb] bits is written in that order. *)
Definition md_pad (e : endian) (bb lb : nat) (marker : list bool) (M : list bool) : list bool :=
  M ++ marker ++ repeat false (pad_zeros bb (length M + length marker + lb)) ++
  word_stream e lb (N.of_nat (length M)).

(** Chaining over the [w]-bit words of each block, in byte order [e]. *)
Definition md_chain (e : endian) (w bw : nat) (comp : list N -> list N -> list N)
    (iv : list N) (P : list bool) : list N :=
  fold_left comp (map (words_of_stream e w) (chunks (w * bw) P)) iv.

(** The digest: the first [db] bits of the state as octets, in byte order [e]. *)
Definition md_hash (e : endian) (w bw lb db : nat) (marker : list bool) (iv : list N)
    (comp : list N -> list N -> list N) (M : list bool) : list N :=
  words_of_stream e 8
    (firstn db (stream e w (md_chain e w bw comp iv (md_pad e (w * bw) lb marker M)))).

(** The same with [L] in the length field in place of the message's length. *)
Definition md_pad_as (e : endian) (bb lb : nat) (marker : list bool) (L : N) (M : list bool) : list bool :=
  M ++ marker ++ repeat false (pad_zeros bb (length M + length marker + lb)) ++ word_stream e lb L.
Definition md_hash_as (e : endian) (w bw lb db : nat) (marker : list bool) (iv : list N)
    (comp : list N -> list N -> list N) (L : N) (M : list bool) : list N :=
  words_of_stream e 8
    (firstn db (stream e w (md_chain e w bw comp iv (md_pad_as e (w * bw) lb marker L M)))).

(** The two markers in use: a one bit, and Tiger's octet 0x01. *)
Definition one_marker : list bool := [true].
Definition tiger_marker : list bool := [false; false; false; false; false; false; false; true].

(** Parameters for which the construction makes sense: whole-octet words of at most 64 bits, a
    length field of at least 64 bits that is a whole number of words and fits in a block. *)
Record md_params (w bw lb : nat) : Prop := {
  mp_w8 : w mod 8 = 0;
  mp_w : 0 < w <= 64;
  mp_bw : 0 < bw;
  mp_lb : 64 <= lb <= w * bw;
  mp_lw : lb mod w = 0 }.

(** The calls of the compression function made while chaining over [blocks]: state and block of each... *)
Fixpoint comp_calls (comp : list N -> list N -> list N) (s : list N) (blocks : list (list N)) : list (list N * list N) :=
  match blocks with
  | [] => []
  | b :: r => (s, b) :: comp_calls comp (comp s b) r
  end.
(** ... and those made by hashing [M]. *)
Definition md_comp_calls (e : endian) (w bw lb : nat) (marker : list bool) (iv : list N)
    (comp : list N -> list N -> list N) (M : list bool) : list (list N * list N) :=
  comp_calls comp iv (map (words_of_stream e w) (chunks (w * bw) (md_pad e (w * bw) lb marker M))).
(** A collision of the compression function between two lists of calls. *)
Definition collision_among (comp : list N -> list N -> list N) (cs cs' : list (list N * list N)) : Prop :=
  exists s b s' b', In (s, b) cs /\ In (s', b') cs' /\ (s, b) <> (s', b') /\ comp s b = comp s' b'.
