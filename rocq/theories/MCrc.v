(** * Model of the CRC hash, its accumulator and its stream processor *)
From Coq Require Import NArith Arith List Bool.
From Verif Require Import SpecStream MPack.
Import ListNotations.

(** boost::crc_optimal<...> (Boost, not in this repository): crc.hpp:106-107. *)
Record crc_computer := Mk_computer {
  cc_state : Type;
  cc_reset : cc_state;                            (* constructor and reset() *)
  cc_byte : cc_state -> N -> cc_state;            (* process_byte *)
  cc_bytes : cc_state -> list N -> cc_state;      (* process_bytes, on the octets it is given *)
  cc_checksum : cc_state -> N }.

(** What a range is handed over as: a pointer, another random-access iterator, or an iterator of a
    weaker category. *)
Inductive iterator := Pointer | RandomAccess | Weaker.

Section Crc.
Context (cc : crc_computer) (digest_bits : nat).

(** crc.hpp:155-164: basic_crc::update_one; the argument is converted to an octet. *)
Definition update_one (s : cc_state cc) (x : N) : cc_state cc := cc_byte cc s (x mod 256)%N.

(** crc.hpp:166-172 and 181-184: the loops of update_n. *)
Fixpoint update_loop (s : cc_state cc) (xs : list N) : cc_state cc :=
  match xs with [] => s | x :: xs' => update_loop (update_one s x) xs' end.

(** crc.hpp:166-191: update_n, for elements of one octet (crc.hpp:250 asserts that). *)
Definition update_n (it : iterator) (s : cc_state cc) (xs : list N) : cc_state cc :=
  match it with Pointer => cc_bytes cc s xs | _ => update_loop s xs end.

(** crc.hpp:199-216: basic_crc::operator()(b, e). *)
Definition construction_range (it : iterator) (s : cc_state cc) (xs : list N) : cc_state cc :=
  match it with Weaker => update_loop s xs | _ => update_n it s xs end.

(** crc.hpp:137-146: digest. *)
Definition digest (s : cc_state cc) : list N :=
  let x := cc_checksum cc s in
  firstn (digest_bits / 8) (pack BOBB BOBB digest_bits 8 [x]).

(** crc.hpp:148-152: end_message. *)
Definition end_message (s : cc_state cc) : list N * cc_state cc := (digest s, cc_reset cc).

(** detail/crc/accumulator.hpp:100-112: the constructor and result (const). *)
Definition crc_init : cc_state cc := cc_reset cc.
Definition crc_result (s : cc_state cc) : list N := digest s.

(** detail/crc/accumulator.hpp:115-121 and 138-140: acc(value). *)
Definition acc_value (s : cc_state cc) (x : N) : cc_state cc := update_one s x.

(** detail/crc/accumulator.hpp:131-136: acc(p, bits = n); [xs] is what lies from p onwards; reading
    beyond it is [None]. *)
Definition acc_iterator (it : iterator) (s : cc_state cc) (xs : list N) (bits : nat) : option (cc_state cc) :=
  if (bits / 8 <=? length xs) then Some (construction_range it s (firstn (bits / 8) xs)) else None.

(** detail/crc/accumulator.hpp:123-129 and 142-144: acc(block): begin and end of a digest, which is
    an array (so pointers or class iterators: [it]). *)
Definition acc_block (it : iterator) (s : cc_state cc) (block : list N) : cc_state cc := construction_range it s block.

(** crc.hpp:60-96: crc_stream_processor::operator() on a range of octets. *)
Fixpoint each_value (s : cc_state cc) (xs : list N) : cc_state cc :=
  match xs with [] => s | x :: xs' => each_value (acc_value s x) xs' end.
Definition stream_range (it : iterator) (s : cc_state cc) (xs : list N) : option (cc_state cc) :=
  match it with
  | Weaker => Some (each_value s xs)
  | _ => acc_iterator it s xs (length xs * 1 * 8)
  end.

(** A history on one accumulator set: hash<crc>(range, acc) (through the stream processor), acc(value),
    acc(block), and extraction. *)
Inductive crc_op := Range (it : iterator) (xs : list N) | Value (x : N) | Block (it : iterator) (xs : list N) | Extract.
Fixpoint crc_run (s : cc_state cc) (ops : list crc_op) : option (list (list N)) :=
  match ops with
  | [] => Some []
  | Range it xs :: r => match stream_range it s xs with None => None | Some s' => crc_run s' r end
  | Value x :: r => crc_run (acc_value s x) r
  | Block it xs :: r => crc_run (acc_block it s xs) r
  | Extract :: r => match crc_run s r with None => None | Some ds => Some (crc_result s :: ds) end
  end.
End Crc.

(** hash_value.hpp:181-190: operator Integral, for an integer type of [bits] = digest_bits bits (with a wider type, also
    accepted, the digest does not fill [out]; what pack_to does then is not known here). *)
Definition as_integer (bits : nat) (d : list N) : N := hd 0%N (pack_to host_order LOBB 8 bits d).
