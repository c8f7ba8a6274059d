(** * Model of the construction objects used directly

    The state of an object is [state_]; MConstr.v has what its functions return, here is also what they leave. *)
From Coq Require Import NArith Arith List Bool.
From Verif Require Import SpecStream SpecStore MPack MAcc MConstr SpecObject.
Import ListNotations.

Record object := Mk_object {
  ob_class : construction;                                                       (* constructor, process_block *)
  ob_iv : c_state ob_class;                                                      (* iv_generator()() *)
  ob_reset_to : c_state ob_class -> c_state ob_class;                            (* state_ after reset(s) *)
  ob_digest : c_state ob_class -> list N -> N -> option (c_state ob_class * list N) }.   (* digest: state_ and result *)

(** detail/merkle_damgard_construction.hpp:91-149: digest works on state_ itself; reset(s) is [state_ = s]; reset() is
    [reset(iv())]. *)
Definition md_object (e : endian) (w bw lb dw : nat) (iv : list N) (comp : list N -> list N -> list N)
    (padding : list N -> nat -> option (list N * nat)) : object :=
  Mk_object (md_construction e w bw lb dw iv comp padding) iv (fun s => s)
    (fun s block total_arg =>
      let total_seen := (total_arg mod 2 ^ N.of_nat (length_type_bits w lb))%N in
      let block_seen := N.to_nat (total_seen mod N.of_nat (w * bw)) in
      let s1 := if negb (total_seen =? 0)%N && (block_seen =? 0) then comp s block else s in
      match padding block block_seen with
      | None => None
      | Some (b1, seen1) =>
          let '(s2, b2) := if w * bw <? seen1 + lb then (comp s1 b1, repeat 0%N bw) else (s1, b1) in
          match append_length e w bw lb b2 total_seen with
          | None => None
          | Some b3 => let s3 := comp s2 b3 in Some (s3, pack_from e w 8 (firstn dw s3))
          end
      end).

(** detail/sponge_construction.hpp:81-138: as above; the finaliser works on state_ too. *)
Definition sponge_object (e : endian) (w bw digest_bytes : nat) (iv : list N) (comp : list N -> list N -> list N)
    (padding : list N -> nat -> option (list N * bool)) (process_last : list N -> nat -> option (list N))
    (fin : list N -> list N) : object :=
  Mk_object (sponge_construction e w bw digest_bytes iv comp padding process_last fin) iv (fun s => s)
    (fun s block total_seen =>
      let block_seen := N.to_nat (total_seen mod N.of_nat (w * bw)) in
      let s1 := if negb (total_seen =? 0)%N && (block_seen =? 0) then comp s block else s in
      match padding block block_seen with
      | None => None
      | Some (b1, is_last) =>
          let s2 := comp s1 b1 in
          match (if is_last then Some s2
                 else match process_last (repeat 0%N bw) block_seen with
                      | None => None
                      | Some b2 => Some (comp s2 b2)
                      end) with
          | None => None
          | Some s3 => let s4 := fin s3 in Some (s4, firstn digest_bytes (pack_from e w 8 s4))
          end
      end).

(** detail/haifa_construction.hpp:97-148: reset(s) changes word 0 of [s] ([haifa_reset]). *)
Definition haifa_object (e : endian) (w bw digest_bits : nat) (iv : list N) (comp : list N -> list N -> N -> N -> list N)
    (padding : list N -> N -> option (list N)) (salt : N) : object :=
  Mk_object (haifa_construction e w bw (digest_bits / 8) (haifa_reset digest_bits iv) comp padding salt) iv
    (haifa_reset digest_bits)
    (fun s block total_seen =>
      let s1 := if negb (total_seen =? 0)%N && (total_seen mod N.of_nat (w * bw) =? 0)%N
                then comp s block total_seen 0%N else s in
      match padding block total_seen with
      | None => None
      | Some b1 => let s2 := comp s1 b1 total_seen salt in Some (s2, firstn (digest_bits / 8) (pack_from e w 8 s2))
      end).

(** A program over objects of one hash; [prepare] is what the caller does to a saved state before passing it to reset(s):
    nothing in [Restore] as described, see PObject.v for BLAKE2b. *)
Section Run.
Context (o : object) (prepare : c_state (ob_class o) -> c_state (ob_class o)).
Notation C := (ob_class o).
Fixpoint object_calls (slots : nat -> option (c_state C)) (cs : list ocall) : option (list (nat * list N)) :=
  match cs with
  | [] => Some []
  | New i :: cs => object_calls (put i (c_init C) slots) cs
  | Process i b seen :: cs =>
      match slots i with Some s => object_calls (put i (c_proc C s b seen) slots) cs | None => None end
  | Finish i b total :: cs =>
      match slots i with
      | Some s =>
          match ob_digest o s b total with
          | Some (s', d) => option_map (cons (i, d)) (object_calls (put i s' slots) cs)
          | None => None
          end
      | None => None
      end
  | Reset i :: cs =>
      match slots i with Some _ => object_calls (put i (ob_reset_to o (ob_iv o)) slots) cs | None => None end
  | Restore i j :: cs =>
      match slots i, slots j with
      | Some s, Some _ => object_calls (put j (ob_reset_to o (prepare s)) slots) cs
      | _, _ => None
      end
  | Clone i j :: cs => match slots i with Some s => object_calls (put j s slots) cs | None => None end
  end.
End Run.
