(** * Model of the three block constructions and of the generic paddings *)
From Coq Require Import NArith Arith List Bool.
From Verif Require Import SpecStream MPack MAcc.
Import ListNotations.

(** ** Merkle-Damgard *)
Section MerkleDamgard.
Context (e : endian) (w bw : nat)        (* digest_endian, word_bits, block_words *)
        (lb dw : nat)                    (* length_bits, digest_words *)
        (iv : list N)
        (comp : list N -> list N -> list N)       (* compressor_functor::process_block *)
        (padding : list N -> nat -> option (list N * nat)).  (* block, block_seen (in/out) *)
Let bb := w * bw.

(** detail/merkle_damgard_construction.hpp:83-85. *)
Definition length_type_bits : nat := if lb <? w then w else if 64 <? lb then 64 else lb.

(** detail/merkle_damgard_construction.hpp:151-169.  A length field longer than the block would
    write out of bounds. *)
Definition append_length (b : list N) (len : N) : option (list N) :=
  if lb =? 0 then Some b
  else if lb / w <=? bw
  then Some (firstn (bw - lb / w) b ++ firstn (lb / w) (pack e e lb w [len]))
  else None.

(** detail/merkle_damgard_construction.hpp:97-131 (the finaliser is nop_finalizer,
    detail/nop_finalizer.hpp, in every instance).  The parameter total_seen is a length_type. *)
Definition md_digest (s : list N) (block : list N) (total_arg : N) : option (list N) :=
  let total_seen := (total_arg mod 2 ^ N.of_nat length_type_bits)%N in
  let block_seen := N.to_nat (total_seen mod N.of_nat bb) in
  let s1 := if negb (total_seen =? 0)%N && (block_seen =? 0) then comp s block else s in
  match padding block block_seen with
  | None => None
  | Some (b1, seen1) =>
      let '(s2, b2) := if bb <? seen1 + lb then (comp s1 b1, repeat 0%N bw) else (s1, b1) in
      match append_length b2 total_seen with
      | None => None
      | Some b3 =>
          let s3 := comp s2 b3 in
          Some (pack_from e w 8 (firstn dw s3))
      end
  end.

(** detail/merkle_damgard_construction.hpp:91-95, 133-144. *)
Definition md_construction : construction :=
  Mk_construction e host_order w bw (list N) iv (fun s b _ => comp s b) md_digest.
End MerkleDamgard.

Section MarkerPadding.
Context (inj : injector) (e : endian) (w bw : nat).
Let bb := w * bw.

(** detail/merkle_damgard_padding.hpp:62-78 and detail/tiger/tiger_padding.hpp:60-76, which
    differ only in the marker octet and in the number of its bits that are injected. *)
Definition marker_padding (marker : N) (marker_bits : nat) (block : list N) (block_seen : nat)
    : option (list N * nat) :=
  (* lines 65-68: remove garbage *)
  match inject inj w bw (repeat 0%N bw) (bb - block_seen) block block_seen 0 with
  | None => None
  | Some b1 =>
      (* lines 71-74: bit_one in the endianness of the hash *)
      let bit_one_word := hd 0%N (pack BOBB e 8 w (marker :: repeat 0%N (w / 8 - 1))) in
      (* line 77 *)
      match inject inj w bw [bit_one_word] marker_bits b1 block_seen 0 with
      | None => None
      | Some b2 => Some (b2, block_seen + marker_bits)
      end
  end.

(** detail/merkle_damgard_padding.hpp:62-78. *)
Definition merkle_damgard_padding := marker_padding 0x80 1.
(** detail/tiger/tiger_padding.hpp:60-76. *)
Definition tiger_padding := marker_padding 0x01 8.
End MarkerPadding.

(** ** Sponge *)
Section Sponge.
Context (e : endian) (w bw : nat)
        (digest_bytes : nat)
        (iv : list N)
        (comp : list N -> list N -> list N)
        (padding : list N -> nat -> option (list N * bool)) (* block, block_seen -> block, is_last *)
        (process_last : list N -> nat -> option (list N))
        (fin : list N -> list N).
Let bb := w * bw.

(** detail/sponge_construction.hpp:87-121. *)
Definition sponge_digest (s : list N) (block : list N) (total_seen : N) : option (list N) :=
  let block_seen := N.to_nat (total_seen mod N.of_nat bb) in
  let s1 := if negb (total_seen =? 0)%N && (block_seen =? 0) then comp s block else s in
  match padding block block_seen with
  | None => None
  | Some (b1, is_last) =>
      let s2 := comp s1 b1 in
      let s3 :=
        if is_last then Some s2
        else match process_last (repeat 0%N bw) block_seen with
             | None => None
             | Some b2 => Some (comp s2 b2)
             end in
      match s3 with
      | None => None
      | Some s3 => Some (firstn digest_bytes (pack_from e w 8 (fin s3)))
      end
  end.

(** detail/sponge_construction.hpp:81-85, 123-134. *)
Definition sponge_construction : construction :=
  Mk_construction e host_order w bw (list N) iv (fun s b _ => comp s b) sponge_digest.
End Sponge.

(** [high_bits<w>(~word_type(), n)], [low_bits] and [unbounded_shr] (sibling repository). *)
Definition high_ones (w n : nat) : N := N.shiftl (N.ones (N.of_nat n)) (N.of_nat (w - n)).
Definition low_ones (n : nat) : N := N.ones (N.of_nat n).

Section KeccakPaddings.
(** [injb] is the injector for big_octet_little_bit (detail/keccak/keccak_padding.hpp:54-56,
    detail/sha3/sha3_padding.hpp:54-56). *)
Context (injb : injector) (w bw : nat).
Let bb := w * bw.

Definition map_last (f : N -> N) (b : list N) : list N :=
  firstn (length b - 1) b ++ map f (skipn (length b - 1) b).

(** Clearing the [n] high bits of a [w]-bit word: [x & ~high_bits<w>(~word_type(), n)]. *)
Definition clear_high (n : nat) (x : N) : N := N.ldiff x (high_ones w n).

(** detail/keccak/keccak_padding.hpp:68-93. *)
Definition keccak_padding (block : list N) (block_seen : nat) : option (list N * bool) :=
  if 1 <? bb - block_seen then
    match inject injb w bw [N.shiftr (high_ones w 1) 7] 1 block block_seen 0 with
    | None => None
    | Some b1 =>
        let seen1 := block_seen + 1 in
        match inject injb w bw (repeat 0%N bw) (bb - 1 - seen1) b1 seen1 0 with
        | None => None
        | Some b2 =>
            let seen2 := seen1 + (bb - 1 - seen1) in
            match inject injb w bw [N.shiftr (high_ones w 1) 7] 1 b2 seen2 0 with
            | None => None
            | Some b3 => Some (b3, true)
            end
        end
    end
  else Some (map_last (clear_high 1) block, false).

(** detail/keccak/keccak_padding.hpp:95-105. *)
Definition keccak_process_last (block : list N) (block_seen : nat) : option (list N) :=
  match inject injb w bw (repeat 0%N bw) (bb - 1) block block_seen 0 with
  | None => None
  | Some b1 =>
      let seen1 := block_seen + (bb - 1) in
      inject injb w bw [N.shiftr (high_ones w 1) 7] 1 b1 seen1 0
  end.

(** detail/sha3/sha3_padding.hpp:68-94. *)
Definition sha3_padding (block : list N) (block_seen : nat) : option (list N * bool) :=
  if 3 <? bb - block_seen then
    match inject injb w bw [N.shiftr (high_ones w 2) 5] 3 block block_seen 0 with
    | None => None
    | Some b1 =>
        let seen1 := block_seen + 3 in
        match inject injb w bw (repeat 0%N bw) (bb - 1 - seen1) b1 seen1 0 with
        | None => None
        | Some b2 =>
            let seen2 := seen1 + (bb - 1 - seen1) in
            match inject injb w bw [N.shiftr (high_ones w 1) 7] 1 b2 seen2 0 with
            | None => None
            | Some b3 => Some (b3, true)
            end
        end
    end
  else
    let ind := bb - block_seen - 1 in
    Some (map_last (fun x => N.lor (clear_high (ind + 1) x) (high_ones w ind)) block, false).

(** detail/sha3/sha3_padding.hpp:96-109. *)
Definition sha3_process_last (block : list N) (block_seen : nat) : option (list N) :=
  let ind := 3 - (bb - block_seen) in
  match inject injb w bw [low_ones ind] ind block block_seen 0 with
  | None => None
  | Some b1 =>
      let seen1 := block_seen + ind in
      match inject injb w bw (repeat 0%N bw) (bb - 1 - ind) b1 seen1 0 with
      | None => None
      | Some b2 =>
          let seen2 := seen1 + (bb - 1 - ind) in
          inject injb w bw [N.shiftr (high_ones w 1) 7] 1 b2 seen2 0
      end
  end.
End KeccakPaddings.

(** ** HAIFA *)
Section Haifa.
Context (e : endian) (w bw : nat)
        (digest_bytes : nat)
        (init : list N)                                        (* state after reset *)
        (comp : list N -> list N -> N -> N -> list N)          (* state, block, seen, finalizator *)
        (padding : list N -> N -> option (list N))
        (salt : N).
Let bb := w * bw.

(** detail/haifa_construction.hpp:104-130. *)
Definition haifa_digest (s : list N) (block : list N) (total_seen : N) : option (list N) :=
  let s1 := if negb (total_seen =? 0)%N && (total_seen mod N.of_nat bb =? 0)%N
            then comp s block total_seen 0%N else s in
  match padding block total_seen with
  | None => None
  | Some b1 =>
      let s2 := comp s1 b1 total_seen salt in
      Some (firstn digest_bytes (pack_from e w 8 s2))
  end.

(** detail/haifa_construction.hpp:97-102, 132-144. *)
Definition haifa_construction : construction :=
  Mk_construction e host_order w bw (list N) init (fun s b seen => comp s b seen 0%N) haifa_digest.
End Haifa.

(** detail/haifa_construction.hpp:136-139: reset(iv). *)
Definition haifa_reset (digest_bits : nat) (iv : list N) : list N :=
  match iv with
  | [] => []
  | x :: r => N.lxor x (N.lxor 0x01010000 (N.of_nat (digest_bits / 8))) :: r
  end.

Section Blake2bPadding.
Context (inj : injector) (w bw : nat).
Let bb := w * bw.

(** detail/blake2b/blake2b_padding.hpp:53-66. *)
Definition blake2b_padding (block : list N) (total_seen : N) : option (list N) :=
  if (total_seen =? 0)%N || negb (total_seen mod N.of_nat bb =? 0)%N then
    let seen_words := N.to_nat ((total_seen / N.of_nat w) mod N.of_nat bw) +
                      (if (total_seen mod N.of_nat w =? 0)%N then 0 else 1) in
    let b1 := firstn seen_words block ++ repeat 0%N (bw - seen_words) in
    if negb (total_seen mod N.of_nat w =? 0)%N then
      let block_seen := N.to_nat (total_seen mod N.of_nat bb) in
      inject inj w bw [0%N] (w - block_seen mod w) b1 block_seen 0
    else Some b1
  else Some block.
End Blake2bPadding.
