(** * Model of the hash accumulator and of the block stream processor *)
From Coq Require Import NArith Arith List Bool.
From Verif Require Import SpecStream MPack.
Import ListNotations.

(** [std::size_t] arithmetic (64-bit target). *)
Definition wrap64 (x : N) : N := (x mod 2 ^ 64)%N.

(** The interface every block construction offers to the accumulator:
    detail/merkle_damgard_construction.hpp:55-171, detail/sponge_construction.hpp:56-142,
    detail/haifa_construction.hpp:52-152.  [c_proc s block seen] is process_block,
    [c_digest s block total] is digest on a copy of the construction ([None]: out-of-bounds
    access), [c_init] the state after the constructor's reset. *)
Record construction := Mk_construction {
  c_endian : endian;           (* Params::digest_endian *)
  c_host : endian;             (* order in which pack_to reads the caller's values *)
  c_word : nat;                (* word_bits *)
  c_words : nat;               (* block_words *)
  c_state : Type;
  c_init : c_state;
  c_proc : c_state -> list N -> N -> c_state;
  c_digest : c_state -> list N -> N -> option (list N) }.

Definition block_bits (C : construction) : nat := c_word C * c_words C.

(** accumulators/hash.hpp:225-228: the data members of hash_impl. *)
Record acc (C : construction) := Mk_acc {
  filled : bool;
  total : N;
  cache : list N;
  cst : c_state C }.
Arguments Mk_acc {C}. Arguments filled {C}. Arguments total {C}.
Arguments cache {C}. Arguments cst {C}.

(** accumulators/hash.hpp:93: the constructor; [junk] is the indeterminate value of [cache]. *)
Definition acc_init (C : construction) (junk : list N) : acc C := Mk_acc false 0%N junk (c_init C).

(** One call acc(sample, bits = n): a block or a word; n = 0 stands for an omitted bit count
    (accumulators/hash.hpp:97-100, default std::size_t()). *)
Inductive feed := FBlock (v : list N) (n : nat) | FWord (v : N) (n : nat).

Section Acc.
Context (C : construction) (inj : injector).
Let w := c_word C.
Let bw := c_words C.
Let bb := block_bits C.

(** accumulators/hash.hpp:121-124 and 182-185. *)
Definition flush (a : acc C) : acc C :=
  if filled a then Mk_acc false (total a) (cache a) (c_proc C (cst a) (cache a) (total a)) else a.

(** accumulators/hash.hpp:126 and 187. *)
Definition cached_bits (a : acc C) : nat := N.to_nat (total a mod N.of_nat bb).

(** accumulators/hash.hpp:131-157 and 190-216, the code common to both overloads when the cache
    already holds bits; [src] is the supplied block or word. *)
Definition append_bits (a : acc C) (src : list N) (n : nat) : option (acc C) :=
  let cached := cached_bits a in
  let needed := bb - cached in
  let m := if n <? needed then n else needed in
  match inject inj w bw src m (cache a) cached 0 with
  | None => None
  | Some cache1 =>
      let total1 := wrap64 (total a + N.of_nat m) in
      if cached + m =? bb then
        if m <? n then
          let st1 := c_proc C (cst a) cache1 total1 in
          match inject inj w bw src (n - m) cache1 0 m with
          | None => None
          | Some cache2 =>
              Some (Mk_acc false (wrap64 (total1 + N.of_nat (n - m))) cache2 st1)
          end
        else Some (Mk_acc true total1 cache1 (cst a))
      else Some (Mk_acc (filled a) total1 cache1 (cst a))
  end.

(** accumulators/hash.hpp:172-174: number of words moved for a partial block. *)
Definition words_for (n : nat) : nat := n / w + (if n mod w =? 0 then 0 else 1).

(** accumulators/hash.hpp:118-177.  Moving more words than the block has is out of bounds. *)
Definition process_block_value (a0 : acc C) (v : list N) (n : nat) : option (acc C) :=
  let a := flush a0 in
  if negb (cached_bits a =? 0) then append_bits a v n
  else
    let total1 := wrap64 (total a + N.of_nat n) in
    if n =? bb then Some (Mk_acc true total1 v (cst a))
    else
      let k := words_for n in
      if k <=? bw
      then Some (Mk_acc (filled a) total1 (firstn k v ++ skipn k (cache a)) (cst a))
      else None.

(** accumulators/hash.hpp:179-223. *)
Definition process_word_value (a0 : acc C) (v : N) (n : nat) : option (acc C) :=
  let a := flush a0 in
  let cached := cached_bits a in
  if negb (cached mod w =? 0) then append_bits a [v] n
  else
    Some (Mk_acc (filled a) (wrap64 (total a + N.of_nat n))
                 (firstn (cached / w) (cache a) ++ v :: skipn (S (cached / w)) (cache a)) (cst a)).

(** accumulators/hash.hpp:97-116: operator() and resolve_type. *)
Definition acc_feed (a : acc C) (f : feed) : option (acc C) :=
  match f with
  | FBlock v n => process_block_value a v (if n =? 0 then bb else n)
  | FWord v n => process_word_value a v (if n =? 0 then w else n)
  end.

Fixpoint acc_feeds (a : acc C) (fs : list feed) : option (acc C) :=
  match fs with
  | [] => Some a
  | f :: fs' => match acc_feed a f with None => None | Some a' => acc_feeds a' fs' end
  end.

(** accumulators/hash.hpp:102-105: result copies the construction, so the accumulator itself is
    unchanged. *)
Definition acc_result (a : acc C) : option (list N) := c_digest C (cst a) (cache a) (total a).

(** detail/block_stream_processor.hpp:146-149: data members (the reference to the accumulator
    is modelled by threading the accumulator). [vb] is value_bits. *)
Record bsp := Mk_bsp { b_acc : acc C; b_cache : list N; b_seen : nat }.

(** detail/block_stream_processor.hpp:72. *)
Definition block_values (vb : nat) : nat := bb / vb.

(** detail/block_stream_processor.hpp:135: the constructor value-initialises the cache. *)
Definition bsp_init (vb : nat) (a : acc C) : bsp := Mk_bsp a (repeat 0%N (block_values vb)) 0.

(** detail/block_stream_processor.hpp:78-84. *)
Definition bsp_process_block (vb : nat) (p : bsp) (seen_bits : nat) : option (acc C) :=
  acc_feed (b_acc p) (FBlock (pack_to (c_host C) (c_endian C) vb w (b_cache p)) seen_bits).

(** detail/block_stream_processor.hpp:87-95.  A write past the cache is [None]. *)
Definition bsp_update_one (vb : nat) (p : bsp) (x : N) : option bsp :=
  if b_seen p <? block_values vb then
    let p1 := Mk_bsp (b_acc p)
                (firstn (b_seen p) (b_cache p) ++ x :: skipn (S (b_seen p)) (b_cache p))
                (S (b_seen p)) in
    if b_seen p1 =? block_values vb then
      match bsp_process_block vb p1 bb with
      | None => None
      | Some a => Some (Mk_bsp a (b_cache p1) 0)
      end
    else Some p1
  else None.

(** detail/block_stream_processor.hpp:97-120: update_n and the input-iterator loop. *)
Fixpoint bsp_update_n (vb : nat) (p : bsp) (xs : list N) : option bsp :=
  match xs with
  | [] => Some p
  | x :: xs' => match bsp_update_one vb p x with None => None | Some p' => bsp_update_n vb p' xs' end
  end.

(** detail/block_stream_processor.hpp:138-143: the destructor flushes the partial block. *)
Definition bsp_finish (vb : nat) (p : bsp) : option (acc C) :=
  if 0 <? b_seen p then bsp_process_block vb p (b_seen p * vb) else Some (b_acc p).

(** hash_value.hpp:105-146 (range_hash_impl::process): a temporary stream processor is built on
    the accumulator, given the range, and destroyed.  This is hash<H>(range, acc) for a range
    of [vb]-bit values. *)
Definition hash_into (vb : nat) (a : acc C) (xs : list N) : option (acc C) :=
  match bsp_update_n vb (bsp_init vb a) xs with
  | None => None
  | Some p => bsp_finish vb p
  end.

(** Successive hash<H>(piece, acc) calls, each with its own element width. *)
Fixpoint hash_pieces (a : acc C) (ps : list (nat * list N)) : option (acc C) :=
  match ps with
  | [] => Some a
  | (vb, xs) :: ps' =>
      match hash_into vb a xs with None => None | Some a' => hash_pieces a' ps' end
  end.

(** algorithm/hash.hpp:159-170 with hash_value.hpp:81-175: hash<H>(first, last) builds a fresh
    accumulator, processes the range and extracts. *)
Definition hash_once (vb : nat) (junk : list N) (xs : list N) : option (list N) :=
  match hash_into vb (acc_init C junk) xs with None => None | Some a => acc_result a end.

(** A history of calls on one accumulator set: hash<H>(range, acc) (algorithm/hash.hpp:133-143)
    and accumulators::extract::hash<H>(acc) (accumulators/hash.hpp:102-105), which returns a
    digest.  The result is the list of extracted digests. *)
Inductive op := OpHash (vb : nat) (xs : list N) | OpExtract.

Fixpoint run_ops (a : acc C) (ops : list op) : option (list (list N)) :=
  match ops with
  | [] => Some []
  | OpHash vb xs :: ops' =>
      match hash_into vb a xs with None => None | Some a' => run_ops a' ops' end
  | OpExtract :: ops' =>
      match acc_result a, run_ops a ops' with
      | Some d, Some ds => Some (d :: ds)
      | _, _ => None
      end
  end.
End Acc.

(** accumulators/bits_count.hpp:45-68: cnt += bits, with the default 0. *)
Definition bits_count_feed (cnt : N) (f : feed) : N :=
  match f with FBlock _ n => wrap64 (cnt + N.of_nat n) | FWord _ n => wrap64 (cnt + N.of_nat n) end.

Definition bits_count (fs : list feed) : N := fold_left bits_count_feed fs 0%N.
