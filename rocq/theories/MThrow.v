(** * Model: ranges whose iterators throw

    hash_value.hpp:105-146: the stream processor is a temporary object, so that its destructor also runs when the exception
    leaves the statement.  What is read is a list: values, and [None] where operator* or ++ of an iterator throws.  The
    programs here catch the exception and go on with the accumulator. *)
From Coq Require Import NArith ZArith Arith List.
From Verif Require Import MPack MAcc MMisc MHash MXmd MPedersen MCrc SpecStore MStore.
Import ListNotations.

Section Reads.
Context (C : construction) (inj : injector).
(** detail/block_stream_processor.hpp:97-120: update_n and the input-iterator loop; [true]: they were left by an exception
    (an element is read before update_one is entered). *)
Fixpoint bsp_reads (vb : nat) (p : bsp C) (rs : list (option N)) : option (bsp C * bool) :=
  match rs with
  | [] => Some (p, false)
  | None :: _ => Some (p, true)
  | Some x :: r => match bsp_update_one C inj vb p x with None => None | Some p' => bsp_reads vb p' r end
  end.
(** hash_value.hpp:105-146 with detail/block_stream_processor.hpp:138-143: the destructor runs in both cases. *)
Definition into_reads (vb : nat) (a : acc C) (rs : list (option N)) : option (acc C * bool) :=
  match bsp_reads vb (bsp_init C vb a) rs with
  | None => None
  | Some (p, thrown) => option_map (fun a' => (a', thrown)) (bsp_finish C inj vb p)
  end.
(** algorithm/hash.hpp:90-104 and 200-212: hash<H>(first, last, out) and hash<H>(range, out): the memory afterwards, and the
    iterator returned, if there is one. *)
Definition reads_out (junk : list N) (vb : nat) (rs : list (option N)) (m : memory) (out : nat) : option (memory * option nat) :=
  match into_reads vb (acc_init C junk) rs with
  | None => None
  | Some (_, true) => Some (m, None)
  | Some (a, false) => option_map (fun r => (fst r, Some (snd r))) (as_iterator C m out a)
  end.
(** algorithm/hash.hpp:133-143 and 228-238: hash<H>(first, last, acc), hash<H>(range, acc), on the caller's accumulator; this is also
    how h2f, h2c and find_group_hash update theirs (detail/h2f/h2f_functions.hpp:86-98, find_group_hash.hpp:114-122). *)
Definition reads_acc (vb : nat) (a : acc C) (rs : list (option N)) : option (acc C) := option_map fst (into_reads vb a rs).
End Reads.

(** Accumulators of several hashes, as in MStore.v. *)
Definition mixed_reads {K : Type} (C : K -> construction) (inj : K -> injector) :=
  run_store (St := {k : K & acc (C k)})
            (fun j : K * list N => Some (existT (fun k => acc (C k)) (fst j) (acc_init (C (fst j)) (snd j))))
            (fun s (u : nat * list (option N)) =>
               let '(existT _ k a) := s in
               option_map (existT (fun k => acc (C k)) k) (reads_acc (C k) (inj k) (fst u) a (snd u)))
            (fun s (_ : unit) =>
               let '(existT _ k a) := s in option_map (fun d => (d, s)) (acc_result (C k) a)).

(** hash_to_field, as in MStore.v. *)
Definition h2f_reads (C : construction) (inj : injector) (b : nat) (p : N) (m L count : nat) (dst : list N) :=
  run_store (xmd_init C inj)
            (fun a (u : nat * list (option N)) => reads_acc C inj (fst u) a (snd u))
            (fun a (e : (nat -> list N) * list N) => h2f_process C inj b p m L count (fst e) dst (snd e) a).

(** pedersen.hpp:170-190: the loops over a range of bits. *)
Fixpoint bits_reads {G} (add : G -> G -> G) (mul : Z -> G -> G) (base : N -> G) (p : Z) (width : nat) (c : N)
    (a : pacc) (rs : list (option bool)) : option pacc :=
  match rs with
  | [] | None :: _ => Some a
  | Some b :: r =>
      match update_bit add mul base p width c a b with None => None | Some a' => bits_reads add mul base p width c a' r end
  end.
Definition pedersen_reads {G} (zero : G) (add : G -> G -> G) (mul : Z -> G -> G) (base : N -> G) (p : Z) (width : nat) (c : N) :=
  run_store (fun _ : unit => Some (p_init zero base))
            (fun a (rs : list (option bool)) => bits_reads add mul base p width c a rs)
            (fun a (_ : unit) => p_process add mul base p width c a).

(** crc.hpp:60-96 and 166-191: the loops over iterators other than pointers (reading through a pointer does not throw). *)
Fixpoint crc_values_reads (cc : crc_computer) (s : cc_state cc) (rs : list (option N)) : cc_state cc :=
  match rs with [] | None :: _ => s | Some x :: r => crc_values_reads cc (acc_value cc s x) r end.
Definition crc_reads (cc : crc_computer) (bits : nat) :=
  run_store (fun _ : unit => Some (crc_init cc))
            (fun s (rs : list (option N)) => Some (crc_values_reads cc s rs))
            (fun s (_ : unit) => Some (crc_result cc bits s, s)).
