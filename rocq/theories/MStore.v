(** * Model: several accumulators

    accumulators/hash.hpp:220-223 and 271: the members of an accumulator (filled, total_seen, cache,
    construction; acc) are values, pedersen.hpp:92-103 likewise, and there is no other state, so
    the implicit copy constructor and assignment of boost::accumulators::accumulator_set (external) copy
    everything an accumulator is.  Accumulators are numbered; using a number that has not been created is
    [None]. *)
From Coq Require Import NArith ZArith Arith List.
From Verif Require Import MPack MAcc MXmd MPedersen MCrc SpecStore.
Import ListNotations.

Section Store.
Context {St J U E D : Type} (init : J -> option St) (update : St -> U -> option St)
        (extract : St -> E -> option (D * St)).

(** The digests reported, each with the number of its accumulator. *)
Fixpoint run_store (slots : nat -> option St) (cs : list (call J U E)) : option (list (nat * D)) :=
  match cs with
  | [] => Some []
  | Create i j :: cs => match init j with None => None | Some s => run_store (put i s slots) cs end
  | Update i u :: cs =>
      match slots i with
      | None => None
      | Some s => match update s u with None => None | Some s' => run_store (put i s' slots) cs end
      end
  | Extract i e :: cs =>
      match slots i with
      | None => None
      | Some s =>
          match extract s e with
          | None => None
          | Some (d, s') => option_map (cons (i, d)) (run_store (put i s' slots) cs)
          end
      end
  | Copy i k :: cs => match slots i with None => None | Some s => run_store (put k s slots) cs end
  end.
End Store.

(** accumulators/hash.hpp:97-110 with algorithm/hash.hpp: accumulators of the block hashes.  A creation is
    given the memory its cache happens to hold, an update a range of [fst u]-bit values; result() is const
    and works on a copy of the construction. *)
Definition block_calls (C : construction) (inj : injector) :=
  run_store (fun junk => Some (acc_init C junk))
            (fun a (u : nat * list N) => hash_into C inj (fst u) a (snd u))
            (fun a (_ : unit) => option_map (fun d => (d, a)) (acc_result C a)).

(** accumulators/hash.hpp:230-275 for h2f: result() is const but works on the mutable member. *)
Definition h2f_calls (C : construction) (inj : injector) (b : nat) (p : N) (m L count : nat) (dst : list N) :=
  run_store (xmd_init C inj)
            (fun a (u : nat * list N) => xmd_update C inj (fst u) a (snd u))
            (fun a (e : (nat -> list N) * list N) => h2f_process C inj b p m L count (fst e) dst (snd e) a).

(** The same for pedersen_to_point (pedersen.hpp:47-196). *)
Definition pedersen_calls {G} (zero : G) (add : G -> G -> G) (mul : Z -> G -> G) (base : N -> G) (p : Z)
    (width : nat) (c : N) :=
  run_store (fun _ : unit => Some (p_init zero base))
            (fun a (bs : list bool) => update_bits add mul base p width c a bs)
            (fun a (_ : unit) => p_process add mul base p width c a).

(** Accumulators of several hashes in one program: an accumulator is one of hash [k], for some [k : K], and a
    creation says of which.  A copy has the type of what it copies. *)
Definition mixed_calls {K : Type} (C : K -> construction) (inj : K -> injector) :=
  run_store (St := {k : K & acc (C k)})
            (fun j : K * list N => Some (existT (fun k => acc (C k)) (fst j) (acc_init (C (fst j)) (snd j))))
            (fun s (u : nat * list N) =>
               let '(existT _ k a) := s in
               option_map (existT (fun k => acc (C k)) k) (hash_into (C k) (inj k) (fst u) a (snd u)))
            (fun s (_ : unit) =>
               let '(existT _ k a) := s in option_map (fun d => (d, s)) (acc_result (C k) a)).

(** detail/crc/accumulator.hpp:93-146: the accumulator of a CRC is its construction, a value; result() is const. *)
Definition crc_calls (cc : crc_computer) (bits : nat) :=
  run_store (fun _ : unit => Some (crc_init cc))
            (fun s (u : iterator * list N) => stream_range cc (fst u) s (snd u))
            (fun s (_ : unit) => Some (crc_result cc bits s, s)).
