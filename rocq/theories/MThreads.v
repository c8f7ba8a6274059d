(** * Model: several threads

    No function of the library writes to memory other than the accumulator it is given and its own automatic variables: the
    only static objects of functions are constants (for example md5_policy.hpp:70, sha2_policy.hpp:83, poseidon_round_operator.hpp:76 and 131,
    h2c_functions.hpp:50), and static members that are not constants (find_group_hash.hpp:51 and 103, h2f.hpp:50)
    are only read, so that all that threads can share are accumulators.  A thread makes calls, one after the other; an
    update takes several turns, between which other threads take theirs. *)
From Coq Require Import NArith ZArith Arith List.
From Verif Require Import MPack MAcc MXmd MPedersen MCrc MFgh MH2C SpecStore.
Import ListNotations.

Section Machine.
(** [L]: the automatic variables of an update in progress. *)
Context {St J U E D L : Type} (init : J -> option St) (begin : U -> L) (turn_of : St -> L -> option (St * option L))
        (extract : St -> E -> option (D * St)).

(** A thread: the update in progress (on which accumulator), the calls still to make and the digests it was given. *)
Record thread := Mk_thread { t_update : option (nat * L); t_calls : list (call J U E); t_reports : list (nat * D) }.
Record machine := Mk_machine { m_slots : nat -> option St; m_threads : nat -> thread }.

(** One turn of thread [t]; [None]: it uses an accumulator that does not exist, or leaves the bounds of an array. *)
Definition turn (m : machine) (t : nat) : option machine :=
  let th := m_threads m t in
  let slots := m_slots m in
  let back slots' th' := Some (Mk_machine slots' (fun k => if k =? t then th' else m_threads m k)) in
  match t_update th with
  | Some (i, l) =>
      match slots i with
      | None => None
      | Some s =>
          match turn_of s l with
          | None => None
          | Some (s', l') => back (put i s' slots) (Mk_thread (option_map (pair i) l') (t_calls th) (t_reports th))
          end
      end
  | None =>
      match t_calls th with
      | [] => Some m
      | Create i j :: cs => match init j with None => None | Some s => back (put i s slots) (Mk_thread None cs (t_reports th)) end
      | Update i u :: cs => back slots (Mk_thread (Some (i, begin u)) cs (t_reports th))
      | Extract i e :: cs =>
          match slots i with
          | None => None
          | Some s =>
              match extract s e with
              | None => None
              | Some (d, s') => back (put i s' slots) (Mk_thread None cs (t_reports th ++ [(i, d)]))
              end
          end
      | Copy i k :: cs => match slots i with None => None | Some s => back (put k s slots) (Mk_thread None cs (t_reports th)) end
      end
  end.

(** A schedule: the thread of each turn. *)
Fixpoint run_schedule (m : machine) (schedule : list nat) : option machine :=
  match schedule with
  | [] => Some m
  | t :: r => match turn m t with None => None | Some m' => run_schedule m' r end
  end.

(** The threads start with the accumulators [slots]. *)
Definition start (slots : nat -> option St) (calls : nat -> list (call J U E)) : machine :=
  Mk_machine slots (fun t => Mk_thread None (calls t) []).
Definition finished (m : machine) (t : nat) : Prop := t_update (m_threads m t) = None /\ t_calls (m_threads m t) = [].
End Machine.

(** The accumulators a program leaves. *)
Fixpoint slots_after {St J U E D : Type} (init : J -> option St) (update : St -> U -> option St)
    (extract : St -> E -> option (D * St)) (slots : nat -> option St) (cs : list (call J U E)) : option (nat -> option St) :=
  match cs with
  | [] => Some slots
  | Create i j :: cs => match init j with None => None | Some s => slots_after init update extract (put i s slots) cs end
  | Update i u :: cs =>
      match slots i with
      | None => None
      | Some s => match update s u with None => None | Some s' => slots_after init update extract (put i s' slots) cs end
      end
  | Extract i e :: cs =>
      match slots i with
      | None => None
      | Some s => match extract s e with None => None | Some (_, s') => slots_after init update extract (put i s' slots) cs end
      end
  | Copy i k :: cs => match slots i with None => None | Some s => slots_after init update extract (put k s slots) cs end
  end.

(** hash_value.hpp:105-146 and detail/block_stream_processor.hpp:87-143: an update of a block hash.  Its automatic variable is
    the stream processor: its construction, then one turn for each value, which may process a block, then its destruction. *)
Inductive bsp_local := Starting (vb : nat) (xs : list N) | Running (vb : nat) (xs cache : list N) (seen : nat).
Definition bsp_begin (u : nat * list N) : bsp_local := Starting (fst u) (snd u).
Definition bsp_turn (C : construction) (inj : injector) (a : acc C) (l : bsp_local) : option (acc C * option bsp_local) :=
  match l with
  | Starting vb xs => let p := bsp_init C vb a in Some (a, Some (Running vb xs (b_cache C p) (b_seen C p)))
  | Running vb (x :: xs) cache seen =>
      match bsp_update_one C inj vb (Mk_bsp C a cache seen) x with
      | None => None
      | Some p => Some (b_acc C p, Some (Running vb xs (b_cache C p) (b_seen C p)))
      end
  | Running vb [] cache seen =>
      match bsp_finish C inj vb (Mk_bsp C a cache seen) with None => None | Some a' => Some (a', None) end
  end.

(** Accumulators of several hashes, as in MStore.v. *)
Section Mixed.
Context {K : Type} (C : K -> construction) (inj : K -> injector).
Definition mixed_state : Type := {k : K & acc (C k)}.
Definition mixed_init (j : K * list N) : option mixed_state :=
  Some (existT (fun k => acc (C k)) (fst j) (acc_init (C (fst j)) (snd j))).
Definition mixed_turn (s : mixed_state) (l : bsp_local) : option (mixed_state * option bsp_local) :=
  let '(existT _ k a) := s in
  option_map (fun al => (existT (fun k => acc (C k)) k (fst al), snd al)) (bsp_turn (C k) (inj k) a l).
Definition mixed_update (s : mixed_state) (u : nat * list N) : option mixed_state :=
  let '(existT _ k a) := s in option_map (existT (fun k => acc (C k)) k) (hash_into (C k) (inj k) (fst u) a (snd u)).
Definition mixed_extract (s : mixed_state) (_ : unit) : option (list N * mixed_state) :=
  let '(existT _ k a) := s in option_map (fun d => (d, s)) (acc_result (C k) a).
(** The threads of a program that has run [before] sequentially. *)
Definition mixed_schedule (before : list (call (K * list N) (nat * list N) unit))
    (calls : nat -> list (call (K * list N) (nat * list N) unit)) (schedule : list nat) :=
  match slots_after mixed_init mixed_update mixed_extract nothing before with
  | None => None
  | Some slots => run_schedule mixed_init bsp_begin mixed_turn mixed_extract (start slots calls) schedule
  end.
End Mixed.

(** accumulators/hash.hpp:230-275 for h2f: updates as above; an extraction, which writes to the accumulator, is one turn
    (simplified). *)
Definition h2f_schedule (C : construction) (inj : injector) (b : nat) (p : N) (m L count : nat) (dst : list N)
    (before : list (call (list N) (nat * list N) ((nat -> list N) * list N)))
    (calls : nat -> list (call (list N) (nat * list N) ((nat -> list N) * list N))) (schedule : list nat) :=
  let extract a (e : (nat -> list N) * list N) := h2f_process C inj b p m L count (fst e) dst (snd e) a in
  match slots_after (xmd_init C inj) (fun a (u : nat * list N) => xmd_update C inj (fst u) a (snd u)) extract nothing before with
  | None => None
  | Some slots => run_schedule (xmd_init C inj) bsp_begin (bsp_turn C inj) extract (start slots calls) schedule
  end.

(** pedersen.hpp:170-190: an update takes one turn for each bit, and one to return; an extraction is one turn (simplified). *)
Definition pedersen_turn {G} (add : G -> G -> G) (mul : Z -> G -> G) (base : N -> G) (p : Z) (width : nat) (c : N)
    (a : pacc) (bs : list bool) : option (pacc * option (list bool)) :=
  match bs with
  | [] => Some (a, None)
  | b :: r => match update_bit add mul base p width c a b with None => None | Some a' => Some (a', Some r) end
  end.
Definition pedersen_schedule {G} (zero : G) (add : G -> G -> G) (mul : Z -> G -> G) (base : N -> G) (p : Z) (width : nat) (c : N)
    (before : list (call unit (list bool) unit)) (calls : nat -> list (call unit (list bool) unit)) (schedule : list nat) :=
  let init (_ : unit) := Some (p_init zero base) in
  let extract a (_ : unit) := p_process add mul base p width c a in
  match slots_after init (fun a (bs : list bool) => update_bits add mul base p width c a bs) extract nothing before with
  | None => None
  | Some slots => run_schedule init (fun bs => bs) (pedersen_turn add mul base p width c) extract (start slots calls) schedule
  end.

(** crc.hpp:60-96: with weaker iterators an update takes a turn for each value and one to return; with others it is
    one turn (for pointers boost::crc_optimal::process_bytes, external; for random-access iterators simplified). *)
Definition crc_turn (cc : crc_computer) (s : cc_state cc) (u : iterator * list N)
    : option (cc_state cc * option (iterator * list N)) :=
  match u with
  | (Weaker, []) => Some (s, None)
  | (Weaker, x :: xs) => Some (acc_value cc s x, Some (Weaker, xs))
  | (it, xs) => option_map (fun s' => (s', None)) (stream_range cc it s xs)
  end.
Definition crc_schedule (cc : crc_computer) (bits : nat)
    (before : list (call unit (iterator * list N) unit)) (calls : nat -> list (call unit (iterator * list N) unit)) (schedule : list nat) :=
  let init (_ : unit) := Some (crc_init cc) in
  let extract s (_ : unit) := Some (crc_result cc bits s, s) in
  match slots_after init (fun s (u : iterator * list N) => stream_range cc (fst u) s (snd u)) extract nothing before with
  | None => None
  | Some slots => run_schedule init (fun u => u) (crc_turn cc) extract (start slots calls) schedule
  end.

(** find_group_hash (find_group_hash.hpp:109-153) and h2c (h2c.hpp:100-116), as in MStoreMore.v; extractions are one turn (simplified;
    that of find_group_hash works on copies). *)
Definition fgh_schedule (C : construction) (inj : injector) {P : Type} (decode : list N -> option P) (cofactor_mul : P -> P)
    (is_zero well_formed : P -> bool) (dst : list N)
    (before : list (call (list N) (nat * list N) nat)) (calls : nat -> list (call (list N) (nat * list N) nat)) (schedule : list nat) :=
  let init junk := fgh_init C inj junk dst in
  let extract a (turns : nat) := Some (fgh_process C inj decode cofactor_mul is_zero well_formed turns a, a) in
  match slots_after init (fun a (u : nat * list N) => hash_into C inj (fst u) a (snd u)) extract nothing before with
  | None => None
  | Some slots => run_schedule init bsp_begin (bsp_turn C inj) extract (start slots calls) schedule
  end.
Definition h2c_schedule {F G : Type} (C : construction) (inj : injector) (b : nat) (elem : list N -> F) (ep : F -> F -> G)
    (p : N) (m L count : nat) (dst : list N)
    (before : list (call (list N) (nat * list N) ((nat -> list N) * list N)))
    (calls : nat -> list (call (list N) (nat * list N) ((nat -> list N) * list N))) (schedule : list nat) :=
  let extract a (e : (nat -> list N) * list N) :=
    option_map (fun ua => (ep_of elem ep (fst ua), snd ua)) (h2f_process C inj b p m L count (fst e) dst (snd e) a) in
  match slots_after (xmd_init C inj) (fun a (u : nat * list N) => xmd_update C inj (fst u) a (snd u)) extract nothing before with
  | None => None
  | Some slots => run_schedule (xmd_init C inj) bsp_begin (bsp_turn C inj) extract (start slots calls) schedule
  end.
