(** * Property C85: Poseidon sponges are values

    Specification: SpecPosStore.v, SpecPoseidon.v ([chain]), SpecThreads.v.  Model: MPosStore.v over MPoseidon.v.  [F] is any
    commutative ring, [perm] any permutation and [permM] the model's; C36 and C39 have the instances of the library. *)
From Coq Require Import NArith ZArith Arith List.
From Verif Require Import SpecPoseidon MPoseidonTables MPoseidon SpecStore MStore SpecThreads MThreads SpecPosStore MPosStore.
From Verif Require LPosStore LPoseidonStmt.
Import ListNotations.
Local Open Scope nat_scope.

(** Programs with any number of sponges that are created, fed, squeezed and copied in any order. *)
Theorem C85_programs :
  forall (F : ring) (P : base_policy) (perm : list F -> list F) (permM : list F -> option (list F)),
  capacity P = 1 -> 0 < rate P ->
  (forall s, length s = state_words P -> permM s = Some (perm s) /\ length (perm s) = state_words P) ->
  forall cs : list (call unit (list F) unit), poseidon_calls P permM nothing cs = squeezes perm (rate P) nothing cs.
Proof. exact @LPosStore.program. Qed.
Print Assumptions C85_programs.

(** Threads, each with sponges of its own: whatever the schedule, each is given what it would be given alone (a part of it
    until it has finished, which it has after a number of turns that depends on its own calls only). *)
Theorem C85_threads :
  forall (F : ring) (P : base_policy) (perm : list F -> list F) (permM : list F -> option (list F)),
  capacity P = 1 -> 0 < rate P ->
  (forall s, length s = state_words P -> permM s = Some (perm s) /\ length (perm s) = state_words P) ->
  forall (owner : nat -> option nat) (before : list (call unit (list F) unit)) calls (alone : nat -> list (nat * F)) schedule,
  (forall i, owner i <> None) -> Forall no_digest before -> (forall t, Forall (may owner t) (calls t)) ->
  (forall t, squeezes perm (rate P) nothing (before ++ calls t) = Some (alone t)) ->
  exists s, poseidon_schedule P permM before calls schedule = Some s /\
    forall t, part_of (t_reports (m_threads s t)) (alone t) (finished s t) /\
      (turns_needed (@length F) (calls t) <= turns_of t schedule -> finished s t).
Proof.
  intros F P perm permM Hc Hr Hp owner before calls alone schedule HO HB HF HA.
  apply (LPosStore.poseidon_threads P permM owner); auto. intros t. rewrite (LPosStore.program P perm permM Hc Hr Hp). apply HA.
Qed.
Print Assumptions C85_threads.

(** squeeze returns a reference.  In whatever state a program leaves a sponge: the element read through the reference is the
    one squeezed until more than [rate P] elements are absorbed; then it is the chaining element. *)
Theorem C85_reference :
  forall (F : ring) (P : base_policy) (perm : list F -> list F) (permM : list F -> option (list F)),
  capacity P = 1 -> 0 < rate P ->
  (forall s, length s = state_words P -> permM s = Some (perm s) /\ length (perm s) = state_words P) ->
  forall cs slots i s s' v xs s'',
  slots_after (sponge_init P) (fun s xs => absorb_vector P permM s xs) (sponge_extract P permM) nothing cs = Some slots ->
  slots i = Some s -> squeeze P permM s = Some (s', v) -> absorb_vector P permM s' xs = Some s'' ->
  read_reference s' = Some v /\ read_reference s'' = Some (referred perm (rate P) v xs) /\
  (length xs <= rate P -> read_reference s'' = Some v).
Proof.
  intros F P perm permM Hc Hr Hp cs slots i s s' v xs s'' H1 H2 H3 H4.
  destruct (LPosStore.reference_after P perm permM Hc Hr Hp cs slots i s s' v xs s'' H1 H2 H3 H4) as [K1 K2].
  split; [exact K1|]. split; [exact K2|]. intros L. rewrite K2. f_equal. now apply LPosStore.referred_short; auto.
Qed.
Print Assumptions C85_reference.

(** The instances of the library. *)
Theorem C85_original_instances :
  forall f Security Rate P mds rc, poseidon_policy Security Rate = Some P -> constants_data f P = Some (mds, rc) ->
  let p := modulus f in
  let perm := poseidon_permutation 5 8 (part_rounds P) (of_table p mds) (of_table p rc) in
  forall cs, poseidon_calls P (permute_state P (of_table p mds) (of_table p rc)) nothing cs = squeezes perm Rate nothing cs.
Proof. exact LPosStore.original_program. Qed.
Print Assumptions C85_original_instances.
Theorem C85_mina_instances :
  forall f mds rc, constants_data f mina_poseidon_policy = Some (mds, rc) ->
  let p := modulus f in
  let perm := mina_permutation 7 55 (of_table p mds) (of_table p rc) in
  forall cs, poseidon_calls mina_poseidon_policy (permute_state mina_poseidon_policy (of_table p mds) (of_table p rc)) nothing cs =
    squeezes perm 2 nothing cs.
Proof. exact LPosStore.mina_program. Qed.
Print Assumptions C85_mina_instances.

(** A permutation of three integers meets the hypotheses.  Two sponges, the second a copy of the first after two of
    three elements; two threads, on their own sponges; and a reference read after two and after three elements. *)
Definition integers : ring :=
  {| car := Z; zero := 0%Z; one := 1%Z; add := Z.add; mul := Z.mul; sub := Z.sub; opp := Z.opp |}.
Definition toy (s : list integers) : list integers := rev (vadd s ([1; 2; 3]%Z : list integers)).
Definition el (z : Z) : integers := z.
Definition copied : list (call unit (list integers) unit) :=
  [Create 0 tt; Update 0 [el 5; el 6]; Copy 0 1; Update 0 [el 7]; Extract 1 tt; Extract 0 tt; Update 1 [el 8]; Extract 1 tt].
Example C85_hypotheses : let P := mina_poseidon_policy in
  capacity P = 1 /\ 0 < rate P /\
  forall s, length s = state_words P -> Some (toy s) = Some (toy s) /\ length (toy s) = state_words P.
Proof.
  split; [reflexivity|]. split; [repeat constructor|]. intros s Hs. split; [reflexivity|].
  destruct s as [|a [|b [|c [|d s]]]]; try discriminate Hs. reflexivity.
Qed.
Example C85_copied :
  squeezes toy 2 nothing copied = Some [(1, el 1); (0, el 2); (1, el 2)] /\
  poseidon_calls mina_poseidon_policy (fun s => Some (toy s)) nothing copied = Some [(1, el 1); (0, el 2); (1, el 2)].
Proof. split; vm_compute; reflexivity. Qed.
Example C85_threads_ok : let owner := fun i => Some i in
  let calls := fun t => if t <? 2 then [Update t [el (Z.of_nat t)]; Extract t tt] else [] in
  let before := [Create 0 tt; Create 1 tt] in
  (forall i, owner i <> None) /\ Forall no_digest before /\ (forall t, Forall (may owner t) (calls t)) /\
  forall t, squeezes toy 2 nothing (before ++ calls t) <> None.
Proof.
  split; [discriminate|]. split; [repeat constructor|]. split.
  - intros t. destruct (t <? 2); repeat constructor.
  - intros [|[|t]]; [vm_compute; discriminate..|]. replace (S (S t) <? 2) with false by reflexivity. vm_compute. discriminate.
Qed.
Example C85_reference_example : exists s s' v s2 s3,
  absorb_vector mina_poseidon_policy (fun s => Some (toy s)) (new_sponge mina_poseidon_policy) [el 5] = Some s /\
  squeeze mina_poseidon_policy (fun s => Some (toy s)) s = Some (s', v) /\
  absorb_vector mina_poseidon_policy (fun s => Some (toy s)) s' [el 6; el 7] = Some s2 /\ read_reference s2 = Some v /\
  absorb_vector mina_poseidon_policy (fun s => Some (toy s)) s' [el 6; el 7; el 8] = Some s3 /\ read_reference s3 <> Some v.
Proof.
  do 5 eexists. split; [vm_compute; reflexivity|]. split; [vm_compute; reflexivity|]. split; [vm_compute; reflexivity|].
  split; [vm_compute; reflexivity|]. split; [vm_compute; reflexivity|]. vm_compute. discriminate.
Qed.
