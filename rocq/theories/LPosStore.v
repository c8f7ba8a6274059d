(** Programs with several Poseidon sponges: proofs. *)
From Coq Require Import NArith Arith List Bool Lia ZifyBool ZifyNat ZifyN ZArith.
From Verif Require Import SpecStream LStream SpecPoseidon MPoseidon LPoseidon LPoseidonSponge LPoseidonInst LPoseidonStmt SpecStore MStore SpecThreads MThreads LThreads SpecPosStore MPosStore.
Import ListNotations.
Ltac Zify.zify_post_hook ::= Z.div_mod_to_equations.

Section S.
Context {F : ring} (P : base_policy) (perm : list F -> list F) (permM : list F -> option (list F)).
Context (Hc : capacity P = 1) (Hr : 0 < rate P).
Context (Hperm : forall s, length s = state_words P -> permM s = Some (perm s) /\ length (perm s) = state_words P).
Notation r := (rate P).
Notation rep := (rep P perm).

Definition related (A : nat -> option (F * list F)) (B : nat -> option (@sponge_object F)) : Prop :=
  forall i, match A i, B i with Some (c, p), Some s => rep s c p | None, None => True | _, _ => False end.
Lemma put_related A B i c p s : related A B -> rep s c p -> related (put i (c, p) A) (put i s B).
Proof. intros R K j. unfold put. destruct (j =? i); [exact K|apply R]. Qed.

Lemma programs cs : forall A B, related A B -> poseidon_calls P permM B cs = squeezes perm r A cs.
Proof.
  unfold poseidon_calls. induction cs as [|c cs IH]; intros A B R; [reflexivity|].
  destruct c as [i j|i xs|i e|i k]; cbn [run_store squeezes].
  - unfold sponge_init at 1. apply IH. apply put_related; [exact R|]. exact (rep_new P perm Hc Hr).
  - pose proof (R i) as Ri. destruct (A i) as [[c p]|], (B i) as [s|]; try contradiction; [|reflexivity].
    destruct (absorb_vector_rep P perm permM Hc Hr Hperm xs s c p Ri) as (s' & E & R'). rewrite E.
    apply IH. now apply put_related.
  - pose proof (R i) as Ri. destruct (A i) as [[c p]|], (B i) as [s|]; try contradiction; [|reflexivity].
    destruct (squeeze_rep P perm permM Hc Hr Hperm s c p Ri) as (s' & E & R'). unfold sponge_extract at 1. rewrite E.
    cbn [option_map fst snd]. cbv zeta. f_equal. apply IH. now apply put_related.
  - pose proof (R i) as Ri. destruct (A i) as [[c p]|], (B i) as [s|]; try contradiction; [|reflexivity].
    apply IH. now apply put_related.
Qed.
Theorem program cs : poseidon_calls P permM nothing cs = squeezes perm r nothing cs.
Proof. apply programs. intros i. exact I. Qed.

Theorem reference s c p s' v xs s'' : rep s c p -> squeeze P permM s = Some (s', v) -> absorb_vector P permM s' xs = Some s'' ->
  read_reference s' = Some v /\ read_reference s'' = Some (referred perm r v xs).
Proof.
  intros R E E2. destruct (squeeze_rep P perm permM Hc Hr Hperm s c p R) as (s1 & E1 & R1). rewrite E in E1.
  injection E1 as <- ->. set (v := chain perm r c p) in *.
  assert (G : forall s0 ys, rep s0 v ys -> read_reference s0 = Some (referred perm r v ys)).
  { intros s0 ys (full & g & -> & Hf & Hg & Hn & Es & Ec). unfold read_reference. rewrite Es. cbn [nth_error]. f_equal.
    unfold referred. f_equal. f_equal.
    assert (K : (length (full ++ g) - 1) / r * r = length full).
    { apply Nat.div_exact in Hf; [|lia]. rewrite app_length. destruct g as [|y g].
      - rewrite Hn by auto. cbn [length Nat.add Nat.sub]. rewrite Nat.div_0_l by lia. lia.
      - cbn [length] in *. replace (length full + S (length g) - 1) with (length g + length full / r * r) by lia.
        rewrite Nat.div_add, Nat.div_small by lia. lia. }
    rewrite K, firstn_app, Nat.sub_diag, firstn_all. cbn [firstn]. now rewrite app_nil_r. }
  split.
  - rewrite (G _ [] R1). unfold referred. cbn [length Nat.sub firstn]. rewrite firstn_nil, chunks_nil. reflexivity.
  - destruct (absorb_vector_rep P perm permM Hc Hr Hperm xs s' v [] R1) as (s3 & E3 & R3). rewrite E2 in E3. injection E3 as <-.
    exact (G _ xs R3).
Qed.
(** Every sponge a program leaves represents something. *)
Lemma left_by cs : forall B slots, (forall i s, B i = Some s -> exists c p, rep s c p) ->
  slots_after (sponge_init P) (fun s xs => absorb_vector P permM s xs) (sponge_extract P permM) B cs = Some slots ->
  forall i s, slots i = Some s -> exists c p, rep s c p.
Proof.
  assert (PUT : forall (B : nat -> option (@sponge_object F)) k s c p, (forall i s, B i = Some s -> exists c p, rep s c p) ->
    rep s c p -> forall i s', put k s B i = Some s' -> exists c p, rep s' c p).
  { intros B k s c p HB Rs i s'. unfold put. destruct (i =? k); [intros [= <-]; eauto|apply HB]. }
  induction cs as [|c cs IH]; intros B slots HB; cbn [slots_after]; [intros [= <-]; exact HB|].
  destruct c as [i j|i xs|i e|i k].
  - unfold sponge_init at 1. apply IH. apply (PUT _ _ _ zero []); [exact HB|exact (rep_new P perm Hc Hr)].
  - destruct (B i) as [s|] eqn:E; [|discriminate]. destruct (HB i s E) as (c & p & R).
    destruct (absorb_vector_rep P perm permM Hc Hr Hperm xs s c p R) as (s' & E' & R'). rewrite E'.
    apply IH. exact (PUT _ _ _ _ _ HB R').
  - destruct (B i) as [s|] eqn:E; [|discriminate]. destruct (HB i s E) as (c & p & R).
    destruct (squeeze_rep P perm permM Hc Hr Hperm s c p R) as (s' & E' & R'). unfold sponge_extract at 1. rewrite E'.
    cbn [option_map fst snd]. apply IH. exact (PUT _ _ _ _ _ HB R').
  - destruct (B i) as [s|] eqn:E; [|discriminate]. destruct (HB i s E) as (c & p & R).
    apply IH. exact (PUT _ _ _ _ _ HB R).
Qed.
Theorem reference_after cs slots i s s' v xs s'' :
  slots_after (sponge_init P) (fun s xs => absorb_vector P permM s xs) (sponge_extract P permM) nothing cs = Some slots ->
  slots i = Some s -> squeeze P permM s = Some (s', v) -> absorb_vector P permM s' xs = Some s'' ->
  read_reference s' = Some v /\ read_reference s'' = Some (referred perm r v xs).
Proof.
  intros HS Hi. destruct (left_by cs nothing slots (fun _ _ E => ltac:(discriminate E)) HS i s Hi) as (c & p & R).
  exact (reference s c p s' v xs s'' R).
Qed.
End S.
Lemma referred_short {F : ring} (perm : list F -> list F) r v xs : 0 < r -> length xs <= r -> referred perm r v xs = v.
Proof. intros Hr HX. unfold referred. rewrite Nat.div_small by lia. cbn [Nat.mul firstn]. now rewrite chunks_nil. Qed.

Lemma poseidon_threads {F : ring} (P : base_policy) (perm : list F -> option (list F)) owner before calls alone schedule :
  (forall i, owner i <> None) -> Forall no_digest before -> (forall t, Forall (may owner t) (calls t)) ->
  (forall t, poseidon_calls P perm nothing (before ++ calls t) = Some (alone t)) ->
  exists s, poseidon_schedule P perm before calls schedule = Some s /\
    forall t, part_of (t_reports (m_threads s t)) (alone t) (finished s t) /\
      (turns_needed (@length F) (calls t) <= turns_of t schedule -> finished s t).
Proof.
  intros HO HB HF HA. unfold poseidon_schedule.
  apply (kind _ (fun xs : list F => xs) (poseidon_turn P perm) _
          (fun s xs => absorb_vector P perm s xs) (fun s xs => absorb_vector P perm s xs) (@length F)) with (owner := owner);
    [| | | | |exact HB|exact HF|exact HA].
  - intros s [|x l]; cbn [absorb_vector poseidon_turn]; [reflexivity|]. destruct (absorb_element P perm s x); reflexivity.
  - reflexivity.
  - intros s [|x l] s' l'; cbn [poseidon_turn]; [discriminate|]. destruct (absorb_element P perm s x); [|discriminate].
    cbn [option_map]. intros [= <- <-]. cbn [length]. lia.
  - intros u. lia.
  - now left.
Qed.

(** ** Instances *)
Theorem original_program f sec rt P mds rc : poseidon_policy sec rt = Some P -> constants_data f P = Some (mds, rc) ->
  let p := modulus f in
  let perm := poseidon_permutation 5 8 (part_rounds P) (of_table p mds) (of_table p rc) in
  forall cs, poseidon_calls P (permute_state P (of_table p mds) (of_table p rc)) nothing cs = squeezes perm rt nothing cs.
Proof.
  intros HP HC p perm cs. destruct (original_cases f sec rt P mds rc HP HC) as (Hm & Ha & Hf & Hr & G).
  destruct (original_instances f sec rt P mds rc HP HC) as (_ & Ew & E & [B _]). rewrite <- Hr. fold p perm in E, B.
  apply program; [apply G|apply G|]. rewrite Ew. intros s Hs. split; [now apply E|now apply B].
Qed.
Theorem mina_program f mds rc : constants_data f mina_poseidon_policy = Some (mds, rc) ->
  let p := modulus f in
  let perm := mina_permutation 7 55 (of_table p mds) (of_table p rc) in
  forall cs, poseidon_calls mina_poseidon_policy (permute_state mina_poseidon_policy (of_table p mds) (of_table p rc)) nothing cs =
    squeezes perm 2 nothing cs.
Proof.
  intros HC p perm cs. assert (G := mina_cases f mds rc HC). destruct (mina_instances f mds rc HC) as (_ & E & [B _]). fold p perm in E, B.
  change 2 with (rate mina_poseidon_policy). apply program; [apply G|apply G|]. intros s Hs. split; [now apply E|now apply B].
Qed.
