(** Threads: proofs. *)
From Coq Require Import NArith Arith List Bool Lia.
From Verif Require Import SpecPedersen MPack MAcc MXmd MPedersen MCrc MFgh MH2C SpecStore MStore MStoreMore SpecThreads MThreads.
Import ListNotations.

Section Gen.
Context {St J U E D L : Type} (init : J -> option St) (begin : U -> L) (turn_of : St -> L -> option (St * option L))
        (extract : St -> E -> option (D * St)).
Context (fin : St -> L -> option St) (update : St -> U -> option St) (size : L -> nat).
Context (Hfin : forall s l, fin s l = match turn_of s l with
                                      | None => None | Some (s', None) => Some s' | Some (s', Some l') => fin s' l' end).
Context (Hupd : forall s u, update s u = fin s (begin u)).
Context (Hsize : forall s l s' l', turn_of s l = Some (s', Some l') -> size l' < size l).
Context (owner : nat -> option nat).
Context (Hshared : (forall i, owner i <> None) \/ (forall s e d s', extract s e = Some (d, s') -> s' = s)).
Notation thread := (thread (J := J) (U := U) (E := E) (D := D) (L := L)).
Notation machine := (machine (St := St) (J := J) (U := U) (E := E) (D := D) (L := L)).
Notation run := (run_store init update extract).
Notation turn := (turn init begin turn_of extract).
Notation run_schedule := (run_schedule init begin turn_of extract).

Lemma run_ext t cs : forall slots slots', Forall (may owner t) cs -> (forall i, may_read owner t i -> slots i = slots' i) ->
  run slots cs = run slots' cs.
Proof.
  induction cs as [|c cs IH]; intros slots slots' HF HA; [reflexivity|]. inversion HF as [|? ? Hc HF']; subst.
  assert (P : forall i s, forall k, may_read owner t k -> put i s slots k = put i s slots' k).
  { intros i s k Hk. unfold put. destruct (k =? i); auto. }
  destruct c as [i j|i u|i e|i k]; cbn [run_store may] in *.
  - destruct (init j); [|reflexivity]. apply IH; auto.
  - rewrite (HA i (or_introl Hc)). destruct (slots' i) as [s|]; [|reflexivity]. destruct (update s u); [|reflexivity]. apply IH; auto.
  - rewrite (HA i Hc). destruct (slots' i) as [s|]; [|reflexivity]. destruct (extract s e) as [[d s']|]; [|reflexivity]. f_equal. apply IH; auto.
  - rewrite (HA i (proj1 Hc)). destruct (slots' i) as [s|]; [|reflexivity]. apply IH; auto.
Qed.

(** What thread [th] would still be given if it went on alone. *)
Definition remaining (slots : nat -> option St) (th : thread) : option (list (nat * D)) :=
  match t_update th with
  | None => run slots (t_calls th)
  | Some (i, l) =>
      match slots i with
      | None => None
      | Some s => match fin s l with None => None | Some s' => run (put i s' slots) (t_calls th) end
      end
  end.
Definition thread_ok (t : nat) (th : thread) : Prop :=
  Forall (may owner t) (t_calls th) /\ match t_update th with None => True | Some (i, _) => owner i = Some t end.
Lemma remaining_ext t th slots slots' : thread_ok t th -> (forall i, may_read owner t i -> slots i = slots' i) ->
  remaining slots th = remaining slots' th.
Proof.
  intros [HF HU] HA. unfold remaining. destruct (t_update th) as [[i l]|]; [|now apply (run_ext t)].
  rewrite (HA i (or_introl HU)). destruct (slots' i) as [s|]; [|reflexivity]. destruct (fin s l) as [s'|]; [|reflexivity].
  apply (run_ext t); auto. intros k Hk. unfold put. destruct (k =? i); auto.
Qed.

Definition inv (alone : nat -> list (nat * D)) (m : machine) : Prop :=
  forall t, thread_ok t (m_threads m t) /\
    exists rest, remaining (m_slots m) (m_threads m t) = Some rest /\ alone t = t_reports (m_threads m t) ++ rest.

(** A turn of [t] that writes at most to what [t] owns keeps what the others would be given. *)
Lemma back_inv alone m t slots' th' : inv alone m ->
  (forall i k, owner i = Some k -> k <> t -> slots' i = m_slots m i) -> (forall i, owner i = None -> slots' i = m_slots m i) ->
  thread_ok t th' -> (exists rest, remaining slots' th' = Some rest /\ alone t = t_reports th' ++ rest) ->
  inv alone (Mk_machine slots' (fun k => if k =? t then th' else m_threads m k)).
Proof.
  intros HI H1 H2 HT HR k. cbn [m_slots m_threads]. destruct (Nat.eqb_spec k t) as [->|Hk]; [now split|].
  destruct (HI k) as [OK (rest & R1 & R2)]. split; [exact OK|]. exists rest. split; [|exact R2]. rewrite <- R1.
  apply (remaining_ext k); [exact OK|]. intros i [Hi|Hi]; [now apply (H1 i k)|now apply H2].
Qed.

Lemma turn_inv alone m t : inv alone m -> exists m', turn m t = Some m' /\ inv alone m'.
Proof.
  intros HI. destruct (HI t) as [[HF HU] (rest & R1 & R2)]. unfold MThreads.turn. unfold remaining in R1.
  assert (PU : forall i s, owner i = Some t -> (forall j k, owner j = Some k -> k <> t -> put i s (m_slots m) j = m_slots m j) /\
                                 (forall j, owner j = None -> put i s (m_slots m) j = m_slots m j)).
  { intros i s Hi. split.
    - intros j k Hj Hk. unfold put. destruct (Nat.eqb_spec j i); [|reflexivity]. subst j. congruence.
    - intros j Hj. unfold put. destruct (Nat.eqb_spec j i); [|reflexivity]. subst j. congruence. }
  destruct (t_update (m_threads m t)) as [[i l]|] eqn:EU.
  - destruct (m_slots m i) as [s|] eqn:ES; [|discriminate]. rewrite Hfin in R1.
    destruct (turn_of s l) as [[s' [l'|]]|] eqn:ET; [| |discriminate].
    + eexists. split; [reflexivity|]. destruct (PU i s' HU) as [P1 P2].
      apply back_inv; auto; [now split|]. exists rest. split; [|exact R2]. unfold remaining. cbn [t_update t_calls option_map].
      unfold put at 1. rewrite Nat.eqb_refl. destruct (fin s' l') as [s''|]; [|discriminate]. rewrite <- R1.
      apply (run_ext t); [exact HF|]. intros k _. unfold put. destruct (k =? i); reflexivity.
    + eexists. split; [reflexivity|]. destruct (PU i s' HU) as [P1 P2].
      apply back_inv; auto; [now split|]. exists rest. split; [exact R1|exact R2].
  - destruct (t_calls (m_threads m t)) as [|c cs] eqn:EC; [eexists; split; [reflexivity|exact HI]|].
    inversion HF as [|? ? Hc HF']; subst. destruct c as [i j|i u|i e|i k]; cbn [run_store may] in *.
    + destruct (init j) as [s|]; [|discriminate]. eexists. split; [reflexivity|]. destruct (PU i s Hc) as [P1 P2].
      apply back_inv; auto; [now split|]. exists rest. now split.
    + eexists. split; [reflexivity|]. apply back_inv; auto; [now split|]. exists rest. split; [|exact R2].
      unfold remaining. cbn [t_update t_calls]. destruct (m_slots m i) as [s|]; [|discriminate]. rewrite <- Hupd. exact R1.
    + destruct (m_slots m i) as [s|] eqn:ES; [|discriminate]. destruct (extract s e) as [[d s']|] eqn:EX; [|discriminate].
      destruct (run (put i s' (m_slots m)) cs) as [ds|] eqn:ER; [|discriminate]. cbn [option_map] in R1. injection R1 as R1. subst rest.
      eexists. split; [reflexivity|].
      assert (P : (forall j k, owner j = Some k -> k <> t -> put i s' (m_slots m) j = m_slots m j) /\
                  (forall j, owner j = None -> put i s' (m_slots m) j = m_slots m j)).
      { destruct Hc as [Hc|Hc]; [now apply PU|]. destruct Hshared as [Q|Q]; [now destruct (Q i)|].
        rewrite (Q s e d s' EX). split; intros; unfold put; destruct (Nat.eqb_spec j i); subst; auto. }
      destruct P as [P1 P2]. apply back_inv; auto; [now split|]. exists ds. split; [exact ER|]. cbn [t_reports].
      rewrite R2, <- app_assoc. reflexivity.
    + destruct (m_slots m i) as [s|] eqn:ES; [|discriminate]. eexists. split; [reflexivity|]. destruct (PU k s (proj2 Hc)) as [P1 P2].
      apply back_inv; auto; [now split|]. exists rest. now split.
Qed.

Lemma schedule_inv alone schedule : forall m, inv alone m -> exists m', run_schedule m schedule = Some m' /\ inv alone m'.
Proof.
  induction schedule as [|t r IH]; intros m HI; cbn [MThreads.run_schedule]; [now exists m|].
  destruct (turn_inv alone m t HI) as (m1 & -> & H1). now apply IH.
Qed.
Lemma start_inv alone slots calls : (forall t, Forall (may owner t) (calls t)) -> (forall t, run slots (calls t) = Some (alone t)) ->
  inv alone (start slots calls).
Proof.
  intros HF HA t. cbn [start m_threads m_slots]. split; [split; [apply HF|exact I]|]. exists (alone t). split; [apply HA|reflexivity].
Qed.
Lemma inv_parts alone m t : inv alone m -> part_of (t_reports (m_threads m t)) (alone t) (finished m t).
Proof.
  intros HI. destruct (HI t) as [_ (rest & R1 & R2)]. exists rest. split; [exact R2|]. intros [F1 F2].
  unfold remaining in R1. rewrite F1, F2 in R1. cbn [run_store] in R1. now injection R1 as <-.
Qed.
Lemma schedules alone slots calls schedule :
  (forall t, Forall (may owner t) (calls t)) -> (forall t, run slots (calls t) = Some (alone t)) ->
  exists m, run_schedule (start slots calls) schedule = Some m /\
    forall t, part_of (t_reports (m_threads m t)) (alone t) (finished m t).
Proof.
  intros HF HA. destruct (schedule_inv alone schedule (start slots calls)) as (m & EM & HI); [now apply start_inv|].
  exists m. split; [exact EM|]. intros t. now apply inv_parts.
Qed.

(** A thread that has had enough turns is finished. *)
Definition cost (c : call J U E) : nat := match c with Update _ u => S (S (size (begin u))) | _ => 1 end.
Definition left_over (th : thread) : nat :=
  match t_update th with None => 0 | Some (_, l) => S (size l) end + list_sum (map cost (t_calls th)).
Lemma turn_left m t m' : turn m t = Some m' ->
  left_over (m_threads m' t) <= pred (left_over (m_threads m t)) /\ forall k, k <> t -> m_threads m' k = m_threads m k.
Proof.
  unfold MThreads.turn, left_over. intros HT.
  assert (B : forall slots' th', left_over th' <= pred (left_over (m_threads m t)) ->
    Some (Mk_machine slots' (fun k => if k =? t then th' else m_threads m k)) = Some m' ->
    left_over (m_threads m' t) <= pred (left_over (m_threads m t)) /\ forall k, k <> t -> m_threads m' k = m_threads m k).
  { intros slots' th' HL [= <-]. cbn [m_threads]. rewrite Nat.eqb_refl. split; [exact HL|]. intros k Hk. now destruct (Nat.eqb_spec k t). }
  unfold left_over in B.
  destruct (t_update (m_threads m t)) as [[i l]|] eqn:EU.
  - destruct (m_slots m i) as [s|]; [|discriminate]. destruct (turn_of s l) as [[s' [l'|]]|] eqn:ET; [| |discriminate].
    + pose proof (Hsize s l s' l' ET). eapply B; [|exact HT]. cbn [t_update t_calls option_map]. lia.
    + eapply B; [|exact HT]. cbn [t_update t_calls option_map]. lia.
  - destruct (t_calls (m_threads m t)) as [|c cs] eqn:EC.
    + injection HT as <-. rewrite EU, EC. cbn. split; [lia|reflexivity].
    + destruct c as [i j|i u|i e|i k]; cbn [map list_sum fold_right cost] in *.
      * destruct (init j); [|discriminate]. eapply B; [|exact HT]. cbn [t_update t_calls]. fold (list_sum (map cost cs)). lia.
      * eapply B; [|exact HT]. cbn [t_update t_calls]. fold (list_sum (map cost cs)). lia.
      * destruct (m_slots m i) as [s|]; [|discriminate]. destruct (extract s e) as [[d s']|]; [|discriminate].
        eapply B; [|exact HT]. cbn [t_update t_calls]. fold (list_sum (map cost cs)). lia.
      * destruct (m_slots m i) as [s|]; [|discriminate]. eapply B; [|exact HT]. cbn [t_update t_calls]. fold (list_sum (map cost cs)). lia.
Qed.
Lemma left_zero (m : machine) t : left_over (m_threads m t) = 0 -> finished m t.
Proof.
  unfold left_over, finished. destruct (t_update (m_threads m t)) as [[i l]|]; [lia|].
  destruct (t_calls (m_threads m t)) as [|c cs]; [auto|]. cbn [map list_sum fold_right]. destruct c; cbn [cost]; lia.
Qed.
Lemma schedule_left schedule t : forall m m', run_schedule m schedule = Some m' ->
  left_over (m_threads m' t) <= left_over (m_threads m t) - count_occ Nat.eq_dec schedule t.
Proof.
  induction schedule as [|k r IH]; intros m m' HR; cbn [MThreads.run_schedule count_occ] in *.
  - injection HR as <-. lia.
  - destruct (turn m k) as [m1|] eqn:E1; [|discriminate]. specialize (IH m1 m' HR). destruct (turn_left m k m1 E1) as [T1 T2].
    destruct (Nat.eq_dec k t) as [->|Hk]; [lia|]. rewrite (T2 t) in IH by auto. exact IH.
Qed.
Lemma enough slots calls schedule m t : run_schedule (start slots calls) schedule = Some m ->
  list_sum (map cost (calls t)) <= count_occ Nat.eq_dec schedule t -> finished m t.
Proof.
  intros HR HC. apply left_zero. pose proof (schedule_left schedule t _ _ HR) as K. unfold left_over at 2 in K.
  cbn [start m_threads t_update t_calls] in K. lia.
Qed.
End Gen.

(** ** Programs and the accumulators they leave *)
Section After.
Context {St J U E D : Type} (init : J -> option St) (update : St -> U -> option St) (extract : St -> E -> option (D * St)).
Lemma after_run before cs : forall slots, Forall no_digest before ->
  run_store init update extract slots (before ++ cs) =
  match slots_after init update extract slots before with None => None | Some s => run_store init update extract s cs end.
Proof.
  induction before as [|c r IH]; intros slots HF; [reflexivity|]. inversion HF as [|? ? Hc HF']; subst.
  destruct c as [i j|i u|i e|i k]; cbn [app run_store slots_after no_digest] in *; [| |contradiction|].
  - destruct (init j); [|reflexivity]. now apply IH.
  - destruct (slots i) as [s|]; [|reflexivity]. destruct (update s u); [|reflexivity]. now apply IH.
  - destruct (slots i) as [s|]; [|reflexivity]. now apply IH.
Qed.
End After.

(** ** A program that runs [before], then its threads *)
Section Kind.
Context {St J U E D L : Type} (init : J -> option St) (begin : U -> L) (turn_of : St -> L -> option (St * option L))
        (extract : St -> E -> option (D * St)).
Context (fin : St -> L -> option St) (update : St -> U -> option St) (size : L -> nat) (values : U -> nat).
Lemma kind :
  (forall s l, fin s l = match turn_of s l with
                         | None => None | Some (s', None) => Some s' | Some (s', Some l') => fin s' l' end) ->
  (forall s u, update s u = fin s (begin u)) ->
  (forall s l s' l', turn_of s l = Some (s', Some l') -> size l' < size l) ->
  (forall u, size (begin u) <= values u + 1) ->
  forall owner, (forall i, owner i <> None) \/ (forall s e d s', extract s e = Some (d, s') -> s' = s) ->
  forall before calls alone schedule, Forall no_digest before -> (forall t, Forall (may owner t) (calls t)) ->
  (forall t, run_store init update extract nothing (before ++ calls t) = Some (alone t)) ->
  exists m, match slots_after init update extract nothing before with
            | None => None
            | Some slots => run_schedule init begin turn_of extract (start slots calls) schedule
            end = Some m /\
    forall t, part_of (t_reports (m_threads m t)) (alone t) (finished m t) /\
      (turns_needed values (calls t) <= turns_of t schedule -> finished m t).
Proof.
  intros Hfin Hupd Hsize Hval owner HS before calls alone schedule HB HF HA.
  assert (A : exists slots, slots_after init update extract nothing before = Some slots /\
                forall t, run_store init update extract slots (calls t) = Some (alone t)).
  { pose proof (HA 0) as A0. rewrite after_run in A0 by exact HB.
    destruct (slots_after init update extract nothing before) as [slots|] eqn:ES; [|discriminate].
    exists slots. split; [reflexivity|]. intros t. specialize (HA t). rewrite after_run, ES in HA by exact HB. exact HA. }
  destruct A as (slots & -> & A2).
  destruct (schedules init begin turn_of extract fin update Hfin Hupd owner HS alone slots calls schedule HF A2) as (m & EM & HP).
  exists m. split; [exact EM|]. intros t. split; [apply HP|]. intros HN.
  apply (enough init begin turn_of extract size Hsize slots calls schedule m t EM).
  refine (Nat.le_trans _ _ _ _ HN). unfold turns_needed. generalize (calls t) as cs. clear - Hval. intros cs.
  induction cs as [|c cs IH]; cbn [map]; [apply le_n|].
  change (cost begin size c + list_sum (map (cost begin size) cs) <=
    (match c with Update _ u => values u + 3 | _ => 1 end) +
    list_sum (map (fun c => match c with Update _ u => values u + 3 | _ => 1 end) cs)).
  destruct c as [i j|i u|i e|i k]; cbn [cost]; try lia. specialize (Hval u). lia.
Qed.
End Kind.

(** ** The stream processor, a turn at a time *)
Section Bsp.
Context (C : construction) (inj : injector).
Definition bsp_fin (a : acc C) (l : bsp_local) : option (acc C) :=
  match l with
  | Starting vb xs => hash_into C inj vb a xs
  | Running vb xs cache seen =>
      match bsp_update_n C inj vb (Mk_bsp C a cache seen) xs with None => None | Some p => bsp_finish C inj vb p end
  end.
Definition bsp_size (l : bsp_local) : nat := match l with Starting _ xs => S (length xs) | Running _ xs _ _ => length xs end.
Lemma bsp_fin_turn a l : bsp_fin a l = match bsp_turn C inj a l with
  | None => None | Some (a', None) => Some a' | Some (a', Some l') => bsp_fin a' l' end.
Proof.
  destruct l as [vb xs|vb [|x xs] cache seen]; cbn [bsp_fin bsp_turn bsp_update_n].
  - reflexivity.
  - destruct (bsp_finish C inj vb (Mk_bsp C a cache seen)); reflexivity.
  - destruct (bsp_update_one C inj vb (Mk_bsp C a cache seen) x) as [[a' c' s']|]; reflexivity.
Qed.
Lemma bsp_size_turn a l a' l' : bsp_turn C inj a l = Some (a', Some l') -> bsp_size l' < bsp_size l.
Proof.
  destruct l as [vb xs|vb [|x xs] cache seen]; cbn [bsp_turn bsp_size].
  - intros [= <- <-]. cbn [bsp_size]. lia.
  - destruct (bsp_finish C inj vb (Mk_bsp C a cache seen)); discriminate.
  - destruct (bsp_update_one C inj vb (Mk_bsp C a cache seen) x); [|discriminate]. intros [= <- <-]. cbn [bsp_size length]. lia.
Qed.
End Bsp.

(** ** The kinds of accumulators *)
Section Mixed.
Context {K : Type} (C : K -> construction) (inj : K -> injector).
Definition mixed_fin (s : mixed_state C) (l : bsp_local) : option (mixed_state C) :=
  let '(existT _ k a) := s in option_map (existT (fun k => acc (C k)) k) (bsp_fin (C k) (inj k) a l).
Lemma mixed_threads owner before calls alone schedule : Forall no_digest before -> (forall t, Forall (may owner t) (calls t)) ->
  (forall t, mixed_calls C inj nothing (before ++ calls t) = Some (alone t)) ->
  exists m, mixed_schedule C inj before calls schedule = Some m /\
    forall t, part_of (t_reports (m_threads m t)) (alone t) (finished m t) /\
      (turns_needed (fun u : nat * list N => length (snd u)) (calls t) <= turns_of t schedule -> finished m t).
Proof.
  intros HB HF HA. unfold mixed_schedule.
  apply (kind (mixed_init C) bsp_begin (mixed_turn C inj) (mixed_extract C) mixed_fin (mixed_update C inj) bsp_size) with (owner := owner); [| | | | |exact HB|exact HF|exact HA].
  - intros [k a] l. cbn [mixed_fin mixed_turn]. rewrite bsp_fin_turn.
    destruct (bsp_turn (C k) (inj k) a l) as [[a' [l'|]]|]; reflexivity.
  - intros [k a] [vb xs]. reflexivity.
  - intros [k a] l s' l'. cbn [mixed_turn]. destruct (bsp_turn (C k) (inj k) a l) as [[a' [l2|]]|] eqn:ET; cbn [option_map fst snd]; try discriminate.
    intros [= <- <-]. exact (bsp_size_turn _ _ _ _ _ _ ET).
  - intros [vb xs]. cbn [bsp_begin bsp_size fst snd]. lia.
  - right. intros [k a] e d s'. cbn [mixed_extract]. destruct (acc_result (C k) a); cbn [option_map]; [|discriminate]. now intros [= <- <-].
Qed.
End Mixed.

Lemma h2f_threads C inj b p m L count dst owner before calls alone schedule : (forall i, owner i <> None) ->
  Forall no_digest before -> (forall t, Forall (may owner t) (calls t)) ->
  (forall t, h2f_calls C inj b p m L count dst nothing (before ++ calls t) = Some (alone t)) ->
  exists s, h2f_schedule C inj b p m L count dst before calls schedule = Some s /\
    forall t, part_of (t_reports (m_threads s t)) (alone t) (finished s t) /\
      (turns_needed (fun u : nat * list N => length (snd u)) (calls t) <= turns_of t schedule -> finished s t).
Proof.
  intros HO HB HF HA. unfold h2f_schedule.
  apply (kind (xmd_init C inj) bsp_begin (bsp_turn C inj) _ (bsp_fin C inj) (fun a (u : nat * list N) => xmd_update C inj (fst u) a (snd u)) bsp_size)
    with (owner := owner); [| | | | |exact HB|exact HF|exact HA].
  - intros a l. apply bsp_fin_turn.
  - intros a [vb xs]. reflexivity.
  - intros a l a' l'. apply bsp_size_turn.
  - intros [vb xs]. cbn [bsp_begin bsp_size fst snd]. lia.
  - now left.
Qed.

Lemma h2c_threads {F G} C inj b (elem : list N -> F) (ep : F -> F -> G) p m L count dst owner before calls alone schedule :
  (forall i, owner i <> None) ->
  Forall no_digest before -> (forall t, Forall (may owner t) (calls t)) ->
  (forall t, h2c_calls C inj b elem ep p m L count dst nothing (before ++ calls t) = Some (alone t)) ->
  exists s, h2c_schedule C inj b elem ep p m L count dst before calls schedule = Some s /\
    forall t, part_of (t_reports (m_threads s t)) (alone t) (finished s t) /\
      (turns_needed (fun u : nat * list N => length (snd u)) (calls t) <= turns_of t schedule -> finished s t).
Proof.
  intros HO HB HF HA. unfold h2c_schedule.
  apply (kind (xmd_init C inj) bsp_begin (bsp_turn C inj) _ (bsp_fin C inj) (fun a (u : nat * list N) => xmd_update C inj (fst u) a (snd u)) bsp_size)
    with (owner := owner); [| | | | |exact HB|exact HF|exact HA].
  - intros a l. apply bsp_fin_turn.
  - intros a [vb xs]. reflexivity.
  - intros a l a' l'. apply bsp_size_turn.
  - intros [vb xs]. cbn [bsp_begin bsp_size fst snd]. lia.
  - now left.
Qed.
Lemma fgh_threads C inj {P} (decode : list N -> option P) cofactor_mul is_zero well_formed dst owner before calls alone schedule :
  Forall no_digest before -> (forall t, Forall (may owner t) (calls t)) ->
  (forall t, fgh_calls C inj decode cofactor_mul is_zero well_formed dst nothing (before ++ calls t) = Some (alone t)) ->
  exists s, fgh_schedule C inj decode cofactor_mul is_zero well_formed dst before calls schedule = Some s /\
    forall t, part_of (t_reports (m_threads s t)) (alone t) (finished s t) /\
      (turns_needed (fun u : nat * list N => length (snd u)) (calls t) <= turns_of t schedule -> finished s t).
Proof.
  intros HB HF HA. unfold fgh_schedule.
  apply (kind (fun junk => fgh_init C inj junk dst) bsp_begin (bsp_turn C inj) _ (bsp_fin C inj)
           (fun a (u : nat * list N) => hash_into C inj (fst u) a (snd u)) bsp_size)
    with (owner := owner); [| | | | |exact HB|exact HF|exact HA].
  - intros a l. apply bsp_fin_turn.
  - intros a [vb xs]. reflexivity.
  - intros a l a' l'. apply bsp_size_turn.
  - intros [vb xs]. cbn [bsp_begin bsp_size fst snd]. lia.
  - right. intros a e d a' [= <- <-]. reflexivity.
Qed.

Lemma pedersen_threads {G} (zero : G) add mul base p width c owner before calls alone schedule : (forall i, owner i <> None) ->
  Forall no_digest before -> (forall t, Forall (may owner t) (calls t)) ->
  (forall t, pedersen_calls zero add mul base p width c nothing (before ++ calls t) = Some (alone t)) ->
  exists s, pedersen_schedule zero add mul base p width c before calls schedule = Some s /\
    forall t, part_of (t_reports (m_threads s t)) (alone t) (finished s t) /\
      (turns_needed (@length bool) (calls t) <= turns_of t schedule -> finished s t).
Proof.
  intros HO HB HF HA. unfold pedersen_schedule.
  apply (kind _ (fun bs : list bool => bs) (pedersen_turn add mul base p width c) _
          (fun a bs => update_bits add mul base p width c a bs)
          (fun a (bs : list bool) => update_bits add mul base p width c a bs) (@length bool)) with (owner := owner); [| | | | |exact HB|exact HF|exact HA].
  - intros a [|x r]; cbn [update_bits pedersen_turn]; [reflexivity|]. destruct (update_bit add mul base p width c a x); reflexivity.
  - reflexivity.
  - intros a [|x r] a' l'; cbn [pedersen_turn]; [discriminate|]. destruct (update_bit add mul base p width c a x); [|discriminate].
    intros [= <- <-]. cbn [length]. lia.
  - intros u. lia.
  - now left.
Qed.

Lemma crc_threads cc bits owner before calls alone schedule :
  Forall no_digest before -> (forall t, Forall (may owner t) (calls t)) ->
  (forall t, crc_calls cc bits nothing (before ++ calls t) = Some (alone t)) ->
  exists s, crc_schedule cc bits before calls schedule = Some s /\
    forall t, part_of (t_reports (m_threads s t)) (alone t) (finished s t) /\
      (turns_needed (fun u : iterator * list N => length (snd u)) (calls t) <= turns_of t schedule -> finished s t).
Proof.
  intros HB HF HA. unfold crc_schedule.
  apply (kind _ (fun u : iterator * list N => u) (crc_turn cc) _
          (fun s (u : iterator * list N) => stream_range cc (fst u) s (snd u))
          (fun s (u : iterator * list N) => stream_range cc (fst u) s (snd u)) (fun u => length (snd u))) with (owner := owner); [| | | | |exact HB|exact HF|exact HA].
  - intros s [[| |] [|x r]]; try reflexivity; cbn [crc_turn fst snd]; destruct (stream_range cc _ s _); reflexivity.
  - reflexivity.
  - intros s [[| |] [|x r]] s' l'; cbn [crc_turn]; try discriminate;
      try (destruct (stream_range cc _ s _); discriminate).
    intros [= <- <-]. cbn [length snd]. lia.
  - intros u. lia.
  - right. intros s e d s' [= <- <-]. reflexivity.
Qed.

(** ** Two threads that read one accumulator of a kind whose extraction writes to it *)
Lemma put_same {A} i (x : A) slots : put i x slots i = Some x.
Proof. unfold put. now rewrite Nat.eqb_refl. Qed.
Lemma h2f_shared C inj b p m L count dst junk vb xs junks buf a u v :
  xmd_init C inj junk = Some a ->
  h2f_run C inj b p m L count dst a [XUpdate vb xs; XExtract junks buf; XExtract junks buf] = Some [u; v] ->
  exists s, h2f_schedule C inj b p m L count dst [Create 0 junk; Update 0 (vb, xs)] (fun _ => [Extract 0 (junks, buf)]) [0; 1] = Some s /\
    t_reports (m_threads s 0) = [(0, u)] /\ t_reports (m_threads s 1) = [(0, v)].
Proof.
  intros HI HR. unfold h2f_schedule. cbn [slots_after]. rewrite HI. rewrite put_same. cbn [h2f_run fst snd] in *.
  destruct (xmd_update C inj vb a xs) as [a1|]; cbn [bind] in HR; [|discriminate].
  destruct (h2f_process C inj b p m L count junks dst buf a1) as [[u1 a2]|] eqn:E1; cbn [bind fst snd] in HR; [|discriminate].
  destruct (h2f_process C inj b p m L count junks dst buf a2) as [[v1 a3]|] eqn:E2; cbn [bind fst snd] in HR; [|discriminate].
  injection HR as <- <-.
  cbn [run_schedule turn start m_threads m_slots t_update t_calls t_reports app]. rewrite put_same. cbn [fst snd]. rewrite E1.
  cbn [run_schedule turn m_threads m_slots t_update t_calls t_reports app Nat.eqb]. rewrite put_same. cbn [fst snd]. rewrite E2.
  eexists. split; [reflexivity|]. split; reflexivity.
Qed.
Lemma pedersen_shared {G} (zero : G) add mul base p width c M g g' :
  p_run add mul base p width c (p_init zero base) [PUpdate M; PExtract; PExtract] = Some [g; g'] ->
  exists s, pedersen_schedule zero add mul base p width c [Create 0 tt; Update 0 M] (fun _ => [Extract 0 tt]) [0; 1] = Some s /\
    t_reports (m_threads s 0) = [(0, g)] /\ t_reports (m_threads s 1) = [(0, g')].
Proof.
  intros HR. unfold pedersen_schedule. cbn [slots_after]. rewrite put_same. cbn [p_run] in HR.
  destruct (update_bits add mul base p width c (p_init zero base) M) as [a1|]; [|discriminate].
  destruct (p_process add mul base p width c a1) as [[u1 a2]|] eqn:E1; [|discriminate].
  destruct (p_process add mul base p width c a2) as [[v1 a3]|] eqn:E2; [|discriminate].
  injection HR as <- <-.
  cbn [run_schedule turn start m_threads m_slots t_update t_calls t_reports app]. rewrite put_same. rewrite E1.
  cbn [run_schedule turn m_threads m_slots t_update t_calls t_reports app Nat.eqb]. rewrite put_same. rewrite E2.
  eexists. split; [reflexivity|]. split; reflexivity.
Qed.
