(** Consequences of a correct digest, for any construction, on octet strings. *)
From Coq Require Import NArith Arith List Bool Lia ZifyBool ZifyNat ZifyN ZArith.
From Verif Require Import SpecStream LStream MPack LInj MAcc LAcc LBsp MConstr SpecMD LMD LMDProps SpecHist LHist LMDStmt SpecOctets.
Import ListNotations.
Ltac Zify.zify_post_hook ::= Z.div_mod_to_equations.

Lemma range_stream e vb xs : e = BOBB \/ e = LOBB -> vb mod 8 = 0 ->
  stream e vb xs = octets_bits (range_octets e vb xs).
Proof.
  intros He H8. unfold range_octets. rewrite <- (octet_stream e) by auto. rewrite wide_stream by auto.
  replace (8 * (vb / 8)) with vb by lia. reflexivity.
Qed.

Lemma range_octets_length e vb xs : length (range_octets e vb xs) = vb / 8 * length xs.
Proof.
  unfold range_octets. induction xs as [|x xs IH]; cbn [flat_map length]; [lia|].
  rewrite app_length, IH. destruct e; cbn [octets_in_order]; rewrite ?rev_length, octets_le_length; lia.
Qed.

Lemma range_octets_fits e vb xs : Forall (fits 8) (range_octets e vb xs).
Proof. apply flat_map_Forall. intros. apply octets_in_order_fits. Qed.

Lemma octets_bits_length os : length (octets_bits os) = 8 * length os.
Proof. unfold octets_bits. now rewrite stream_length. Qed.

Lemma octets_bits_app a b : octets_bits (a ++ b) = octets_bits a ++ octets_bits b.
Proof. unfold octets_bits. apply stream_app. Qed.

Lemma pieces_stream e ps : e = BOBB \/ e = LOBB -> Forall (fun p => fst p mod 8 = 0) ps ->
  flat_map (fun p => stream e (fst p) (snd p)) ps = octets_bits (pieces_octets e ps).
Proof.
  intros He HF. induction HF as [|p ps Hp HF IH]; [reflexivity|].
  unfold pieces_octets. cbn [flat_map]. fold (pieces_octets e ps).
  rewrite octets_bits_app, IH, range_stream by auto. reflexivity.
Qed.

Lemma pieces_octets_fits e ps : Forall (fits 8) (pieces_octets e ps).
Proof. apply flat_map_Forall. intros. apply range_octets_fits. Qed.

Lemma octets_bits_firstn n os : firstn (8 * n) (octets_bits os) = octets_bits (firstn n os).
Proof. unfold octets_bits. apply stream_firstn. Qed.

Lemma Forall_firstn' {A} (P : A -> Prop) n l : Forall P l -> Forall P (firstn n l).
Proof. intros H. revert n; induction H; intros [|n]; cbn; constructor; auto. Qed.

Lemma blocks_octets_fits e w fs : Forall (fits 8) (blocks_octets e w fs).
Proof. apply flat_map_Forall. intros. apply Forall_firstn', range_octets_fits. Qed.

Section Gen.
Context (C : construction) (inj : injector) (WF : wf_construction C).
Notation e := (c_endian C). Notation h := (c_host C). Notation w := (c_word C). Notation bw := (c_words C).
Context (HI : injector_contract e w bw inj) (He : e = BOBB \/ e = LOBB) (Hh : h = BOBB \/ h = LOBB).
Context (ok : list bool -> Prop) (D : list bool -> list N) (DC : digest_correct C ok D).
Context (okO : list N -> Prop) (H : list N -> list N)
  (Hok : forall os, Forall (fits 8) os -> okO os -> ok (octets_bits os))
  (HD : forall os, Forall (fits 8) os -> okO os -> D (octets_bits os) = H os).

Notation pok := (fun p : nat * list N => fst p mod 8 = 0 /\ 0 < fst p /\ w mod fst p = 0 /\ Forall (fits (fst p)) (snd p)).

Lemma gen_pieces junk ps : block_ok w bw junk -> Forall pok ps -> okO (pieces_octets h ps) ->
  (N.of_nat (8 * length (pieces_octets h ps)) < 2 ^ 64)%N ->
  exists a, hash_pieces C inj (acc_init C junk) ps = Some a /\
    acc_result C a = Some (H (pieces_octets h ps)).
Proof.
  intros Hj HF Ho Hs.
  assert (E : pieces_bits C ps = octets_bits (pieces_octets h ps)).
  { apply pieces_stream; auto. eapply Forall_impl; [|exact HF]. cbn. tauto. }
  destruct (pieces_result C inj WF HI ok D DC junk ps) as (a & E1 & R1); auto.
  - unfold short, blen. rewrite E, octets_bits_length. exact Hs.
  - rewrite E. apply Hok; auto. apply pieces_octets_fits.
  - exists a. split; auto. rewrite R1, E. f_equal. apply HD; auto. apply pieces_octets_fits.
Qed.

Lemma gen_once junk vb xs : block_ok w bw junk -> pok (vb, xs) -> okO (range_octets h vb xs) ->
  (N.of_nat (8 * length (range_octets h vb xs)) < 2 ^ 64)%N ->
  hash_once C inj vb junk xs = Some (H (range_octets h vb xs)).
Proof.
  intros Hj Hp Ho Hs.
  assert (E : pieces_octets h [(vb, xs)] = range_octets h vb xs) by (unfold pieces_octets; cbn; apply app_nil_r).
  destruct (gen_pieces junk [(vb, xs)]) as (a & E1 & R1); auto; rewrite ?E; auto.
  unfold hash_once. cbn [hash_pieces] in E1.
  destruct (hash_into C inj vb (acc_init C junk) xs); [|discriminate].
  injection E1 as ->. now rewrite R1, E.
Qed.

Lemma range_octets_8 os : Forall (fits 8) os -> range_octets h 8 os = os.
Proof.
  intros HF. unfold range_octets. induction HF as [|o os Ho HF IH]; [reflexivity|].
  cbn [flat_map]. rewrite IH.
  assert (Eo : (o mod 256)%N = o) by (apply N.mod_small; exact Ho).
  destruct Hh as [->| ->]; change (8 / 8) with 1; cbn; now rewrite Eo.
Qed.

Lemma gen_once_octets junk os : block_ok w bw junk -> Forall (fits 8) os -> okO os ->
  (N.of_nat (8 * length os) < 2 ^ 64)%N ->
  hash_once C inj 8 junk os = Some (H os).
Proof.
  intros Hj Hf Ho Hs. pose proof (wf_w8 C WF).
  rewrite <- (range_octets_8 os) at 2 by auto. apply gen_once; auto; rewrite ?range_octets_8 by auto; auto.
  cbn. repeat split; auto; lia.
Qed.

Lemma gen_block_feeds junk (fs : list (list N * nat)) : block_ok w bw junk ->
  Forall (fun f => block_ok w bw (fst f) /\ 0 < snd f <= w * bw / 8) fs ->
  okO (blocks_octets e w fs) -> (N.of_nat (8 * length (blocks_octets e w fs)) < 2 ^ 64)%N ->
  exists a, acc_feeds C inj (acc_init C junk) (map (fun f => FBlock (fst f) (8 * snd f)) fs) = Some a /\
    total a = N.of_nat (8 * length (blocks_octets e w fs)) /\
    acc_result C a = Some (H (blocks_octets e w fs)).
Proof.
  intros Hj HF Ho Hs. pose proof (wf_w8 C WF) as W8.
  assert (EM : flat_map (feed_bits C) (map (fun f => FBlock (fst f) (8 * snd f)) fs) =
               octets_bits (blocks_octets e w fs)).
  { clear Ho Hs. unfold blocks_octets. induction HF as [|f fs [Hf1 Hf2] HF IH]; [reflexivity|].
    cbn [map flat_map feed_bits]. rewrite IH, octets_bits_app. f_equal.
    destruct (8 * snd f =? 0) eqn:Z; [lia|]. rewrite range_stream by auto. apply octets_bits_firstn. }
  destruct (block_feeds_R C inj WF HI (map (fun f => FBlock (fst f) (8 * snd f)) fs)
              (acc_init C junk) []) as (a & E & R).
  - now apply init_strict.
  - apply Forall_map. eapply Forall_impl; [|exact HF]. intros f [K1 K2]. cbn [feed_ok]. split; auto.
    unfold block_bits. pose proof (Nat.mul_div_le (w * bw) 8 ltac:(discriminate)) as K3.
    clear - K2 K3. revert K2 K3. generalize (w * bw / 8) (w * bw). intros q r. lia.
  - apply Forall_map. apply Forall_forall. intros. exact I.
  - cbn [app]. rewrite EM. apply short_fine. unfold short, blen. rewrite octets_bits_length. exact Hs.
  - cbn [app] in R. rewrite EM in R. exists a. split; [exact E|].
    assert (S : short (octets_bits (blocks_octets e w fs)))
      by (unfold short, blen; rewrite octets_bits_length; exact Hs).
    split.
    + rewrite <- octets_bits_length. transitivity (count (octets_bits (blocks_octets e w fs))); [|exact (count_short _ S)].
      destruct R as (M0 & T & EMT & R & _). rewrite EMT. apply R.
    + rewrite (DC a _ (strict_weak C a _ R) S).
      * f_equal. apply HD; auto. apply blocks_octets_fits.
      * apply Hok; auto. apply blocks_octets_fits.
Qed.

Notation opok := (fun o => match o with
                   | OpHash vb xs => vb mod 8 = 0 /\ 0 < vb /\ w mod vb = 0 /\ Forall (fits vb) xs
                   | OpExtract => True end).

Lemma gen_history_from ops : forall a os, Forall (fits 8) os -> strictR C a (octets_bits os) ->
  (forall os, Forall (fits 8) os -> okO os) ->
  Forall opok ops -> (N.of_nat (8 * length (os ++ history_octets h ops)) < 2 ^ 64)%N ->
  run_ops C inj a ops = Some (expected_octets h H os ops).
Proof.
  induction ops as [|o ops IH]; intros a os Hfo HR Hall HF Hs; [reflexivity|].
  inversion HF as [|? ? Ho HF']; subst.
  destruct o as [vb xs|]; cbn [run_ops expected_octets].
  - unfold history_octets in Hs. cbn [flat_map] in Hs. fold (history_octets h ops) in Hs.
    destruct Ho as (H1 & H2 & H3 & H4). rewrite app_assoc in Hs.
    assert (E : octets_bits os ++ stream h vb xs = octets_bits (os ++ range_octets h vb xs))
      by now rewrite octets_bits_app, range_stream by auto.
    destruct (hash_into_R C inj WF HI vb H1 H2 H3 a (octets_bits os) xs) as (a1 & E1 & R1); auto.
    { rewrite E. apply short_fine. unfold short, blen. rewrite octets_bits_length. rewrite app_length in Hs. lia. }
    rewrite E1. rewrite E in R1. apply IH; auto.
    apply Forall_app. split; auto. apply range_octets_fits.
  - change (history_octets h (OpExtract :: ops)) with (history_octets h ops) in Hs.
    rewrite (IH a os) by auto.
    rewrite (DC a (octets_bits os)).
    + rewrite HD; auto.
    + now apply strict_weak.
    + unfold short, blen. rewrite octets_bits_length. rewrite app_length in Hs. lia.
    + apply Hok; auto.
Qed.

Lemma gen_history junk ops : block_ok w bw junk -> (forall os, Forall (fits 8) os -> okO os) ->
  Forall opok ops -> (N.of_nat (8 * length (history_octets h ops)) < 2 ^ 64)%N ->
  run_ops C inj (acc_init C junk) ops = Some (expected_octets h H [] ops).
Proof.
  intros Hj Hall HF Hs. apply gen_history_from; auto. now apply init_strict.
Qed.
End Gen.
