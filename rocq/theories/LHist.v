(** Histories, lost word feeds, bit counts, recorded blocks. *)
From Coq Require Import NArith Arith List Bool Lia ZifyBool ZifyNat ZifyN ZArith.
From Verif Require Import SpecStream LStream MPack LInj MAcc LAcc LBsp MConstr SpecMD LMD LMDProps SpecHist.
Import ListNotations.
Ltac Zify.zify_post_hook ::= Z.div_mod_to_equations.

Definition op_ok (w : nat) (o : op) : Prop :=
  match o with
  | OpHash vb xs => vb mod 8 = 0 /\ 0 < vb /\ w mod vb = 0 /\ Forall (fits vb) xs
  | OpExtract => True
  end.

Definition op_bits (e : endian) (o : op) : list bool :=
  match o with OpHash vb xs => stream e vb xs | OpExtract => [] end.

Lemma stream_mod8 e vb xs : vb mod 8 = 0 -> length (stream e vb xs) mod 8 = 0.
Proof. intros H. rewrite stream_length, <- Nat.mul_mod_idemp_l, H by lia. reflexivity. Qed.

Lemma run_ops_R C inj (WF : wf_construction C)
  (HI : injector_contract (c_endian C) (c_word C) (c_words C) inj) ok D
  (DC : digest_correct C ok D) (Hok : forall M, length M mod 8 = 0 -> ok M) ops :
  forall a M, strictR C a M -> length M mod 8 = 0 -> Forall (op_ok (c_word C)) ops ->
  short (M ++ flat_map (op_bits (c_host C)) ops) ->
  run_ops C inj a ops = Some (expected (c_host C) D M ops).
Proof.
  induction ops as [|o ops IH]; intros a M HR H8 HF Hs; [reflexivity|].
  inversion HF as [|? ? Ho HF']; subst. destruct o as [vb xs|]; cbn [run_ops expected flat_map op_bits] in *.
  - destruct Ho as (H1 & H2 & H3 & H4). rewrite app_assoc in Hs.
    destruct (hash_into_R C inj WF HI vb H1 H2 H3 a M xs) as (a1 & E1 & R1); auto.
    { apply short_fine. eapply short_prefix; eauto. }
    rewrite E1. apply IH; auto.
    rewrite app_length. pose proof (stream_mod8 (c_host C) vb xs H1). lia.
  - rewrite (IH a M) by auto.
    rewrite (DC a M); auto. { now apply strict_weak. } eapply short_prefix; eauto.
Qed.

(** A block completed by aligned word feeds is lost. *)
Section Lost.
Context (C : construction) (inj : injector) (WF : wf_construction C).
Notation w := (c_word C). Notation bw := (c_words C).

Lemma word_feed_aligned (a : acc C) x k c :
  filled a = false -> total a = N.of_nat (w * k) -> k < bw -> (N.of_nat (block_bits C) < 2 ^ 64)%N ->
  cache a = c ->
  acc_feed C inj a (FWord x 0) =
  Some (Mk_acc false (N.of_nat (w * (k + 1))) (firstn k c ++ x :: skipn (S k) c) (cst a)).
Proof.
  intros Hf Ht Hk Hb Hc. pose proof (wf_w C WF). unfold block_bits in Hb.
  cbn [acc_feed Nat.eqb]. unfold process_word_value, flush. rewrite Hf.
  assert (E : cached_bits C a = w * k).
  { unfold cached_bits. rewrite Ht. rewrite <- Nnat.Nat2N.inj_mod, Nnat.Nat2N.id.
    apply Nat.mod_small. unfold block_bits. nia. }
  rewrite E. rewrite Nat.mul_comm, Nat.mod_mul by lia. cbn [Nat.eqb negb].
  rewrite Nat.div_mul by lia. rewrite Hf, Ht, Hc. f_equal. f_equal.
  rewrite wrap64_small; nia.
Qed.

Lemma words_feed_run ws : forall k (a : acc C) c,
  filled a = false -> total a = N.of_nat (w * k) -> k + length ws <= bw ->
  (N.of_nat (block_bits C) < 2 ^ 64)%N -> cache a = c -> length c = bw ->
  exists c', acc_feeds C inj a (map (fun x => FWord x 0) ws) =
    Some (Mk_acc false (N.of_nat (w * (k + length ws))) c' (cst a)).
Proof.
  induction ws as [|x ws IH]; intros k a c Hf Ht Hk Hb Hc Lc.
  - cbn. exists c. rewrite Nat.add_0_r, <- Ht, <- Hc, <- Hf. now destruct a.
  - cbn [map acc_feeds]. cbn [length] in Hk.
    rewrite (word_feed_aligned a x k c) by (auto; lia).
    destruct (IH (k + 1) (Mk_acc false (N.of_nat (w * (k + 1))) (firstn k c ++ x :: skipn (S k) c) (cst a))
                 (firstn k c ++ x :: skipn (S k) c)) as (c' & E); cbn [filled total cache]; auto; try lia.
    + rewrite app_length. cbn [length]. rewrite firstn_length, skipn_length. lia.
    + exists c'. rewrite E. cbn [cst length]. replace (k + 1 + length ws) with (k + S (length ws)) by lia. reflexivity.
Qed.

Lemma acc_feeds_app fs gs a :
  acc_feeds C inj a (fs ++ gs) =
  match acc_feeds C inj a fs with None => None | Some a' => acc_feeds C inj a' gs end.
Proof.
  revert a; induction fs as [|f fs IH]; intros a; cbn; [reflexivity|].
  destruct (acc_feed C inj a f); auto.
Qed.

(** After a block given word by word, a full block feed leaves no trace of those words. *)
Lemma lost_block junk ws v :
  block_ok w bw junk -> length ws = bw -> (N.of_nat (2 * block_bits C) < 2 ^ 64)%N ->
  acc_feeds C inj (acc_init C junk) (map (fun x => FWord x 0) ws ++ [FBlock v 0]) =
  Some (Mk_acc true (N.of_nat (2 * block_bits C)) v (c_init C)).
Proof.
  intros [Lj _] Lw Hb. pose proof (wf_w C WF) as Hw. pose proof (wf_bw C WF) as Hbw.
  assert (Hb1 : (N.of_nat (block_bits C) < 2 ^ 64)%N) by lia.
  assert (Hbb : block_bits C <> 0) by (unfold block_bits; nia).
  rewrite acc_feeds_app.
  destruct (words_feed_run ws 0 (acc_init C junk) junk) as (c' & E); cbn; auto; try lia.
  cbn [acc_init cst Nat.add] in E. rewrite E.
  cbn [acc_feeds acc_feed Nat.eqb]. unfold process_block_value, flush. cbn [filled].
  rewrite Lw. fold (block_bits C).
  assert (Ec : cached_bits C (Mk_acc false (N.of_nat (block_bits C)) c' (c_init C)) = 0).
  { unfold cached_bits. cbn [total]. rewrite <- Nnat.Nat2N.inj_mod, Nnat.Nat2N.id.
    apply Nat.mod_same. auto. }
  rewrite Ec. cbn [Nat.eqb negb]. rewrite Nat.eqb_refl. cbn [total cst].
  rewrite wrap64_small by lia. do 2 f_equal. lia.
Qed.
End Lost.

(** bits_count *)
Lemma bits_count_spec C fs : Forall (feed_ok C) fs ->
  Forall (fun f => match f with FBlock _ n => n <> 0 | FWord _ n => n <> 0 end) fs ->
  short (flat_map (feed_bits C) fs) ->
  bits_count fs = blen (flat_map (feed_bits C) fs).
Proof.
  intros HF HN HS. unfold bits_count.
  assert (G : forall fs c, Forall (feed_ok C) fs ->
    Forall (fun f => match f with FBlock _ n => n <> 0 | FWord _ n => n <> 0 end) fs ->
    (c + blen (flat_map (feed_bits C) fs) < 2 ^ 64)%N ->
    fold_left bits_count_feed fs c = (c + blen (flat_map (feed_bits C) fs))%N).
  { clear. induction fs as [|f fs IH]; intros c HF HN HS; cbn [fold_left flat_map].
    - unfold blen. simpl length. lia.
    - inversion HF; inversion HN; subst.
      pose proof (feed_bits_length C f H1) as L.
      cbn [flat_map] in HS. unfold blen in *. rewrite app_length in *.
      assert (E : bits_count_feed c f = (c + N.of_nat (length (feed_bits C f)))%N).
      { destruct f as [v n|x n]; cbn [bits_count_feed]; rewrite L; destruct (n =? 0) eqn:Z;
          try (apply Nat.eqb_eq in Z; congruence);
          apply wrap64_small; rewrite L in HS; lia. }
      rewrite IH; auto; rewrite E; lia. }
  rewrite G; auto; lia.
Qed.

(** Recording compressor: the state collects every block. *)
Lemma fold_record bs : forall s, fold_left (fun s b : list N => s ++ b) bs s = s ++ concat bs.
Proof.
  induction bs as [|b bs IH]; intros s; cbn; [now rewrite app_nil_r|].
  rewrite IH, <- app_assoc. reflexivity.
Qed.

Lemma record_chain e w bw P : w mod 8 = 0 -> 0 < w -> 0 < bw -> length P mod (w * bw) = 0 ->
  stream e w (md_chain e w bw (fun s b => s ++ b) [] P) = P.
Proof.
  intros H8 Hw Hbw HP. unfold md_chain. rewrite fold_record. cbn [app].
  rewrite <- (chunks_concat (w * bw) P) at 2 by (auto; nia).
  assert (F : Forall (fun c => length c = w * bw) (chunks (w * bw) P)) by (apply chunks_Forall; nia).
  induction F as [|c l Hc F IH]; [reflexivity|].
  cbn [map concat]. rewrite stream_app, IH. f_equal. now apply (block_stream_words e w bw).
Qed.
