(** The BLAKE2b statements, in the form of PBlake2b.v. *)
From Coq Require Import NArith Arith List Bool Lia ZifyBool ZifyNat ZifyN ZArith.
From Verif Require Import SpecStream LStream MPack LInj MAcc LAcc LBsp MConstr SpecMD LMD LMDProps LHaifa.
From Verif Require Import SpecWords LWords SpecBlake2b MBlake2b LBlake2b LBlake2bBij SpecOctets LGen.
Import ListNotations.
Ltac Zify.zify_post_hook ::= Z.div_mod_to_equations.

Section S.
Context (db : nat) (ic inj : injector) (junk : list N).
Context (Hdb : db mod 8 = 0 /\ 0 < db <= 512) (HIc : injector_contract LOBB 64 16 ic)
        (HI : injector_contract LOBB 64 16 inj) (Hj : block_ok 64 16 junk).
Notation C := (blake2b ic db).
Notation okO := (fun os : list N => (N.of_nat (8 * length os) < 2 ^ 64)%N).
Notation D := (haifa_out LOBB 64 16 (db / 8) (haifa_reset db blake2b_iv) blake2b_process_block 0xFFFFFFFFFFFFFFFF ic).

Lemma WF : wf_construction C.
Proof. apply blake2b_wf; tauto. Qed.
Lemma HIC : injector_contract (c_endian C) (c_word C) (c_words C) inj.
Proof. exact HI. Qed.
Lemma HEC : c_endian C = BOBB \/ c_endian C = LOBB.
Proof. right. reflexivity. Qed.
Lemma HHC : c_host C = BOBB \/ c_host C = LOBB.
Proof. right. reflexivity. Qed.
Lemma DCC : digest_correct C (fun _ => True) D.
Proof. apply blake2b_correct; try tauto. Qed.
Lemma HDC os : Forall (fits 8) os -> (N.of_nat (8 * length os) < 2 ^ 64)%N ->
  D (octets_bits os) = BLAKE2b_observed (db / 8) os.
Proof. intros. apply blake2b_out; tauto. Qed.

Lemma b_once os : Forall (fits 8) os -> (N.of_nat (8 * length os) < 2 ^ 64)%N ->
  hash_once C inj 8 junk os = Some (BLAKE2b_observed (db / 8) os).
Proof.
  intros HF Hs. exact (gen_once_octets C inj WF HIC HEC HHC _ D DCC okO _ (fun _ _ _ => I) HDC junk os Hj HF Hs Hs).
Qed.

Lemma b_pieces ps :
  Forall (fun p => fst p mod 8 = 0 /\ 0 < fst p /\ 64 mod fst p = 0 /\ Forall (fits (fst p)) (snd p)) ps ->
  (N.of_nat (8 * length (pieces_octets host_order ps)) < 2 ^ 64)%N ->
  exists a, hash_pieces C inj (acc_init C junk) ps = Some a /\
    acc_result C a = Some (BLAKE2b_observed (db / 8) (pieces_octets host_order ps)).
Proof.
  intros HF Hs. exact (gen_pieces C inj WF HIC HEC HHC _ D DCC okO _ (fun _ _ _ => I) HDC junk ps Hj HF Hs Hs).
Qed.

Lemma b_wide vb xs : In vb [8; 16; 32; 64] -> Forall (fits vb) xs ->
  (N.of_nat (8 * length (range_octets host_order vb xs)) < 2 ^ 64)%N ->
  hash_once C inj vb junk xs = Some (BLAKE2b_observed (db / 8) (range_octets host_order vb xs)).
Proof.
  intros Hv HF Hs. apply (gen_once C inj WF HIC HEC HHC _ D DCC okO _ (fun _ _ _ => I) HDC junk vb xs Hj); auto.
  cbn in Hv. destruct Hv as [<-|[<-|[<-|[<-|[]]]]]; repeat split; auto; cbn; lia.
Qed.

Lemma b_pieces_once (pieces : list (list N)) : Forall (Forall (fits 8)) pieces ->
  (N.of_nat (8 * length (concat pieces)) < 2 ^ 64)%N ->
  exists a x, hash_pieces C inj (acc_init C junk) (map (fun p => (8, p)) pieces) = Some a /\
    acc_result C a = Some x /\ hash_once C inj 8 junk (concat pieces) = Some x.
Proof.
  intros HF Hs.
  assert (E : pieces_octets host_order (map (fun p => (8, p)) pieces) = concat pieces).
  { clear Hs. induction HF as [|p ps Hp HF IH]; [reflexivity|].
    unfold pieces_octets in *. cbn [map flat_map concat fst snd]. rewrite IH. f_equal.
    exact (range_octets_8 C HHC p Hp). }
  destruct (b_pieces (map (fun p => (8, p)) pieces)) as (a & E1 & R1).
  - apply Forall_map. eapply Forall_impl; [|exact HF]. intros p Hp. cbn [fst snd]. repeat split; auto; lia.
  - rewrite E. exact Hs.
  - exists a. eexists. split; [exact E1|]. split; [exact R1|]. rewrite E. apply b_once; auto.
    apply Forall_concat. exact HF.
Qed.

Lemma b_history ops :
  Forall (fun o => match o with
                   | OpHash vb xs => vb mod 8 = 0 /\ 0 < vb /\ 64 mod vb = 0 /\ Forall (fits vb) xs
                   | OpExtract => True end) ops ->
  (N.of_nat (8 * length (history_octets host_order ops)) < 2 ^ 64)%N ->
  run_ops C inj (acc_init C junk) ops = Some (expected_octets host_order (BLAKE2b_observed (db / 8)) [] ops).
Proof.
  intros HF Hs.
  (* gen_history wants the digest equation for all lengths; use the length-bounded induction. *)
  assert (G : forall ops a os, Forall (fits 8) os -> strictR C a (octets_bits os) ->
    Forall (fun o => match o with
                   | OpHash vb xs => vb mod 8 = 0 /\ 0 < vb /\ 64 mod vb = 0 /\ Forall (fits vb) xs
                   | OpExtract => True end) ops ->
    (N.of_nat (8 * length (os ++ history_octets host_order ops)) < 2 ^ 64)%N ->
    run_ops C inj a ops = Some (expected_octets host_order (BLAKE2b_observed (db / 8)) os ops)).
  { clear ops HF Hs. induction ops as [|o ops IH]; intros a os Hfo HR HF Hs; [reflexivity|].
    inversion HF as [|? ? Ho HF']; subst. destruct o as [vb xs|]; cbn [run_ops expected_octets].
    - unfold history_octets in Hs. cbn [flat_map] in Hs. fold (history_octets host_order ops) in Hs.
      destruct Ho as (H1 & H2 & H3 & H4). rewrite app_assoc in Hs.
      assert (E : octets_bits os ++ stream host_order vb xs = octets_bits (os ++ range_octets host_order vb xs)).
      { rewrite octets_bits_app. rewrite (range_stream host_order vb xs) by auto. reflexivity. }
      destruct (hash_into_R C inj WF HIC vb H1 H2 H3 a (octets_bits os) xs) as (a1 & E1 & R1); auto.
      { change (c_host C) with host_order. rewrite E. apply short_fine. unfold short, blen. rewrite octets_bits_length. rewrite app_length in Hs. lia. }
      rewrite E1. change (c_host C) with host_order in R1. rewrite E in R1. apply IH; auto.
      apply Forall_app. split; auto. apply range_octets_fits.
    - change (history_octets host_order (OpExtract :: ops)) with (history_octets host_order ops) in Hs.
      rewrite (IH a os) by auto.
      assert (Hl : (N.of_nat (8 * length os) < 2 ^ 64)%N) by (rewrite app_length in Hs; lia).
      rewrite (DCC a (octets_bits os)); [|now apply strict_weak| |exact I].
      + rewrite HDC; auto.
      + unfold short, blen. rewrite octets_bits_length. exact Hl. }
  apply (G ops _ []); auto. apply init_strict; [exact WF|exact Hj].
Qed.

Lemma b_feeds (fs : list (list N * nat)) :
  Forall (fun f => block_ok 64 16 (fst f) /\ 0 < snd f <= 1024) fs ->
  let M := flat_map (fun f => firstn (snd f) (stream LOBB 64 (fst f))) fs in
  (N.of_nat (length M) < 2 ^ 64)%N ->
  exists a, acc_feeds C inj (acc_init C junk) (map (fun f => FBlock (fst f) (snd f)) fs) = Some a /\
    total a = N.of_nat (length M) /\
    acc_result C a = Some (BLAKE2b_bits_observed (db / 8) M).
Proof.
  intros HF M Hs.
  assert (EM : flat_map (feed_bits C) (map (fun f => FBlock (fst f) (snd f)) fs) = M).
  { clear Hs. unfold M. induction HF as [|f fs [Hf1 Hf2] HF IH]; [reflexivity|].
    cbn [map flat_map feed_bits]. rewrite IH. destruct (snd f =? 0) eqn:Z; [lia|]. reflexivity. }
  destruct (block_feeds_R C inj WF HIC (map (fun f => FBlock (fst f) (snd f)) fs) (acc_init C junk) []) as (a & E & R).
  - apply init_strict; [exact WF|exact Hj].
  - apply Forall_map. eapply Forall_impl; [|exact HF]. intros f [K1 K2]. cbn [feed_ok]. split; [exact K1|].
    change (block_bits C) with 1024. lia.
  - apply Forall_map. apply Forall_forall. intros. exact I.
  - cbn [app]. rewrite EM. left. exact Hs.
  - cbn [app] in R. rewrite EM in R. exists a. split; [exact E|]. split.
    + transitivity (count M); [|exact (count_short M Hs)]. destruct R as (M0 & T & EMT & R & _). rewrite EMT. apply R.
    + rewrite (DCC a M (strict_weak C a _ R) Hs I). f_equal. apply blake2b_out_bits; tauto.
Qed.
End S.

Lemma b_no_stale db ic ic' inj inj' junk junk' (fs fs' : list (list N * nat)) :
  let C := blake2b ic db in
  let C' := blake2b ic' db in
  let ok := fun f => block_ok 64 16 (fst f) /\ 0 < snd f <= 1024 in
  let bits := flat_map (fun f => firstn (snd f) (stream LOBB 64 (fst f))) in
  let feeds := map (fun f => FBlock (fst f) (snd f)) in
  db mod 8 = 0 /\ 0 < db <= 512 ->
  injector_contract LOBB 64 16 ic -> injector_contract LOBB 64 16 ic' ->
  injector_contract LOBB 64 16 inj -> injector_contract LOBB 64 16 inj' ->
  block_ok 64 16 junk -> block_ok 64 16 junk' ->
  Forall ok fs -> Forall ok fs' -> bits fs = bits fs' -> (N.of_nat (length (bits fs)) < 2 ^ 64)%N ->
  exists a a' d, acc_feeds C inj (acc_init C junk) (feeds fs) = Some a /\
    acc_feeds C' inj' (acc_init C' junk') (feeds fs') = Some a' /\
    acc_result C a = Some d /\ acc_result C' a' = Some d.
Proof.
  intros C C' ok bits feeds Hd H1 H2 H3 H4 Hj Hj' HF HF' E Hs.
  destruct (b_feeds db ic inj junk Hd H1 H3 Hj fs HF Hs) as (a & E1 & _ & R1).
  assert (Hs' : (N.of_nat (length (bits fs')) < 2 ^ 64)%N) by (rewrite <- E; exact Hs).
  destruct (b_feeds db ic' inj' junk' Hd H2 H4 Hj' fs' HF' Hs') as (a' & E2 & _ & R2).
  exists a, a', (BLAKE2b_bits_observed (db / 8) (bits fs)).
  split; [exact E1|]. split; [exact E2|]. split; [exact R1|]. rewrite E. exact R2.
Qed.

Lemma b_rfc db ic inj junk os : db mod 8 = 0 /\ 0 < db <= 512 ->
  injector_contract LOBB 64 16 ic -> injector_contract LOBB 64 16 inj -> block_ok 64 16 junk ->
  Forall (fits 8) os -> (N.of_nat (8 * length os) < 2 ^ 64)%N ->
  length os = 0 \/ length os mod 128 <> 0 ->
  hash_once (blake2b ic db) inj 8 junk os = Some (BLAKE2b (db / 8) os).
Proof.
  intros Hd H1 H2 Hj HF Hs Hl. rewrite b_once by auto. f_equal. unfold BLAKE2b_observed. cbv zeta.
  replace ((length os mod 128 =? 0) && negb (length os =? 0)) with false; [reflexivity|].
  destruct Hl as [Hl|Hl].
  - apply Nat.eqb_eq in Hl. rewrite Hl. now rewrite andb_false_r.
  - apply Nat.eqb_neq in Hl. now rewrite Hl.
Qed.

Lemma b_wrong db ic inj junk : In db [160; 256; 384; 512] ->
  injector_contract LOBB 64 16 ic -> injector_contract LOBB 64 16 inj -> block_ok 64 16 junk ->
  hash_once (blake2b ic db) inj 8 junk (repeat 0%N 128) <> None /\
  hash_once (blake2b ic db) inj 8 junk (repeat 0%N 128) <> Some (BLAKE2b (db / 8) (repeat 0%N 128)).
Proof.
  intros Hd H1 H2 Hj. rewrite b_once; auto.
  - split; [discriminate|]. intros E. injection E as E. revert E.
    cbn in Hd. destruct Hd as [<-|[<-|[<-|[<-|[]]]]]; vm_compute; discriminate.
  - cbn in Hd. destruct Hd as [<-|[<-|[<-|[<-|[]]]]]; cbn; lia.
  - apply (block_ok_zeros 8 128).
  - vm_compute. reflexivity.
Qed.

Lemma b_example : (512 mod 8 = 0 /\ 0 < 512 <= 512) /\
  injector_contract LOBB 64 16 (inj_keep LOBB 64 16) /\ injector_contract LOBB 64 16 (inj_run LOBB 64 16) /\
  block_ok 64 16 (map N.of_nat (seq 3 16)) /\
  Forall (fun f => block_ok 64 16 (fst f) /\ 0 < snd f <= 1024)
    [(repeat 0xFFFFFFFF%N 16, 3); (repeat 0x12345678%N 16, 1024); (repeat 1%N 16, 509)].
Proof.
  split; [split; [reflexivity|lia]|]. split; [apply inj_keep_contract; cbn; lia|].
  split; [apply inj_run_contract; cbn; lia|].
  split; [split; [reflexivity|repeat constructor]|].
  repeat constructor; cbn; lia.
Qed.

Lemma mix_example : block_ok 64 16 (map N.of_nat (seq 3 16)) /\
  blake2b_mix (map N.of_nat (seq 50 16)) (map N.of_nat (seq 3 16)) <> map N.of_nat (seq 3 16).
Proof. split; [split; [reflexivity|repeat constructor]|]. vm_compute. discriminate. Qed.
