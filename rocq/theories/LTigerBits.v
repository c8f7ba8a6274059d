(** C05, C06 for Tiger on bit counts: the marker octet fits, or it does not. *)
From Coq Require Import NArith Arith List Bool Lia ZifyBool ZifyNat ZifyN ZArith.
From Verif Require Import SpecStream LStream MPack LInj MAcc LAcc LBsp MConstr SpecMD LMD LMDProps SpecHist LHist LMDStmt LTigerStmt.
From Verif Require Import MTiger LTiger.
From Verif Require SpecTiger SpecTigerTables.
Import ListNotations.
Ltac Zify.zify_post_hook ::= Z.div_mod_to_equations.

Section TG.
Context (e : endian) (w bw lb dw : nat) (iv : list N) (comp : list N -> list N -> list N) (inj : injector).
Context (MP : md_params w bw lb) (HI : injector_contract e w bw inj).
Notation C := (tgC e w bw lb dw iv comp inj).

Lemma tgC_room : digest_correct C (fun M => length M mod (w * bw) + 8 <= w * bw)
  (md_hash e w bw lb (w * dw) tiger_marker iv comp).
Proof.
  destruct MP. intros a M HR Hs H8.
  apply (md_digest_correct e w bw lb dw iv comp _ tiger_marker); auto; try lia.
  intros. apply tiger_padding_spec; auto; lia.
Qed.

Lemma tgC_overrun a M : weakR C a M -> fine C M -> w * bw < length M mod (w * bw) + 8 -> acc_result C a = None.
Proof.
  intros (M0 & T & -> & R & F) Hfine Hov. destruct MP. destruct R.
  unfold acc_result. cbn [c_digest tgC md_construction]. unfold md_digest.
  replace (length_type_bits w lb) with 64 by (unfold length_type_bits; destruct (lb <? w) eqn:E1; [lia|]; destruct (64 <? lb) eqn:E2; lia). rewrite rf_total.
  rewrite (N.mod_small (count (M0 ++ T))) by (apply N.mod_upper_bound, N.pow_nonzero; discriminate).
  assert (Eseen : N.to_nat (count (M0 ++ T) mod N.of_nat (w * bw)) = length (M0 ++ T) mod (w * bw)).
  { pose proof (count_mod C (tgC_wf e w bw lb dw iv comp inj MP) (M0 ++ T) Hfine) as Q.
    change (block_bits C) with (w * bw) in Q. rewrite Q. unfold blen. rewrite <- Nnat.Nat2N.inj_mod. apply Nnat.Nat2N.id. }
  rewrite Eseen. unfold tiger_padding, marker_padding.
  destruct (inject inj w bw _ _ _ _ 0) as [b1|]; [|reflexivity].
  unfold inject. replace (length (M0 ++ T) mod (w * bw) + 8 <=? w * bw) with false by (symmetry; apply Nat.leb_gt; exact Hov).
  reflexivity.
Qed.
End TG.

(** Tiger itself, with its specification's compression function. *)
Section Tiger.
Context (k p : nat) (inj : injector) (junk : list N) (C : construction).
Context (HC : tiger (64 * (3 + k)) (3 + p) inj = Some C).
Context (HI : injector_contract LOBB 64 8 inj) (Hj : block_ok 64 8 junk).
Notation tables := SpecTigerTables.tables.
Local Lemma P : md_params 64 8 64. Proof. apply md_example. Qed.
Local Lemma EC : C = tg k p inj. Proof. rewrite tiger_is in HC. congruence. Qed.

Lemma fold_spec bs : Forall (fun b => length b = 8 /\ Forall (fits 64) b) bs -> forall s, st3 s ->
  fold_left (tiger_process_block (3 + p)) bs s = fold_left (SpecTiger.compress tables (3 + p)) bs s /\
  st3 (fold_left (tiger_process_block (3 + p)) bs s).
Proof.
  intros HF. induction HF as [|b bs Hb HF IH]; intros s Hs; cbn [fold_left]; [auto|].
  destruct (process_spec p s b Hs Hb) as [E K]. rewrite <- E. apply IH. exact K.
Qed.

Lemma tiger_bits_hash M :
  md_hash LOBB 64 8 64 (64 * (3 + k)) tiger_marker (tg_iv k) (tiger_process_block (3 + p)) M =
  md_hash LOBB 64 8 64 192 tiger_marker SpecTiger.H0 (SpecTiger.compress tables (3 + p)) M ++ repeat 0%N (8 * k).
Proof.
  unfold md_hash, md_chain. set (bs := map _ _).
  assert (Hbs : Forall (fun b => length b = 8 /\ Forall (fits 64) b) bs).
  { unfold bs. apply Forall_map. eapply Forall_impl; [|apply chunks_Forall; lia]. intros c Hc. cbn beta.
    split; [|apply words_of_stream_fits]. rewrite words_of_stream_length, Hc. reflexivity. }
  unfold tg_iv. fold SpecTiger.H0.
  assert (H3 : st3 SpecTiger.H0).
  { split; [reflexivity|]. unfold SpecTiger.H0. repeat (apply Forall_cons; [reflexivity|]). constructor. }
  destruct (fold_spec bs Hbs SpecTiger.H0 H3) as [E1 [L1 _]].
  destruct (fold_rest (3 + p) bs (repeat 0%N k) SpecTiger.H0 eq_refl) as [E2 _].
  change ([81985529216486895%N; 18364758544493064720%N; 17336226011405279623%N]) with SpecTiger.H0.
  rewrite E2, <- E1. set (s := fold_left _ _ _) in *. clearbody s.
  rewrite stream_app, !firstn_all2 by (rewrite ?app_length, ?stream_length, ?repeat_length, L1; lia).
  rewrite words_of_stream_app by (rewrite ?stream_length, ?L1; (reflexivity || lia)). f_equal.
  clear. induction k as [|m IH]; [reflexivity|].
  cbn [repeat]. rewrite stream_cons, words_of_stream_app by (rewrite ?word_stream_length; (reflexivity || lia)).
  rewrite IH. replace (8 * S m) with (8 + 8 * m) by lia. rewrite repeat_app. f_equal.
Qed.

Lemma tiger_bit_feeds (fs : list (list N * nat)) :
  Forall (fun f => block_ok 64 8 (fst f) /\ 0 < snd f <= 512) fs ->
  let M := flat_map (fun f => firstn (snd f) (stream LOBB 64 (fst f))) fs in
  (N.of_nat (length M) < 2 ^ 64)%N ->
  exists a, acc_feeds C inj (acc_init C junk) (map (fun f => FBlock (fst f) (snd f)) fs) = Some a /\
    total a = N.of_nat (length M) /\
    (length M mod 512 <= 504 ->
     acc_result C a = Some (md_hash LOBB 64 8 64 192 tiger_marker SpecTiger.H0 (SpecTiger.compress tables (3 + p)) M ++
                            repeat 0%N (8 * k))) /\
    (504 < length M mod 512 -> acc_result C a = None).
Proof.
  intros HF M Hs. rewrite EC. unfold tg, PMD.md_tiger.
  set (C' := md_construction _ _ _ _ _ _ _ _).
  assert (EM : flat_map (feed_bits C') (map (fun f => FBlock (fst f) (snd f)) fs) = M).
  { unfold M. clear Hs M. induction HF as [|f fs [Hf1 Hf2] HF IH]; [reflexivity|].
    cbn [map flat_map feed_bits]. rewrite IH. f_equal. destruct (snd f =? 0) eqn:Z; [lia|reflexivity]. }
  pose proof (tgC_wf LOBB 64 8 64 (3 + k) (tg_iv k) (tiger_process_block (3 + p)) inj P : wf_construction C') as W.
  destruct (block_feeds_R C' inj W HI (map (fun f => FBlock (fst f) (snd f)) fs) (acc_init C' junk) []) as (a & E & R).
  - now apply init_strict.
  - apply Forall_map. eapply Forall_impl; [|exact HF]. intros f [K1 K2]. split; [exact K1|].
    change (block_bits C') with 512. lia.
  - apply Forall_map. apply Forall_forall. intros. exact I.
  - cbn [app]. rewrite EM. left. exact Hs.
  - cbn [app] in R. rewrite EM in R. exists a. split; [exact E|]. split; [|split].
    + change (total a = blen M). rewrite <- (count_short M Hs). destruct R as (M0 & T & EMT & R & _). rewrite EMT. apply R.
    + intros Hr. rewrite <- tiger_bits_hash.
      apply (tgC_room LOBB 64 8 64 (3 + k) (tg_iv k) (tiger_process_block (3 + p)) inj P HI); auto.
      * now apply strict_weak.
      * change (64 * 8) with 512. lia.
    + intros Hr. apply (tgC_overrun LOBB 64 8 64 (3 + k) (tg_iv k) (tiger_process_block (3 + p)) inj P a M).
      * now apply strict_weak.
      * left. exact Hs.
      * change (64 * 8) with 512. lia.
Qed.
End Tiger.

Lemma bit_feeds_hyp :
  let ok := Forall (fun f : list N * nat => block_ok 64 8 (fst f) /\ 0 < snd f <= 512) in
  let bits := fun fs => length (flat_map (fun f : list N * nat => firstn (snd f) (stream LOBB 64 (fst f))) fs) in
  let fs := [(map N.of_nat (seq 3 8), 3); (map N.of_nat (seq 9 8), 512)] in
  let gs := [(map N.of_nat (seq 3 8), 505); (map N.of_nat (seq 9 8), 512)] in
  ok fs /\ bits fs = 515 /\ ok gs /\ bits gs = 1017.
Proof.
  assert (B : forall a, block_ok 64 8 (map N.of_nat (seq a 8)) \/ 1000 < a).
  { intros a. destruct (Nat.le_gt_cases a 1000) as [L|L]; [left|now right]. split; [reflexivity|].
    apply Forall_map. apply Forall_forall. intros i Hi. apply in_seq in Hi. unfold fits.
    apply N.lt_trans with 2000%N; [lia|reflexivity]. }
  assert (B3 : block_ok 64 8 (map N.of_nat (seq 3 8))) by (destruct (B 3) as [X|X]; [exact X|lia]).
  assert (B9 : block_ok 64 8 (map N.of_nat (seq 9 8))) by (destruct (B 9) as [X|X]; [exact X|lia]).
  cbv zeta. split; [|split; [reflexivity|split; [|reflexivity]]];
    (apply Forall_cons; [split; [assumption|cbn [snd]; lia]|]);
    (apply Forall_cons; [split; [assumption|cbn [snd]; lia]|constructor]).
Qed.
