(** Statements used by PMD.v. *)
From Coq Require Import NArith Arith List Bool Lia ZifyBool ZifyNat ZifyN ZArith.
From Verif Require Import SpecStream LStream MPack LInj MAcc LAcc LBsp MConstr SpecMD LMD LMDProps SpecHist LHist.
Import ListNotations.
Ltac Zify.zify_post_hook ::= Z.div_mod_to_equations.
Lemma md_once e w bw lb dw iv comp inj junk vb xs :
  md_params w bw lb -> injector_contract e w bw inj -> block_ok w bw junk ->
  vb mod 8 = 0 -> 0 < vb -> w mod vb = 0 -> Forall (fits vb) xs ->
  (N.of_nat (length (stream host_order vb xs)) < 2 ^ 64)%N ->
  hash_once (mdC e w bw lb dw iv comp inj) inj vb junk xs =
  Some (md_hash e w bw lb (w * dw) one_marker iv comp (stream host_order vb xs)).
Proof.
  intros MP HI Hj H1 H2 H3 H4 Hs.
  apply (once_result (mdC e w bw lb dw iv comp inj) inj) with (ok := fun _ => True); auto.
  - now apply mdC_wf.
  - now apply mdC_correct.
  - repeat split; auto.
Qed.

Lemma md_once_octets e w bw lb dw iv comp inj junk os :
  md_params w bw lb -> injector_contract e w bw inj -> block_ok w bw junk ->
  e = BOBB \/ e = LOBB -> Forall (fits 8) os -> (N.of_nat (8 * length os) < 2 ^ 64)%N ->
  hash_once (mdC e w bw lb dw iv comp inj) inj 8 junk os =
  Some (md_hash e w bw lb (w * dw) one_marker iv comp (octets_bits os)).
Proof.
  intros MP HI Hj He Hf Hs. rewrite md_once; auto; try lia.
  - apply MP.
  - rewrite stream_length. exact Hs.
Qed.

Lemma tiger_once_octets e w bw lb dw iv comp inj junk os :
  md_params w bw lb -> injector_contract e w bw inj -> block_ok w bw junk ->
  e = BOBB \/ e = LOBB -> Forall (fits 8) os -> (N.of_nat (8 * length os) < 2 ^ 64)%N ->
  hash_once (tgC e w bw lb dw iv comp inj) inj 8 junk os =
  Some (md_hash e w bw lb (w * dw) tiger_marker iv comp (octets_bits os)).
Proof.
  intros MP HI Hj He Hf Hs.
  rewrite (once_result (tgC e w bw lb dw iv comp inj) inj) with (ok := fun M => length M mod 8 = 0)
    (D := md_hash e w bw lb (w * dw) tiger_marker iv comp); auto.
  - now apply tgC_wf.
  - now apply tgC_correct.
  - repeat split; cbn; auto; try lia. apply MP.
  - cbn [tgC c_host md_construction]. unfold short, blen. change (flat_map (word_stream host_order 8) os) with (stream host_order 8 os).
    rewrite stream_length. exact Hs.
  - cbn [tgC c_host md_construction]. apply stream_mod8. reflexivity.
Qed.

Lemma md_example :
  md_params 32 16 64 /\ md_params 64 16 128 /\ md_params 64 8 64 /\
  injector_contract BOBB 32 16 (inj_keep BOBB 32 16) /\
  injector_contract LOBB 32 16 (inj_run LOBB 32 16) /\
  block_ok 32 16 (repeat 7%N 16) /\ Forall (fits 8) [97%N; 98%N; 99%N].
Proof.
  assert (P : forall w bw lb, w mod 8 = 0 -> 0 < w <= 64 -> 0 < bw -> 64 <= lb <= w * bw -> lb mod w = 0 ->
    md_params w bw lb) by (intros; constructor; auto).
  split; [apply P; (reflexivity || lia)|]. split; [apply P; (reflexivity || lia)|].
  split; [apply P; (reflexivity || lia)|].
  split; [apply inj_keep_contract; (reflexivity || lia)|].
  split; [apply inj_run_contract; (reflexivity || lia)|].
  split; [split; [reflexivity|]|]; repeat constructor; unfold fits; reflexivity.
Qed.

Lemma md_chunking e w bw lb dw iv comp inj junk junk' ps ps' :
  let C := mdC e w bw lb dw iv comp inj in
  let ok := fun p => fst p mod 8 = 0 /\ 0 < fst p /\ w mod fst p = 0 /\ Forall (fits (fst p)) (snd p) in
  let bits := flat_map (fun p => stream host_order (fst p) (snd p)) in
  md_params w bw lb -> injector_contract e w bw inj -> block_ok w bw junk -> block_ok w bw junk' ->
  Forall ok ps -> Forall ok ps' -> bits ps = bits ps' ->
  (N.of_nat (length (bits ps)) < 2 ^ 64)%N ->
  exists a a' d, hash_pieces C inj (acc_init C junk) ps = Some a /\
    hash_pieces C inj (acc_init C junk') ps' = Some a' /\
    acc_result C a = Some d /\ acc_result C a' = Some d.
Proof.
  intros C ok bits MP HI Hj Hj' Hp Hp' E Hs.
  destruct (pieces_result C inj (mdC_wf _ _ _ _ _ _ _ _ MP) HI _ _ (mdC_correct _ _ _ _ _ _ _ _ MP HI) junk ps)
    as (a & E1 & R1); auto.
  destruct (pieces_result C inj (mdC_wf _ _ _ _ _ _ _ _ MP) HI _ _ (mdC_correct _ _ _ _ _ _ _ _ MP HI) junk' ps')
    as (a' & E2 & R2); auto.
  { change (short (bits ps')). rewrite <- E. exact Hs. }
  exists a, a'. eexists. split; [eauto|]. split; [eauto|]. split; [eauto|].
  rewrite R2. do 2 f_equal. symmetry. exact E.
Qed.

Lemma Forall_concat_ok {A} (P : A -> Prop) (ls : list (list A)) : Forall (Forall P) ls -> Forall P (concat ls).
Proof. induction 1; cbn; [constructor|]. apply Forall_app. auto. Qed.

Lemma flat_map_pieces e (pieces : list (list N)) :
  flat_map (fun p => stream e (fst p) (snd p)) (map (fun p => (8, p)) pieces) = stream e 8 (concat pieces).
Proof.
  induction pieces as [|p ps IH]; [reflexivity|].
  cbn [map flat_map fst snd concat]. now rewrite IH, stream_app.
Qed.

Lemma md_pieces e w bw lb dw iv comp inj junk (pieces : list (list N)) :
  let C := mdC e w bw lb dw iv comp inj in
  md_params w bw lb -> injector_contract e w bw inj -> block_ok w bw junk ->
  Forall (Forall (fits 8)) pieces -> (N.of_nat (8 * length (concat pieces)) < 2 ^ 64)%N ->
  exists a d, hash_pieces C inj (acc_init C junk) (map (fun p => (8, p)) pieces) = Some a /\
    acc_result C a = Some d /\ hash_once C inj 8 junk (concat pieces) = Some d.
Proof.
  intros C MP HI Hj HF Hs. assert (W8 : w mod 8 = 0) by apply MP.
  destruct (pieces_result C inj (mdC_wf _ _ _ _ _ _ _ _ MP) HI _ _ (mdC_correct _ _ _ _ _ _ _ _ MP HI) junk
              (map (fun p => (8, p)) pieces)) as (a & E1 & R1); auto.
  - apply Forall_map. eapply Forall_impl; [|exact HF]. intros p Hp. repeat split; cbn; auto; lia.
  - unfold pieces_bits, short, blen. rewrite flat_map_pieces, stream_length. exact Hs.
  - eexists a, _. split; [eauto|]. split; [eauto|]. unfold C.
    rewrite md_once; auto; try lia.
    + do 2 f_equal. unfold pieces_bits. symmetry. apply flat_map_pieces.
    + now apply Forall_concat_ok.
    + rewrite stream_length. exact Hs.
Qed.

Lemma md_widths e w bw lb dw iv comp inj junk ps :
  let C := mdC e w bw lb dw iv comp inj in
  md_params w bw lb -> injector_contract e w bw inj -> block_ok w bw junk ->
  Forall (fun p => In (fst p) [8; 16; 32; 64] /\ w mod fst p = 0 /\ Forall (fits (fst p)) (snd p)) ps ->
  (N.of_nat (length (flat_map (fun p => stream host_order (fst p) (snd p)) ps)) < 2 ^ 64)%N ->
  exists a, hash_pieces C inj (acc_init C junk) ps = Some a /\
    acc_result C a = Some (md_hash e w bw lb (w * dw) one_marker iv comp
                             (flat_map (fun p => stream host_order (fst p) (snd p)) ps)).
Proof.
  intros C MP HI Hj HF Hs.
  apply (pieces_result C inj (mdC_wf _ _ _ _ _ _ _ _ MP) HI _ _ (mdC_correct _ _ _ _ _ _ _ _ MP HI)); auto.
  eapply Forall_impl; [|exact HF]. intros p (H1 & H2 & H3).
  assert (fst p mod 8 = 0 /\ 0 < fst p).
  { cbn in H1. destruct H1 as [<-|[<-|[<-|[<-|[]]]]]; split; (reflexivity || lia). }
  repeat split; tauto.
Qed.

Lemma octets_le_length n x : length (octets_le n x) = n.
Proof. revert x; induction n; intros; cbn; auto. Qed.

Lemma octets_le_fits n x : Forall (fits 8) (octets_le n x).
Proof.
  revert x; induction n; intros; cbn; constructor; auto.
  unfold fits. change (2 ^ N.of_nat 8)%N with 256%N. apply N.mod_lt. lia.
Qed.

Lemma octets_le_nth n x k : k < n -> nth k (octets_le n x) 0%N = (x / 256 ^ N.of_nat k mod 256)%N.
Proof.
  revert x k; induction n; intros x k Hk; [lia|]. cbn [octets_le]. destruct k as [|k].
  - cbn [nth]. change (256 ^ N.of_nat 0)%N with 1%N. now rewrite N.div_1_r.
  - cbn [nth]. rewrite IHn by lia. rewrite N.div_div by (try apply N.pow_nonzero; lia).
    do 2 f_equal. rewrite Nnat.Nat2N.inj_succ, N.pow_succ_r'. reflexivity.
Qed.

Lemma testbit_octet x k j : j < 8 ->
  N.testbit (x / 256 ^ N.of_nat k mod 256) (N.of_nat j) = N.testbit x (N.of_nat (8 * k + j)).
Proof.
  intros Hj. change 256%N with (2 ^ 8)%N at 2. rewrite N.mod_pow2_bits_low by lia.
  change 256%N with (2 ^ 8)%N. rewrite <- N.pow_mul_r, N.div_pow2_bits.
  f_equal. lia.
Qed.

Lemma nth_stream8 e os i : i < 8 * length os ->
  nth i (stream e 8 os) false = N.testbit (nth (i / 8) os 0%N) (N.of_nat (bitpos e 8 (i mod 8))).
Proof.
  revert i; induction os as [|o os IH]; intros i Hi; cbn [length] in Hi; [lia|].
  rewrite stream_cons. destruct (lt_dec i 8).
  - rewrite app_nth1 by (rewrite word_stream_length; lia).
    rewrite nth_word_stream by lia. rewrite (Nat.div_small i 8), (Nat.mod_small i 8) by lia. reflexivity.
  - rewrite app_nth2 by (rewrite word_stream_length; lia). rewrite word_stream_length.
    rewrite IH by lia.
    replace (i / 8) with (S ((i - 8) / 8)) by lia. cbn [nth]. do 3 f_equal. lia.
Qed.

Lemma octets_in_order_stream e n x : e = BOBB \/ e = LOBB ->
  stream e 8 (octets_in_order e n x) = word_stream e (8 * n) x.
Proof.
  intros He.
  assert (L : length (octets_in_order e n x) = n).
  { destruct e; cbn; rewrite ?rev_length; apply octets_le_length. }
  apply nth_ext with (d := false) (d' := false).
  { now rewrite stream_length, word_stream_length, L. }
  intros i Hi. rewrite stream_length, L in Hi.
  rewrite nth_stream8 by lia. rewrite nth_word_stream by lia.
  destruct He as [->| ->]; cbn [octets_in_order].
  - rewrite rev_nth by (rewrite octets_le_length; lia). rewrite octets_le_length, octets_le_nth by lia.
    rewrite testbit_octet by (unfold bitpos; lia). f_equal. f_equal. unfold bitpos. lia.
  - rewrite octets_le_nth by lia. rewrite testbit_octet by (unfold bitpos; lia).
    f_equal. f_equal. unfold bitpos. lia.
Qed.

Lemma octets_in_order_fits e n x : Forall (fits 8) (octets_in_order e n x).
Proof.
  destruct e; cbn; try apply Forall_rev; apply octets_le_fits.
Qed.

Lemma wide_stream e n xs : e = BOBB \/ e = LOBB ->
  stream e 8 (flat_map (octets_in_order e n) xs) = stream e (8 * n) xs.
Proof.
  intros He. induction xs as [|x xs IH]; [reflexivity|].
  cbn [flat_map]. rewrite stream_app, stream_cons, IH, octets_in_order_stream; auto.
Qed.

Lemma flat_map_Forall {A B} (P : B -> Prop) (f : A -> list B) l : (forall x, Forall P (f x)) -> Forall P (flat_map f l).
Proof. intros H. induction l; cbn; [constructor|]. apply Forall_app. auto. Qed.

Lemma md_wide e w bw lb dw iv comp inj junk n xs :
  let C := mdC e w bw lb dw iv comp inj in
  md_params w bw lb -> injector_contract e w bw inj -> block_ok w bw junk ->
  0 < n -> w mod (8 * n) = 0 -> Forall (fits (8 * n)) xs ->
  (N.of_nat (8 * n * length xs) < 2 ^ 64)%N ->
  hash_once C inj (8 * n) junk xs = hash_once C inj 8 junk (flat_map (octets_in_order host_order n) xs) /\
  hash_once C inj 8 junk (flat_map (octets_in_order host_order n) xs) <> None.
Proof.
  intros C MP HI Hj Hn Hwn HF Hs. assert (W8 : w mod 8 = 0) by apply MP.
  assert (E8 : hash_once C inj 8 junk (flat_map (octets_in_order host_order n) xs) =
          Some (md_hash e w bw lb (w * dw) one_marker iv comp (stream host_order (8 * n) xs))).
  { rewrite <- wide_stream by (right; reflexivity). apply md_once; auto; try lia.
    - apply flat_map_Forall. intros. apply octets_in_order_fits.
    - rewrite wide_stream by (right; reflexivity); rewrite stream_length. exact Hs. }
  rewrite E8. split; [|discriminate]. apply md_once; auto; try lia.
  rewrite stream_length. exact Hs.
Qed.

Lemma md_history e w bw lb dw iv comp inj junk (ops : list op) :
  let C := mdC e w bw lb dw iv comp inj in
  let H := md_hash e w bw lb (w * dw) one_marker iv comp in
  md_params w bw lb -> injector_contract e w bw inj -> block_ok w bw junk ->
  Forall (fun o => match o with
                   | OpHash vb xs => vb mod 8 = 0 /\ 0 < vb /\ w mod vb = 0 /\ Forall (fits vb) xs
                   | OpExtract => True end) ops ->
  (N.of_nat (length (flat_map (fun o => match o with OpHash vb xs => stream host_order vb xs
                                                   | OpExtract => [] end) ops)) < 2 ^ 64)%N ->
  run_ops C inj (acc_init C junk) ops = Some (expected host_order H [] ops).
Proof.
  intros C H MP HI Hj HF Hs.
  apply (run_ops_R C inj (mdC_wf _ _ _ _ _ _ _ _ MP) HI (fun _ => True) H (mdC_correct _ _ _ _ _ _ _ _ MP HI)); auto.
  apply init_strict; auto. now apply mdC_wf.
Qed.

Lemma md_block_feeds e w bw lb dw iv comp inj junk (fs : list (list N * nat)) :
  let C := mdC e w bw lb dw iv comp inj in
  md_params w bw lb -> injector_contract e w bw inj -> block_ok w bw junk ->
  Forall (fun f => block_ok w bw (fst f) /\ 0 < snd f <= w * bw) fs ->
  let M := flat_map (fun f => firstn (snd f) (stream e w (fst f))) fs in
  (N.of_nat (length M) < 2 ^ 64)%N ->
  exists a, acc_feeds C inj (acc_init C junk) (map (fun f => FBlock (fst f) (snd f)) fs) = Some a /\
    total a = N.of_nat (length M) /\
    acc_result C a = Some (md_hash e w bw lb (w * dw) one_marker iv comp M).
Proof.
  intros C MP HI Hj HF M Hs.
  assert (EM : flat_map (feed_bits C) (map (fun f => FBlock (fst f) (snd f)) fs) = M).
  { unfold M. clear Hs M. induction HF as [|f fs [Hf1 Hf2] HF IH]; [reflexivity|].
    cbn [map flat_map feed_bits]. rewrite IH. f_equal. destruct (snd f =? 0) eqn:Z; [lia|reflexivity]. }
  destruct (block_feeds_R C inj (mdC_wf _ _ _ _ _ _ _ _ MP) HI (map (fun f => FBlock (fst f) (snd f)) fs)
              (acc_init C junk) []) as (a & E & R).
  - apply init_strict; auto. now apply mdC_wf.
  - apply Forall_map. eapply Forall_impl; [|exact HF]. cbn. intros f [? ?]. split; auto.
    unfold block_bits. cbn. lia.
  - apply Forall_map. apply Forall_forall. intros. exact I.
  - cbn [app]. rewrite EM. left. exact Hs.
  - cbn [app] in R. rewrite EM in R. exists a. split; [exact E|]. split.
    + change (total a = blen M). rewrite <- (count_short M Hs). destruct R as (M0 & T & EMT & R & _). rewrite EMT. apply R.
    + apply (mdC_correct _ _ _ _ _ _ _ _ MP HI); auto. now apply strict_weak.
Qed.

Lemma md_block_feeds_digest e w bw lb dw iv comp inj junk (fs : list (list N * nat)) :
  let C := mdC e w bw lb dw iv comp inj in
  md_params w bw lb -> injector_contract e w bw inj -> block_ok w bw junk ->
  Forall (fun f => block_ok w bw (fst f) /\ 0 < snd f <= w * bw) fs ->
  let M := flat_map (fun f => firstn (snd f) (stream e w (fst f))) fs in
  (N.of_nat (length M) < 2 ^ 64)%N ->
  exists a, acc_feeds C inj (acc_init C junk) (map (fun f => FBlock (fst f) (snd f)) fs) = Some a /\
    acc_result C a = Some (md_hash e w bw lb (w * dw) one_marker iv comp M).
Proof.
  intros C MP HI Hj HF M Hs.
  destruct (md_block_feeds e w bw lb dw iv comp inj junk fs) as (a & E & _ & R); eauto.
Qed.

Lemma md_no_stale e w bw lb dw iv comp inj inj' junk junk' (fs fs' : list (list N * nat)) :
  let C := mdC e w bw lb dw iv comp inj in
  let C' := mdC e w bw lb dw iv comp inj' in
  let ok := fun f => block_ok w bw (fst f) /\ 0 < snd f <= w * bw in
  let bits := flat_map (fun f => firstn (snd f) (stream e w (fst f))) in
  let feeds := map (fun f => FBlock (fst f) (snd f)) in
  md_params w bw lb -> injector_contract e w bw inj -> injector_contract e w bw inj' ->
  block_ok w bw junk -> block_ok w bw junk' ->
  Forall ok fs -> Forall ok fs' -> bits fs = bits fs' -> (N.of_nat (length (bits fs)) < 2 ^ 64)%N ->
  exists a a' d, acc_feeds C inj (acc_init C junk) (feeds fs) = Some a /\
    acc_feeds C' inj' (acc_init C' junk') (feeds fs') = Some a' /\
    acc_result C a = Some d /\ acc_result C' a' = Some d.
Proof.
  intros C C' ok bits feeds MP HI HI' Hj Hj' HF HF' E Hs.
  destruct (md_block_feeds e w bw lb dw iv comp inj junk fs MP HI Hj HF Hs) as (a & E1 & _ & R1).
  assert (Hs' : (N.of_nat (length (bits fs')) < 2 ^ 64)%N) by (rewrite <- E; exact Hs).
  destruct (md_block_feeds e w bw lb dw iv comp inj' junk' fs' MP HI' Hj' HF' Hs') as (a' & E2 & _ & R2).
  exists a, a'. eexists. split; [exact E1|]. split; [exact E2|]. split; [exact R1|].
  unfold C'. rewrite R2. do 2 f_equal. symmetry. exact E.
Qed.

Lemma feeds_example :
  Forall (fun f => block_ok 32 16 (fst f) /\ 0 < snd f <= 32 * 16)
    [(repeat 0xFFFFFFFF%N 16, 3); (repeat 0x12345678%N 16, 512); (repeat 1%N 16, 509)].
Proof.
  repeat constructor; unfold fits; try (vm_compute; reflexivity); cbn [fst snd]; lia.
Qed.

Lemma lost_words (C : construction) inj junk (ws ws' : list N) (v : list N) :
  c_word C mod 8 = 0 -> 0 < c_word C -> 0 < c_words C ->
  block_ok (c_word C) (c_words C) junk ->
  (N.of_nat (2 * (c_word C * c_words C)) < 2 ^ 64)%N ->
  block_ok (c_word C) (c_words C) ws -> block_ok (c_word C) (c_words C) ws' ->
  exists a a', acc_feeds C inj (acc_init C junk) (map (fun x => FWord x 0) ws ++ [FBlock v 0]) = Some a /\
    acc_feeds C inj (acc_init C junk) (map (fun x => FWord x 0) ws' ++ [FBlock v 0]) = Some a' /\
    acc_result C a = acc_result C a'.
Proof.
  intros H1 H2 H3 Hj Hb [L1 _] [L2 _].
  assert (WF : wf_construction C) by (constructor; auto).
  rewrite !(lost_block C inj WF junk) by auto. eauto.
Qed.

Lemma no_completion_of C fs : Forall (feed_ok C) fs ->
  forall M : list bool,
  (forall pre x n post, fs = pre ++ FWord x n :: post -> post <> [] ->
     let l := length M + length (flat_map (feed_bits C) pre) in
     (l + length (feed_bits C (FWord x n))) mod block_bits C <> 0 \/ l mod c_word C <> 0) ->
  no_word_completion C (length M) fs.
Proof.
  induction 1 as [|f fs Hf HF IH]; intros M H; [exact I|].
  pose proof (feed_bits_length C f Hf) as L.
  assert (H' : forall pre x n post, fs = pre ++ FWord x n :: post -> post <> [] ->
     let l := length (M ++ feed_bits C f) + length (flat_map (feed_bits C) pre) in
     (l + length (feed_bits C (FWord x n))) mod block_bits C <> 0 \/ l mod c_word C <> 0).
  { intros pre x n post -> Hp. specialize (H (f :: pre) x n post eq_refl Hp).
    cbn [flat_map] in H. cbv zeta in *. rewrite app_length in *. rewrite <- (Nat.add_assoc (length M)). exact H. }
  specialize (IH (M ++ feed_bits C f) H'). rewrite app_length, L in IH.
  destruct f as [v n|x n]; cbn [no_word_completion]; [exact IH|].
  split; [|exact IH].
  destruct fs as [|g fs]; [now left|right].
  specialize (H [] x n (g :: fs) eq_refl). cbv zeta in H. cbn [flat_map length] in H.
  rewrite Nat.add_0_r, L in H. apply H. discriminate.
Qed.

Lemma md_mixed e w bw lb dw iv comp inj junk (fs : list feed) :
  let C := mdC e w bw lb dw iv comp inj in
  let bits := fun f => match f with
                       | FBlock v n => firstn (if n =? 0 then w * bw else n) (stream e w v)
                       | FWord x n => firstn (if n =? 0 then w else n) (word_stream e w x) end in
  md_params w bw lb -> injector_contract e w bw inj -> block_ok w bw junk ->
  Forall (fun f => match f with
                   | FBlock v n => block_ok w bw v /\ n <= w * bw
                   | FWord x n => fits w x /\ n <= w end) fs ->
  (forall pre x n post, fs = pre ++ FWord x n :: post -> post <> [] ->
     let l := length (flat_map bits pre) in
     (l + length (bits (FWord x n))) mod (w * bw) <> 0 \/ l mod w <> 0) ->
  (N.of_nat (length (flat_map bits fs)) < 2 ^ 64)%N ->
  exists a, acc_feeds C inj (acc_init C junk) fs = Some a /\
    acc_result C a = Some (md_hash e w bw lb (w * dw) one_marker iv comp (flat_map bits fs)).
Proof.
  intros C bits MP HI Hj HF HN Hs.
  assert (WF : wf_construction C) by now apply mdC_wf.
  destruct (mixed_feeds_R C inj WF HI fs (acc_init C junk) []) as (a & E & R); auto.
  - now apply init_strict.
  - apply no_completion_of; auto.
  - exists a. split; [exact E|]. cbn [app] in R.
    apply (mdC_correct _ _ _ _ _ _ _ _ MP HI); auto.
Qed.

Lemma bits_count_wrong (C : construction) inj junk v :
  0 < c_word C -> 0 < c_words C -> (N.of_nat (c_word C * c_words C) < 2 ^ 64)%N ->
  exists a, acc_feeds C inj (acc_init C junk) [FBlock v 0] = Some a /\
    total a = N.of_nat (c_word C * c_words C) /\ bits_count [FBlock v 0] = 0%N /\
    bits_count [FBlock v 0] <> total a.
Proof.
  intros H1 H2 Hb. cbn [acc_feeds acc_feed Nat.eqb]. unfold process_block_value, flush.
  cbn [filled acc_init]. unfold cached_bits. cbn [total acc_init].
  assert (block_bits C <> 0) by (unfold block_bits; nia).
  rewrite N.mod_0_l by lia. cbn [N.to_nat Nat.eqb negb]. rewrite Nat.eqb_refl.
  eexists. split; [reflexivity|]. cbn [total]. rewrite N.add_0_l.
  unfold block_bits in *. rewrite wrap64_small by auto.
  repeat split; auto. change (0%N <> N.of_nat (c_word C * c_words C)). lia.
Qed.

Lemma bits_count_right e w bw lb dw iv comp inj junk (fs : list (list N * nat)) :
  let C := mdC e w bw lb dw iv comp inj in
  let feeds := map (fun f => FBlock (fst f) (snd f)) fs in
  md_params w bw lb -> injector_contract e w bw inj -> block_ok w bw junk ->
  Forall (fun f => block_ok w bw (fst f) /\ 0 < snd f <= w * bw) fs ->
  (N.of_nat (list_sum (map snd fs)) < 2 ^ 64)%N ->
  exists a, acc_feeds C inj (acc_init C junk) feeds = Some a /\
    bits_count feeds = N.of_nat (list_sum (map snd fs)) /\ total a = bits_count feeds.
Proof.
  intros C feeds MP HI Hj HF Hs.
  set (M := flat_map (fun f => firstn (snd f) (stream e w (fst f))) fs).
  assert (LM : length M = list_sum (map snd fs)).
  { unfold M. clear Hs M feeds. induction HF as [|f fs [Hf1 Hf2] HF IH]; [reflexivity|].
    cbn [flat_map map]. rewrite app_length, IH, firstn_length.
    rewrite (block_stream_length e w bw) by auto.
    change (list_sum (snd f :: map snd fs)) with (snd f + list_sum (map snd fs)). lia. }
  destruct (md_block_feeds e w bw lb dw iv comp inj junk fs) as (a & E & Ht & _); auto.
  { fold M. rewrite LM. exact Hs. }
  fold M in Ht. rewrite LM in Ht.
  exists a. split; [exact E|].
  assert (bits_count feeds = N.of_nat (list_sum (map snd fs))).
  { assert (EM : flat_map (feed_bits C) feeds = M).
    { unfold M, feeds. clear - HF. induction HF as [|f fs [Hf1 Hf2] HF IH]; [reflexivity|].
      cbn [map flat_map feed_bits]. rewrite IH. f_equal. destruct (snd f =? 0) eqn:Z; [lia|reflexivity]. }
    rewrite (bits_count_spec C).
    - rewrite EM. unfold blen. now rewrite LM.
    - apply Forall_map. eapply Forall_impl; [|exact HF]. cbn. intros f [? ?]. split; auto.
      unfold block_bits. cbn. lia.
    - apply Forall_map. eapply Forall_impl; [|exact HF]. cbn. intros f [? ?]. lia.
    - unfold short, blen. rewrite EM, LM. exact Hs. }
  split; [auto|]. rewrite H; exact Ht.
Qed.

Lemma lb_mod8 w bw lb : md_params w bw lb -> lb mod 8 = 0.
Proof.
  intros [H1 H2 H3 H4 H5]. apply Nat.div_exact in H5; [|lia].
  rewrite H5, <- Nat.mul_mod_idemp_l, H1 by lia. reflexivity.
Qed.

Lemma md_collision_params e w bw lb marker iv comp M1 M2 :
  md_params w bw lb ->
  (N.of_nat (length M1) < 2 ^ 64)%N -> (N.of_nat (length M2) < 2 ^ 64)%N -> M1 <> M2 ->
  md_chain e w bw comp iv (md_pad e (w * bw) lb marker M1) =
  md_chain e w bw comp iv (md_pad e (w * bw) lb marker M2) ->
  collision_among comp (md_comp_calls e w bw lb marker iv comp M1) (md_comp_calls e w bw lb marker iv comp M2).
Proof.
  intros MP. pose proof (lb_mod8 w bw lb MP). destruct MP. apply md_collision; auto; lia.
Qed.

Lemma md_chain_ok e w bw sw comp : 0 < w -> 0 < bw ->
  (forall s x, block_ok w sw s -> block_ok w bw x -> block_ok w sw (comp s x)) ->
  forall P iv, block_ok w sw iv -> block_ok w sw (md_chain e w bw comp iv P).
Proof.
  intros Hw Hb HC P iv Hiv. unfold md_chain.
  assert (F : Forall (block_ok w bw) (map (words_of_stream e w) (chunks (w * bw) P))).
  { apply Forall_map. eapply Forall_impl; [|apply chunks_Forall; nia]. cbn. intros c Hc. now apply block_ok_words. }
  revert iv Hiv. induction F as [|x l Hx F IH]; intros iv Hiv; cbn [fold_left]; auto.
Qed.
Lemma digest_inj e w sw a b : w mod 8 = 0 -> 0 < w -> block_ok w sw a -> block_ok w sw b ->
  words_of_stream e 8 (firstn (w * sw) (stream e w a)) = words_of_stream e 8 (firstn (w * sw) (stream e w b)) -> a = b.
Proof.
  intros H8 Hw Ha Hb E.
  pose proof (block_stream_length e w sw a Ha) as LA. pose proof (block_stream_length e w sw b Hb) as LB.
  assert (M8 : (w * sw) mod 8 = 0) by (rewrite <- Nat.mul_mod_idemp_l, H8 by lia; reflexivity).
  rewrite <- LA in E at 1. rewrite <- LB in E. rewrite !firstn_all in E.
  apply (f_equal (stream e 8)) in E. rewrite !stream_words_of_stream in E by (auto; try lia; congruence).
  apply (stream_inj e w) in E; auto; [apply Ha|apply Hb].
Qed.
Lemma octets_bits_inj a b : Forall (fits 8) a -> Forall (fits 8) b -> octets_bits a = octets_bits b -> a = b.
Proof. intros Fa Fb E. rewrite <- (bits_octets_bits a), <- (bits_octets_bits b) by auto. now rewrite E. Qed.
Lemma md_digest_collision e w bw lb sw iv comp inj inj' junk junk' os os' d :
  md_params w bw lb -> injector_contract e w bw inj -> injector_contract e w bw inj' ->
  block_ok w bw junk -> block_ok w bw junk' -> e = BOBB \/ e = LOBB ->
  (forall s x, block_ok w sw s -> block_ok w bw x -> block_ok w sw (comp s x)) -> block_ok w sw iv ->
  Forall (fits 8) os -> Forall (fits 8) os' ->
  (N.of_nat (8 * length os) < 2 ^ 64)%N -> (N.of_nat (8 * length os') < 2 ^ 64)%N -> os <> os' ->
  (hash_once (mdC e w bw lb sw iv comp inj) inj 8 junk os = Some d ->
   hash_once (mdC e w bw lb sw iv comp inj') inj' 8 junk' os' = Some d ->
   collision_among comp (md_comp_calls e w bw lb one_marker iv comp (octets_bits os))
                        (md_comp_calls e w bw lb one_marker iv comp (octets_bits os'))) /\
  (hash_once (tgC e w bw lb sw iv comp inj) inj 8 junk os = Some d ->
   hash_once (tgC e w bw lb sw iv comp inj') inj' 8 junk' os' = Some d ->
   collision_among comp (md_comp_calls e w bw lb tiger_marker iv comp (octets_bits os))
                        (md_comp_calls e w bw lb tiger_marker iv comp (octets_bits os'))).
Proof.
  intros MP HI HI' Hj Hj' He HC Hiv F F' L L' Hn.
  rewrite !md_once_octets, !tiger_once_octets by auto.
  pose proof (mp_w8 _ _ _ MP). pose proof (mp_w _ _ _ MP). pose proof (mp_bw _ _ _ MP).
  assert (G : forall marker, md_hash e w bw lb (w * sw) marker iv comp (octets_bits os) =
      md_hash e w bw lb (w * sw) marker iv comp (octets_bits os') ->
      collision_among comp (md_comp_calls e w bw lb marker iv comp (octets_bits os))
                           (md_comp_calls e w bw lb marker iv comp (octets_bits os'))).
  { intros marker E. unfold md_hash in E. apply digest_inj in E; auto; try lia; try (apply md_chain_ok; auto; lia).
    apply md_collision_params; auto.
    - now rewrite octets_bits_length.
    - now rewrite octets_bits_length.
    - intros X. now apply Hn, octets_bits_inj. }
  split; intros E1 E2; apply G; congruence.
Qed.

Lemma colliding_pair :
  let comp := fun s x => map (fun p => (N.lxor (fst p) (snd p) mod 2)%N) (combine s (firstn 5 x)) in
  let H := hash_once (mdC LOBB 32 16 64 5 (repeat 0%N 5) comp (inj_keep LOBB 32 16)) (inj_keep LOBB 32 16) 8 (repeat 7%N 16) in
  H [97; 98; 99]%N <> None /\ H [97; 98; 99]%N = H [99; 98; 99]%N /\
  (forall s x, block_ok 32 5 s -> block_ok 32 16 x -> block_ok 32 5 (comp s x)).
Proof.
  split; [vm_compute; discriminate|]. split; [vm_compute; reflexivity|].
  intros s x [Ls _] [Lx _]. split.
  - rewrite map_length, combine_length, firstn_length, Ls, Lx. reflexivity.
  - apply Forall_map, Forall_forall. intros p _. unfold fits.
    apply (N.lt_trans _ 2); [apply N.mod_lt; discriminate|reflexivity].
Qed.
Lemma c09_example : md_params 32 16 64 /\ [true] <> [true; false].
Proof. split; [apply md_example|discriminate]. Qed.

Lemma md_calls e w bw lb inj junk ps :
  let bits := flat_map (fun p => stream host_order (fst p) (snd p)) ps in
  let calls := (length bits + 1 + lb + (w * bw - 1)) / (w * bw) in
  let C := mdC e w bw lb (bw * calls) [] (fun s b => s ++ b) inj in
  md_params w bw lb -> injector_contract e w bw inj -> block_ok w bw junk ->
  Forall (fun p => fst p mod 8 = 0 /\ 0 < fst p /\ w mod fst p = 0 /\ Forall (fits (fst p)) (snd p)) ps ->
  (N.of_nat (length bits) < 2 ^ 64)%N ->
  exists a d, hash_pieces C inj (acc_init C junk) ps = Some a /\ acc_result C a = Some d /\
    stream e 8 d = md_pad e (w * bw) lb one_marker bits /\
    length (stream e 8 d) = w * bw * calls.
Proof.
  intros bits calls C MP HI Hj HF Hs.
  destruct (pieces_result C inj (mdC_wf _ _ _ _ _ _ _ _ MP) HI _ _ (mdC_correct _ _ _ _ _ _ _ _ MP HI) junk ps)
    as (a & E1 & R1); auto.
  exists a. eexists. split; [exact E1|]. split; [exact R1|].
  change (pieces_bits C ps) with bits. destruct MP.
  assert (Hbb : 0 < w * bw) by nia.
  pose proof (md_pad_mod e (w * bw) lb one_marker Hbb bits) as HP.
  assert (Lp : length (md_pad e (w * bw) lb one_marker bits) = w * bw * calls).
  { apply Nat.div_exact in HP; [|lia]. rewrite HP. f_equal.
    rewrite <- chunks_length, md_pad_blocks by lia. reflexivity. }
  unfold md_hash. rewrite record_chain by (auto; lia).
  rewrite firstn_all2 by (rewrite Lp; lia).
  rewrite stream_words_of_stream; auto; try lia.
Qed.
