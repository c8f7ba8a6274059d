(** The statements of PGrain.v: proofs. *)
From Coq Require Import NArith Arith List Bool Lia ZifyBool ZifyNat ZifyN ZArith.
From Verif Require Import SpecStream LStream SpecGrain MGrain LGrain LGrainFast SpecPoseidon MPoseidonTables.
Import ListNotations.
Ltac Zify.zify_post_hook ::= Z.div_mod_to_equations.

(** Lists of bits and numbers. *)
Lemma num_app bs b : num (bs ++ [b]) = (2 * num bs + (if b then 1 else 0))%N.
Proof. unfold num. now rewrite fold_left_app. Qed.
Lemma num_bound bs : (num bs < 2 ^ N.of_nat (length bs))%N.
Proof.
  induction bs as [|b bs IH] using rev_ind; [reflexivity|]. rewrite num_app, app_length. cbn [length].
  replace (N.of_nat (length bs + 1)) with (N.succ (N.of_nat (length bs))) by lia. rewrite N.pow_succ_r'. destruct b; lia.
Qed.
Lemma msb_snoc w v : msb_bits (S w) v = msb_bits w (N.div2 v) ++ [N.odd v].
Proof.
  unfold msb_bits. rewrite seq_S, map_app. cbn [map Nat.add]. f_equal.
  - apply map_ext_in. intros i Hi. apply in_seq in Hi. rewrite N.div2_spec, N.shiftr_spec' . f_equal. lia.
  - rewrite <- N.bit0_odd. repeat f_equal. lia.
Qed.
Lemma num_msb w : forall v, (v < 2 ^ N.of_nat w)%N -> num (msb_bits w v) = v.
Proof.
  induction w as [|w IH]; intros v Hv; [cbn in *; lia|]. rewrite msb_snoc, num_app, IH.
  - pose proof (N.div2_odd v) as E. unfold N.b2n in E. lia.
  - rewrite Nat2N.inj_succ, N.pow_succ_r' in Hv. pose proof (N.div2_odd v) as E. unfold N.b2n in E. destruct (N.odd v); lia.
Qed.
Lemma msb_num bs : msb_bits (length bs) (num bs) = bs.
Proof.
  induction bs as [|b bs IH] using rev_ind; [reflexivity|]. rewrite app_length, Nat.add_1_r, msb_snoc, num_app.
  f_equal; [|f_equal].
  - etransitivity; [|exact IH]. f_equal. rewrite N.div2_div. symmetry. apply N.div_unique with (if b then 1 else 0)%N; destruct b; lia.
  - rewrite N.odd_add, N.odd_mul. now destruct b.
Qed.
Lemma update_bound v : (update_lfsr_state_raw v < 2 ^ 80)%N.
Proof.
  unfold update_lfsr_state_raw, set_new_bit80. set (x := (N.shiftl v 1 mod 2 ^ 80)%N). set (b := neq _ _).
  assert (Hx : (x < 2 ^ 80)%N) by (apply N.mod_lt; discriminate).
  destruct (N.eq_dec (N.lor x (if b then 1 else 0)) 0) as [->|H0]; [reflexivity|]. apply N.log2_lt_pow2; [lia|].
  rewrite N.log2_lor. apply N.max_lub_lt_iff. split; [|destruct b; reflexivity].
  destruct (N.eq_dec x 0) as [->|Hx0]; [reflexivity|]. apply N.log2_lt_pow2; [lia|exact Hx].
Qed.
Lemma msb_inj v w : (v < 2 ^ 80)%N -> (w < 2 ^ 80)%N -> msb_bits 80 v = msb_bits 80 w -> v = w.
Proof. intros Hv Hw E. rewrite <- (num_msb 80 v), <- (num_msb 80 w) by assumption. now rewrite E. Qed.
Lemma msb_zero v : (v < 2 ^ 80)%N -> v <> 0%N -> msb_bits 80 v <> zero80.
Proof. intros Hv H0 E. apply H0, msb_inj; [exact Hv|reflexivity|]. rewrite E. reflexivity. Qed.

Theorem step_bijection : bijection_of (fun v => v < 2 ^ 80)%N update_lfsr_state_raw.
Proof.
  split; [intros; apply update_bound|]. intros w Hw. set (s := unshift (msb_bits 80 w)).
  assert (Ls : length s = 80).
  { unfold s, unshift. cbv zeta. cbn [length]. rewrite removelast_firstn_len, firstn_length, msb_length. reflexivity. }
  assert (Es : msb_bits 80 (num s) = s) by (rewrite <- Ls at 1; apply msb_num).
  exists (num s). split; [|split].
  - pose proof (num_bound s) as B. rewrite Ls in B. exact B.
  - apply msb_inj; auto; [apply update_bound|]. rewrite update_raw_msb, Es. apply shift_unshift, msb_length.
  - intros v Hv E. apply msb_inj; auto; [pose proof (num_bound s) as B; rewrite Ls in B; exact B|].
    rewrite Es. unfold s. rewrite <- E, update_raw_msb. symmetry. apply unshift_shift, msb_length.
Qed.
Theorem step_nonzero v : (v < 2 ^ 80)%N -> v <> 0%N -> update_lfsr_state_raw v <> 0%N.
Proof.
  intros Hv H0 E. assert (N := msb_zero v Hv H0). apply (shift_nonzero _ (msb_length 80 v)) in N. apply N.
  rewrite <- update_raw_msb, E. reflexivity.
Qed.
Theorem never_zero a b c d n : Nat.iter n update_lfsr_state_raw (get_lfsr_init_state a b c d) <> 0%N.
Proof.
  intros E. assert (H : msb_bits 80 (Nat.iter n update_lfsr_state_raw (get_lfsr_init_state a b c d)) = zero80) by (rewrite E; reflexivity).
  rewrite iter_raw_msb, init_msb in H. revert H. apply iter_nonzero; [apply iter_length, init_length|].
  apply iter_nonzero; [apply init_length|apply init_nonzero].
Qed.
Theorem sampler_bounded v fuel : (v < 2 ^ 80)%N -> v <> 0%N -> 80 <= fuel ->
  exists v', update_lfsr_state fuel v = Some v' /\ (v' < 2 ^ 80)%N /\ v' <> 0%N /\
  exists n, n <= 80 /\ v' = Nat.iter (2 * n) update_lfsr_state_raw v /\
    shrink (raw (2 * n) (msb_bits 80 v)) = [N.odd v'].
Proof.
  intros Hv H0 Hf. destruct (update_total 80 v (le_n _) (msb_zero v Hv H0)) as (v' & E). exists v'. split; [now apply (update_mono 80)|].
  assert (G : forall f v v', update_lfsr_state f v = Some v' ->
    exists n, 0 < n <= f /\ v' = Nat.iter (2 * n) update_lfsr_state_raw v /\ shrink (raw (2 * n) (msb_bits 80 v)) = [N.odd v']).
  { clear. induction f as [|f IH]; intros v v' E; [discriminate|]. cbn [update_lfsr_state] in E. cbv zeta in E.
    assert (G1 : get_lfsr_state_bit (update_lfsr_state_raw v) (80 - 1) = next (msb_bits 80 v)).
    { rewrite get_last, update_raw_msb. apply shift_last, msb_length. }
    rewrite G1 in E. destruct (next (msb_bits 80 v)) eqn:Eb.
    - injection E as <-. exists 1. split; [lia|]. split; [reflexivity|]. cbn [Nat.mul Nat.add raw shrink]. rewrite Eb. f_equal.
      rewrite <- N.bit0_odd. change 0%N with (80 - 1 - (80 - 1))%N. change (N.testbit ?x (80 - 1 - (80 - 1))) with (get_lfsr_state_bit x (80 - 1)).
      rewrite get_last, !update_raw_msb. symmetry. apply shift_last. now apply shift_length, msb_length.
    - apply IH in E. destruct E as (n & Hn & -> & E2). exists (S n). split; [lia|]. split.
      + replace (2 * S n) with (S (S (2 * n))) by lia. now rewrite !iter_S_r.
      + replace (2 * S n) with (S (S (2 * n))) by lia. cbn [raw shrink]. rewrite Eb, <- !update_raw_msb. rewrite E2.
        f_equal. }
  destruct (G _ _ _ E) as (n & Hn & Ev & Es).
  assert (Nz : forall m, (Nat.iter m update_lfsr_state_raw v < 2 ^ 80)%N /\ Nat.iter m update_lfsr_state_raw v <> 0%N).
  { induction m as [|m [I1 I2]]; [auto|]. cbn [Nat.iter nat_rect]. split; [apply update_bound|now apply step_nonzero]. }
  rewrite Ev. split; [apply Nz|]. split; [apply Nz|]. exists n. split; [lia|]. split; [reflexivity|]. now rewrite <- Ev.
Qed.
Theorem generate_reduced fuel tries w t RF RP p cs : 0 < w -> generate_round_constants fuel tries w t RF RP p = Some cs -> Forall (fun c => c < p)%N cs.
Proof.
  intros Hw H. apply generate_sound in H; auto. destruct H as (_ & len & <-). apply Forall_forall. intros x Hx. apply filter_In in Hx. lia.
Qed.
Theorem rc_generate_reduced fuel tries w t RP p cs : 0 < w -> rc_generate_round_constants fuel tries w t RP p = Some cs -> Forall (fun c => c < p)%N cs.
Proof.
  intros Hw H. apply rc_generate_sound in H; auto. destruct H as (_ & len & <-). apply Forall_forall. intros x Hx. apply filter_In in Hx. lia.
Qed.

(** ** The generator and the table *)
Definition stream (w k : nat) (a b c d : N) : list N := map num (chunks w (shrink (blocks k (Nat.iter 160 shift (init 1 1 a b c d))))).
Lemma stream_integers w k a b c d : stream w k a b c d = integers (init 1 1 a b c d) w (k * 18).
Proof.
  unfold stream, integers. rewrite outputs_raw, blocks_raw; [reflexivity|]. apply iter_length, init_length.
Qed.
Definition fits (w k n : nat) (p : N) (a b c d : N) (first : N) : bool :=
  let vs := stream w k a b c d in
  (length vs <=? 1000) && (n <=? length (below p vs)) && (hd 0 (below p vs) =? first)%N.
Lemma generated w k p t RF RP first : 0 < w -> 0 < (RF + RP) * t ->
  fits w k ((RF + RP) * t) p (N.of_nat w) (N.of_nat t) (N.of_nat RF) (N.of_nat RP) first = true ->
  forall fuel tries, 80 <= fuel -> 1000 <= tries -> exists cs, generate_round_constants fuel tries w t RF RP p = Some (first :: cs).
Proof.
  intros Hw Hn H fuel tries Hf Ht. unfold fits in H. rewrite stream_integers in H. cbv zeta in H.
  apply andb_prop in H. destruct H as [H H3]. apply andb_prop in H. destruct H as [H1 H2].
  apply Nat.leb_le in H1, H2. apply N.eqb_eq in H3.
  rewrite (generate_complete fuel tries w t RF RP p (k * 18)); auto; [|lia]. revert H2 H3. set (l := below p _). clearbody l. intros H2 H3.
  destruct l as [|x l]; cbn [length hd] in *; [lia|]. subst x. destruct ((RF + RP) * t) as [|m]; [lia|]. exists (firstn m l). reflexivity.
Qed.
Theorem bn254_generated fuel tries : 80 <= fuel -> 1000 <= tries ->
  exists cs, generate_round_constants fuel tries 254 3 8 57 (Z.to_N bn254_r) =
    Some (0x2b149bee29246b2661a408d4cc9742d81dcadd4f169e3b741c64e11a27b5309d%N :: cs).
Proof.
  apply (generated 254 (N.to_nat 16000)); [lia|lia|]. vm_compute. reflexivity.
Qed.
Theorem bn254_differs fuel tries cs : 80 <= fuel -> 1000 <= tries ->
  generate_round_constants fuel tries 254 3 8 57 (Z.to_N bn254_r) = Some cs -> cs <> concat bn254_2_rc.
Proof.
  intros Hf Ht E. destruct (bn254_generated fuel tries Hf Ht) as (cs' & E'). rewrite E' in E. injection E as <-. intros X.
  assert (Y : hd 0%N (concat bn254_2_rc) = hd 0%N (0x2b149bee29246b2661a408d4cc9742d81dcadd4f169e3b741c64e11a27b5309d%N :: cs')) by (now rewrite X).
  vm_compute in Y. discriminate Y.
Qed.
