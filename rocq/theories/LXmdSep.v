(** Domain separation of expand_message_xmd (C63). *)
From Coq Require Import NArith Arith List Bool Lia ZifyBool ZifyNat ZifyN ZArith.
From Verif Require Import SpecStream LStream MPack MAcc MConstr SpecOctets SpecWords LWords SpecOctetHash SpecXmd MXmd SpecXmdHist LXmd LXmdStmt LMDProps.
Import ListNotations.
Ltac Zify.zify_post_hook ::= Z.div_mod_to_equations.

Lemma I2OSP_1 x : I2OSP x 1 = [(N.of_nat x mod 256)%N].
Proof. reflexivity. Qed.
Lemma I2OSP_2 x : I2OSP x 2 = [(N.of_nat x / 256 mod 256)%N; (N.of_nat x mod 256)%N].
Proof. reflexivity. Qed.
Lemma I2OSP_2_inj x y : (N.of_nat x < 0x10000)%N -> (N.of_nat y < 0x10000)%N -> I2OSP x 2 = I2OSP y 2 -> x = y.
Proof.
  rewrite !I2OSP_2. intros Hx Hy E. injection E as E1 E2.
  pose proof (N.div_mod (N.of_nat x) 256 ltac:(discriminate)). pose proof (N.div_mod (N.of_nat y) 256 ltac:(discriminate)).
  assert (N.of_nat x / 256 < 256)%N by (apply N.div_lt_upper_bound; [discriminate|lia]).
  assert (N.of_nat y / 256 < 256)%N by (apply N.div_lt_upper_bound; [discriminate|lia]).
  rewrite !(N.mod_small (_ / 256)) in E1 by assumption. lia.
Qed.

Lemma DST_prime_inj X X' D D' : length D <= 255 -> length D' <= 255 -> X ++ DST_prime D = X' ++ DST_prime D' -> X = X' /\ D = D'.
Proof.
  intros L L' E. unfold DST_prime in E. rewrite !app_assoc in E. rewrite !I2OSP_1 in E.
  apply app_inj_tail in E. destruct E as [E EL].
  rewrite !N.mod_small in EL by lia. assert (length D = length D') by lia.
  now apply app_inj_tail_len in E.
Qed.
Lemma msg_prime_inj r m m' D D' l l' : length D <= 255 -> length D' <= 255 ->
  (N.of_nat l < 0x10000)%N -> (N.of_nat l' < 0x10000)%N ->
  msg_prime r m D l = msg_prime r m' D' l' -> m = m' /\ D = D' /\ l = l'.
Proof.
  intros L L' H H' E. unfold msg_prime in E. apply app_inv_head in E. rewrite !app_assoc in E.
  apply DST_prime_inj in E; auto. destruct E as [E ED].
  apply app_inj_tail_len in E; [|reflexivity]. destruct E as [E _].
  apply app_inj_tail_len in E; [|reflexivity]. destruct E as [Em El]. apply I2OSP_2_inj in El; auto.
Qed.

Lemma expand_first H b r msg dst len : (forall os, length (H os) = b) -> b <= len ->
  firstn b (expand_message_xmd H b r msg dst len) = H (H (msg_prime r msg dst len) ++ I2OSP 1 1 ++ DST_prime dst).
Proof.
  intros Hl Hb. unfold expand_message_xmd. cbv zeta. rewrite firstn_firstn, Nat.min_l by exact Hb. cbn [concat].
  set (b1 := H _). assert (L1 : length b1 = b) by apply Hl.
  rewrite firstn_app, L1, Nat.sub_diag, firstn_O, app_nil_r. rewrite <- L1. apply firstn_all.
Qed.

Lemma expands_is C inj H r b k len dst msg u : octet_hash C inj H -> digest_octets H b -> input_block_octets C r ->
  Forall (fits 8) dst -> 16 <= length dst <= 255 -> accepted b k len = true -> len mod b = 0 -> 0 < len ->
  (N.of_nat (8 * length (msg_prime r msg dst len)) < 2 ^ 64)%N ->
  expands C inj b len dst msg u -> u = expand_message_xmd H b r msg dst len.
Proof.
  intros HO HD HB F L A M8 Hp S (junk & a & pieces & junks & buf & J & P & Js & Lb & E & I0 & R). subst msg.
  destruct (LXmdStmt.once C inj H r b k len dst junk HO HD HB F L J A pieces junks buf M8 Hp P Js Lb S) as (a0 & I1 & R1).
  rewrite I0 in I1. injection I1 as <-. rewrite R in R1. now injection R1 as ->.
Qed.
Lemma separation C inj H r b k len dst msg u k' len' dst' msg' u' :
  octet_hash C inj H -> digest_octets H b -> input_block_octets C r ->
  Forall (fits 8) dst -> 16 <= length dst <= 255 -> accepted b k len = true -> len mod b = 0 -> 0 < len ->
  Forall (fits 8) dst' -> 16 <= length dst' <= 255 -> accepted b k' len' = true -> len' mod b = 0 -> 0 < len' ->
  let x0 := msg_prime r msg dst len in
  let x0' := msg_prime r msg' dst' len' in
  let x1 := H x0 ++ I2OSP 1 1 ++ DST_prime dst in
  let x1' := H x0' ++ I2OSP 1 1 ++ DST_prime dst' in
  (N.of_nat (8 * length x0) < 2 ^ 64)%N -> (N.of_nat (8 * length x0') < 2 ^ 64)%N ->
  expands C inj b len dst msg u -> expands C inj b len' dst' msg' u' ->
  (msg, dst, len) <> (msg', dst', len') -> firstn b u = firstn b u' ->
  x0 <> x0' /\ H x0 = H x0' \/ x1 <> x1' /\ H x1 = H x1'.
Proof.
  intros HO HD HB F L A M8 Hp F' L' A' M8' Hp' x0 x0' x1 x1' S S' X X' Hn E.
  apply (expands_is C inj H r b k) in X; auto. apply (expands_is C inj H r b k') in X'; auto. subst u u'.
  destruct HD as (Hb & _ & HD).
  assert (B1 : b <= len). { apply Nat.div_exact in M8; [|lia]. destruct (len / b); nia. }
  assert (B1' : b <= len'). { apply Nat.div_exact in M8'; [|lia]. destruct (len' / b); nia. }
  rewrite !expand_first in E by (auto; apply HD). fold x0 x0' x1 x1' in E.
  assert (Dec : forall x y : list N, {x = y} + {x <> y}) by (apply list_eq_dec, N.eq_dec).
  destruct (Dec x1 x1') as [E1|N1]; [|now right]. left.
  unfold x1, x1' in E1. rewrite !app_assoc in E1. apply DST_prime_inj in E1; try lia. destruct E1 as [E1 ED].
  apply app_inj_tail_len in E1; [|reflexivity]. destruct E1 as [E1 _]. split; [|exact E1].
  intros E0. apply Hn. unfold accepted in A, A'. apply msg_prime_inj in E0; try lia. destruct E0 as (-> & -> & ->). reflexivity.
Qed.

(** A hash for which such outputs exist: a compression function that ignores the message. *)
Lemma pair_exists :
  let C := md_construction LOBB 32 16 64 5 (repeat 1%N 5) (fun s _ => s) (merkle_damgard_padding (inj_keep LOBB 32 16) LOBB 32 16) in
  let inj := inj_keep LOBB 32 16 in
  let junk := repeat 7%N 16 in
  let run dst xs := match xmd_init C inj junk with
                    | Some a => xmd_run C inj 20 40 dst a (updates [(8, xs)] ++ [XExtract (fun _ => junk) (repeat 0%N 40)])
                    | None => None end in
  accepted 20 80 40 = true /\ input_block_octets C 64 /\ run (repeat 65%N 16) [1; 2]%N <> None /\
  run (repeat 65%N 16) [1; 2]%N = run (repeat 66%N 17) [3]%N.
Proof. split; [reflexivity|]. split; [reflexivity|]. split; vm_compute; [discriminate|reflexivity]. Qed.
