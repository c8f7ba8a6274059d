(** Collisions of BLAKE2b (C62). *)
From Coq Require Import NArith Arith List Bool Lia ZifyBool ZifyNat ZifyN ZArith.
From Verif Require Import SpecStream LStream MPack LInj MAcc MConstr SpecWords LWords SpecBlake2b MBlake2b LBlake2b LBlake2bStmt LMDProps.
Import ListNotations.
Ltac Zify.zify_post_hook ::= Z.div_mod_to_equations.

Lemma last_data os : length os mod 128 = 0 -> os <> [] ->
  last (data_blocks os) [] = le_words 8 (skipn (length os - 128) os).
Proof.
  intros Hm Hn. unfold data_blocks, data_octets.
  assert (L : length os <> 0) by (destruct os; [congruence|discriminate]).
  replace (length os =? 0) with false by lia. rewrite Hm. change ((128 - 0) mod 128) with 0. cbn [repeat]. rewrite app_nil_r.
  rewrite <- (firstn_skipn (length os - 128) os) at 1.
  rewrite chunks_snoc by (rewrite ?firstn_length, ?skipn_length; lia).
  rewrite map_app. cbn [map]. now rewrite last_last.
Qed.
Lemma data_length os : length (data_octets os) mod 128 = 0 /\ data_octets os <> [].
Proof.
  unfold data_octets. split.
  - rewrite app_length, repeat_length. destruct (length os =? 0) eqn:E; lia.
  - destruct os as [|o os]; [|discriminate]. discriminate.
Qed.
Lemma data_blocks_ne os : data_blocks os <> [].
Proof.
  destruct (data_length os) as [L Hn]. unfold data_blocks. intros E. apply map_eq_nil in E.
  apply (f_equal (@length _)) in E. rewrite chunks_length in E. cbn [length] in E.
  assert (length (data_octets os) <> 0) by (destruct (data_octets os); [congruence|discriminate]). lia.
Qed.

Lemma observed_final nn os : BLAKE2b_observed nn os = firstn nn (le_octets 8 (F_value (final_call nn os))).
Proof.
  unfold BLAKE2b_observed, final_call, leading_blocks, F_value. cbv zeta. fold (initial_state nn).
  destruct ((length os mod 128 =? 0) && negb (length os =? 0)) eqn:B.
  - rewrite last_data; [reflexivity|lia|]. intros E. subst os. discriminate.
  - unfold BLAKE2b. fold (initial_state nn). cbv zeta.
    rewrite (app_removelast_last [] (data_blocks_ne os)) at 1. now rewrite process_snoc.
Qed.

Lemma le_words_inj n a b : 0 < n -> Forall (fits 8) a -> Forall (fits 8) b -> length a mod n = 0 -> length b mod n = 0 ->
  le_words n a = le_words n b -> a = b.
Proof.
  intros Hn Fa Fb La Lb E. apply (f_equal (stream LOBB (8 * n))) in E.
  rewrite <- !le_words_stream in E by auto.
  rewrite !stream_words_of_stream in E by (rewrite ?octets_bits_length; lia || (rewrite Nat.mul_mod_distr_l by lia; lia)).
  rewrite <- (bits_octets_bits a), <- (bits_octets_bits b) by auto. now rewrite E.
Qed.
Lemma fits_data os : Forall (fits 8) os -> Forall (fits 8) (data_octets os).
Proof.
  intros H. apply Forall_app. split; [exact H|]. apply Forall_forall. intros x Hx. apply repeat_spec in Hx. subst x. reflexivity.
Qed.
Lemma data_inj os os' : Forall (fits 8) os -> Forall (fits 8) os' -> length os = length os' ->
  data_blocks os = data_blocks os' -> os = os'.
Proof.
  intros Fo Fo' L E. unfold data_blocks in E.
  assert (E1 : data_octets os = data_octets os').
  { destruct (data_length os) as [L1 _]. destruct (data_length os') as [L2 _].
    rewrite <- (chunks_concat 128 (data_octets os)), <- (chunks_concat 128 (data_octets os')) by (auto; lia). f_equal.
    pose proof (chunk_fits 128 (length (data_octets os) / 128) _ (fits_data os Fo)) as K1.
    pose proof (chunk_fits 128 (length (data_octets os') / 128) _ (fits_data os' Fo')) as K2.
    pose proof (chunks_Forall 128 (data_octets os) ltac:(lia)) as N1.
    pose proof (chunks_Forall 128 (data_octets os') ltac:(lia)) as N2.
    fold (chunks 128 (data_octets os)) in K1. fold (chunks 128 (data_octets os')) in K2.
    revert E K1 K2 N1 N2. generalize (chunks 128 (data_octets os)) (chunks 128 (data_octets os')). clear. intros a.
    induction a as [|x a IH]; intros [|y b] E K1 K2 N1 N2; try discriminate; auto.
    cbn [map] in E. injection E as E1 E2. inversion K1; inversion K2; inversion N1; inversion N2; subst.
    f_equal; [|now apply IH]. apply (le_words_inj 8) in E1; auto; lia. }
  apply (f_equal (firstn (length os))) in E1. unfold data_octets in E1.
  rewrite firstn_app, Nat.sub_diag, firstn_O, app_nil_r, firstn_all in E1.
  rewrite firstn_app, L, Nat.sub_diag, firstn_O, app_nil_r, firstn_all in E1. exact E1.
Qed.

Lemma non_final_app h d1 : forall i d2 (s : list N), s = h -> non_final s i (d1 ++ d2) = non_final (non_final s i d1) (i + length d1) d2.
Proof.
  intros i d2 s _. revert i s. induction d1 as [|b d IH]; intros i s; cbn [app non_final length].
  - now rewrite Nat.add_0_r.
  - rewrite IH. f_equal. lia.
Qed.
Lemma calls_app d1 : forall i d2 (s : list N),
  non_final_calls s i (d1 ++ d2) = non_final_calls s i d1 ++ non_final_calls (non_final s i d1) (i + length d1) d2.
Proof.
  induction d1 as [|b d IH]; intros i d2 s; cbn [app non_final non_final_calls length].
  - now rewrite Nat.add_0_r.
  - rewrite IH. replace (i + 1 + length d) with (i + S (length d)) by lia. reflexivity.
Qed.
Lemma F_call_dec (a b : F_call) : {a = b} + {a <> b}.
Proof.
  unfold F_call in *. repeat decide equality.
Qed.

Notation collide := F_collision_among.
Lemma collide_app a b x y : collide a b -> collide (a ++ x) (b ++ y).
Proof. intros (c & c' & I1 & I2 & H). exists c, c'. split; [|split; [|exact H]]; apply in_or_app; now left. Qed.
Lemma non_final_collision h : forall d d', length d = length d' -> d <> d' -> non_final h 0 d = non_final h 0 d' ->
  collide (non_final_calls h 0 d) (non_final_calls h 0 d').
Proof.
  intros d. induction d as [|b d IH] using rev_ind; intros d' L Hn E.
  { destruct d'; [congruence|discriminate]. }
  destruct d' as [|b' d' _] using rev_ind; [rewrite app_length in L; cbn in L; lia|].
  rewrite !app_length in L. cbn [length] in L.
  rewrite !(non_final_app h) in E by reflexivity. cbn [non_final] in E.
  rewrite !calls_app. cbn [non_final_calls].
  set (c := (non_final h 0 d, b, N.of_nat ((0 + length d + 1) * 128), false)).
  set (c' := (non_final h 0 d', b', N.of_nat ((0 + length d' + 1) * 128), false)).
  destruct (F_call_dec c c') as [EC|NC].
  - apply collide_app. apply IH; [lia| |].
    + intros ->. apply Hn. unfold c, c' in EC. now injection EC as -> .
    + unfold c, c' in EC. injection EC as EC _ _. exact EC.
  - exists c, c'. split; [apply in_or_app; right; now left|]. split; [apply in_or_app; right; now left|].
    split; [exact NC|exact E].
Qed.

Lemma lead_length os os' : length os = length os' -> length (leading_blocks os) = length (leading_blocks os').
Proof.
  intros L. unfold leading_blocks. rewrite L.
  assert (LD : length (data_blocks os) = length (data_blocks os')).
  { unfold data_blocks. rewrite !map_length, !chunks_length. unfold data_octets. rewrite !app_length, !repeat_length, L. reflexivity. }
  destruct ((length os' mod 128 =? 0) && negb (length os' =? 0)); [exact LD|].
  pose proof (app_removelast_last [] (data_blocks_ne os)) as A. pose proof (app_removelast_last [] (data_blocks_ne os')) as A'.
  apply (f_equal (@length _)) in A. apply (f_equal (@length _)) in A'. rewrite app_length in A, A'. cbn [length] in A, A'. lia.
Qed.
Lemma lead_inj os os' : length os = length os' -> leading_blocks os = leading_blocks os' ->
  last (data_blocks os) [] = last (data_blocks os') [] -> data_blocks os = data_blocks os'.
Proof.
  intros L E EL. unfold leading_blocks in E. rewrite L in E.
  destruct ((length os' mod 128 =? 0) && negb (length os' =? 0)); [exact E|].
  rewrite (app_removelast_last [] (data_blocks_ne os)), (app_removelast_last [] (data_blocks_ne os')), E, EL. reflexivity.
Qed.

(** Either F collides, or the final calls differ and the digests are equal after truncation. *)
Lemma observed_collision nn os os' : Forall (fits 8) os -> Forall (fits 8) os' -> os <> os' ->
  collide (observed_calls nn os) (observed_calls nn os') \/ final_call nn os <> final_call nn os'.
Proof.
  intros Fo Fo' Hn. destruct (F_call_dec (final_call nn os) (final_call nn os')) as [E|N0]; [left|now right].
  unfold observed_calls. apply collide_app. unfold final_call in E. injection E as E1 E2 E3.
  assert (L : length os = length os') by lia.
  apply non_final_collision; [now apply lead_length| |exact E1].
  intros EL. apply Hn. apply data_inj; auto. now apply lead_inj.
Qed.

Lemma non_final_ok d : forall h i, block_ok 64 8 h -> (N.of_nat ((i + length d) * 128) < 2 ^ 61)%N -> block_ok 64 8 (non_final h i d).
Proof.
  induction d as [|m d IH]; intros h i Hh Hs; cbn [non_final]; [exact Hh|]. cbn [length] in Hs. apply IH.
  - apply process_block_F; auto. eapply N.le_lt_trans; [|exact Hs]. lia.
  - eapply N.le_lt_trans; [|exact Hs]. lia.
Qed.
Lemma final_ok nn os : nn <= 64 -> (N.of_nat (8 * length os) < 2 ^ 64)%N -> block_ok 64 8 (F_value (final_call nn os)).
Proof.
  intros Hd Hs. change (2 ^ 64)%N with (8 * 2 ^ 61)%N in Hs. unfold final_call, F_value.
  apply process_block_F; [|lia]. apply non_final_ok.
  - pose proof (h0_ok (8 * nn)) as K.
    destruct nn as [|nn]; [split; [reflexivity|repeat constructor]|].
    replace (8 * S nn / 8) with (S nn) in K by lia. apply K; lia.
  - cbn [Nat.add]. assert (LD : length (leading_blocks os) * 128 <= length os).
    { unfold leading_blocks. assert (LB : length (data_blocks os) = length (data_octets os) / 128).
      { unfold data_blocks. now rewrite map_length, chunks_length. }
      assert (LO : length (data_octets os) = length os + (if length os =? 0 then 128 else (128 - length os mod 128) mod 128)).
      { unfold data_octets. now rewrite app_length, repeat_length. }
      destruct ((length os mod 128 =? 0) && negb (length os =? 0)) eqn:B.
      - destruct (length os =? 0); lia.
      - pose proof (app_removelast_last [] (data_blocks_ne os)) as A. apply (f_equal (@length _)) in A. rewrite app_length in A.
        cbn [length] in A. destruct (length os =? 0) eqn:Z; lia. }
    lia.
Qed.
Lemma le_octets_inj a b : block_ok 64 8 a -> block_ok 64 8 b -> le_octets 8 a = le_octets 8 b -> a = b.
Proof.
  intros Ha Hb E. apply (f_equal octets_bits) in E. rewrite !le_octets_stream in E.
  apply (stream_inj LOBB 64) in E; auto; [lia|apply Ha|apply Hb].
Qed.
Lemma le_octets_length ws : length (le_octets 8 ws) = 8 * length ws.
Proof.
  unfold le_octets. induction ws as [|w ws IH]; [reflexivity|]. cbn [flat_map]. rewrite app_length, IH.
  replace (length (octets_le 8 w)) with 8 by reflexivity. cbn [length]. lia.
Qed.

Lemma digest_collision db ic ic' inj inj' junk junk' os os' d : db mod 8 = 0 /\ 0 < db <= 512 ->
  injector_contract LOBB 64 16 ic -> injector_contract LOBB 64 16 ic' ->
  injector_contract LOBB 64 16 inj -> injector_contract LOBB 64 16 inj' ->
  block_ok 64 16 junk -> block_ok 64 16 junk' -> Forall (fits 8) os -> Forall (fits 8) os' ->
  (N.of_nat (8 * length os) < 2 ^ 64)%N -> (N.of_nat (8 * length os') < 2 ^ 64)%N -> os <> os' ->
  hash_once (blake2b ic db) inj 8 junk os = Some d ->
  hash_once (blake2b ic' db) inj' 8 junk' os' = Some d ->
  collide (observed_calls (db / 8) os) (observed_calls (db / 8) os') \/
  final_call (db / 8) os <> final_call (db / 8) os' /\
  firstn (db / 8) (le_octets 8 (F_value (final_call (db / 8) os))) =
  firstn (db / 8) (le_octets 8 (F_value (final_call (db / 8) os'))).
Proof.
  intros Hd C1 C2 I1 I2 J1 J2 Fo Fo' L L' Hn.
  rewrite !b_once, !observed_final by auto. intros E1 E2.
  destruct (observed_collision (db / 8) os os' Fo Fo' Hn) as [K|K]; [now left|right]. split; [exact K|congruence].
Qed.
Lemma digest_collision_512 ic ic' inj inj' junk junk' os os' d :
  injector_contract LOBB 64 16 ic -> injector_contract LOBB 64 16 ic' ->
  injector_contract LOBB 64 16 inj -> injector_contract LOBB 64 16 inj' ->
  block_ok 64 16 junk -> block_ok 64 16 junk' -> Forall (fits 8) os -> Forall (fits 8) os' ->
  (N.of_nat (8 * length os) < 2 ^ 64)%N -> (N.of_nat (8 * length os') < 2 ^ 64)%N -> os <> os' ->
  hash_once (blake2b ic 512) inj 8 junk os = Some d ->
  hash_once (blake2b ic' 512) inj' 8 junk' os' = Some d ->
  collide (observed_calls 64 os) (observed_calls 64 os').
Proof.
  intros C1 C2 I1 I2 J1 J2 Fo Fo' L L' Hn E1 E2.
  destruct (digest_collision 512 ic ic' inj inj' junk junk' os os' d) as [K|[K E]]; auto; [lia|].
  change (512 / 8) with 64 in K, E.
  pose proof (final_ok 64 os ltac:(lia) L) as B1. pose proof (final_ok 64 os' ltac:(lia) L') as B2.
  rewrite !firstn_all2 in E by (rewrite le_octets_length, ?(proj1 B1), ?(proj1 B2); lia).
  apply le_octets_inj in E; auto.
  exists (final_call 64 os), (final_call 64 os'). unfold observed_calls.
  split; [apply in_or_app; right; now left|]. split; [apply in_or_app; right; now left|]. now split.
Qed.

(** One-octet digests of the octet strings 05 and 18 (hexadecimal). *)
Lemma pair_8 ic inj junk os : injector_contract LOBB 64 16 ic -> injector_contract LOBB 64 16 inj -> block_ok 64 16 junk ->
  In os [[5]; [24]]%N -> hash_once (blake2b ic 8) inj 8 junk os = Some [0xcf]%N.
Proof.
  intros H1 H2 Hj Hi. rewrite b_once; auto; try lia.
  - destruct Hi as [<-|[<-|[]]]; vm_compute; reflexivity.
  - destruct Hi as [<-|[<-|[]]]; repeat constructor.
  - destruct Hi as [<-|[<-|[]]]; reflexivity.
Qed.

Definition state_of (c : F_call) : list N := fst (fst (fst c)).
Lemma linked_cons (c : F_call) (rest : list F_call) : rest <> [] -> F_value c = state_of (hd c rest) ->
  map F_value (removelast rest) = map state_of (tl rest) -> map F_value (removelast (c :: rest)) = map state_of (tl (c :: rest)).
Proof.
  intros Hn E L. destruct rest as [|c' rest]; [congruence|].
  change (removelast (c :: c' :: rest)) with (c :: removelast (c' :: rest)). cbn [map]. rewrite L. cbn [hd] in E. now rewrite E.
Qed.
Lemma linked_lead (fin : F_call) d : forall h i, state_of fin = non_final h i d ->
  map F_value (removelast (non_final_calls h i d ++ [fin])) = map state_of (tl (non_final_calls h i d ++ [fin])).
Proof.
  induction d as [|m d IH]; intros h i E; [reflexivity|].
  apply (linked_cons (h, m, N.of_nat ((i + 1) * 128), false)
           (non_final_calls (F h m (N.of_nat ((i + 1) * 128)) false) (i + 1) d ++ [fin])).
  - intros X. apply app_eq_nil in X. destruct X. discriminate.
  - destruct d as [|m' d]; cbn [non_final_calls app hd]; [|reflexivity]. cbn [non_final] in E. rewrite E. reflexivity.
  - apply IH. exact E.
Qed.
Lemma calls_linked nn os :
  map F_value (removelast (observed_calls nn os)) = map (fun c => fst (fst (fst c))) (tl (observed_calls nn os)).
Proof. apply (linked_lead (final_call nn os)). reflexivity. Qed.
