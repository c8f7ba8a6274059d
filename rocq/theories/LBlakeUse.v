(** BLAKE2b objects in every program: proofs. *)
From Coq Require Import NArith Arith List Bool Lia ZifyBool ZifyNat ZifyN ZArith.
From Verif Require Import SpecCollide SpecAnyUse LAnyUseStmt LGen.
From Verif Require Import SpecStream LStream MPack LInj MAcc LAcc MConstr SpecMD LMD LHaifa SpecMDOctets LMDOctets
  SpecWords LWords SpecStore SpecBlake2b MBlake2b LBlake2b LBlake2bCol SpecObject MObject SpecBlakeUse.
From Verif Require LObject.
Import ListNotations.
Ltac Zify.zify_post_hook ::= Z.div_mod_to_equations.
#[local] Opaque F blake2b_process_block.

Definition the_object (inj : injector) (bits : nat) : object :=
  haifa_object LOBB 64 16 bits blake2b_iv blake2b_process_block (blake2b_padding inj 64 16) 0xFFFFFFFFFFFFFFFF.

Lemma taken_cases total : (total mod 8 = 0)%N ->
  (total <> 0%N /\ (total mod 1024 = 0)%N /\ blake_taken total = 128) \/
  ((total = 0%N \/ (total mod 1024 <> 0)%N) /\ blake_taken total < 128 /\ 8 * blake_taken total = N.to_nat (total mod 1024)).
Proof.
  intros H8. unfold blake_taken. destruct (N.eqb_spec total 0) as [->|Hz].
  - right. split; [now left|]. split; [lia|reflexivity].
  - cbv zeta. assert (E : ((total / 8) mod 128 * 8 = total mod 1024)%N) by lia.
    set (q := ((total / 8) mod 128)%N) in *. assert (Hq : (q < 128)%N) by (apply N.mod_lt; discriminate).
    destruct (Nat.eqb_spec (N.to_nat q) 0) as [Z|Z].
    + left. split; [exact Hz|]. split; [|reflexivity]. clear - E Z. lia.
    + right. clear - E Z Hq Hz. split; [right; lia|]. split; lia.
Qed.

Lemma words_octets b : Forall (fits 64) b -> le_words 8 (le_octets 8 b) = b.
Proof.
  intros F. rewrite <- (le_words_stream 8) by (try lia; apply le_octets_fits).
  rewrite le_octets_stream. apply (words_of_stream_stream LOBB 64); auto; lia.
Qed.
Lemma octets_words_stream os : Forall (fits 8) os -> length os mod 8 = 0 -> stream LOBB 64 (le_words 8 os) = octets_bits os.
Proof.
  intros F L. rewrite <- (le_words_stream 8) by (auto; lia). apply (stream_words_of_stream LOBB 64); [reflexivity|lia|].
  rewrite octets_bits_length. lia.
Qed.

Section Blake.
Context (inj : injector) (bits : nat) (HI : injector_contract LOBB 64 16 inj).

Lemma padding_ok b total : block_ok 64 16 b -> (total < 2 ^ 64)%N -> (total mod 8 = 0)%N ->
  blake2b_padding inj 64 16 b total = Some (last_block b total).
Proof.
  intros Hb Ht H8. destruct (taken_cases total H8) as [(Z & F0 & E)|(C & L & E)].
  - unfold blake2b_padding, last_block. rewrite E. change (N.of_nat (64 * 16)) with 1024%N. rewrite F0.
    apply N.eqb_neq in Z. rewrite Z. cbn [N.eqb orb negb].
    assert (LO : length (le_octets 8 b) = 128) by (rewrite le_octets_length, (proj1 Hb); reflexivity).
    rewrite firstn_all2 by lia. rewrite app_nil_r. now rewrite words_octets by apply Hb.
  - set (r := N.to_nat (total mod 1024)) in *. set (T := firstn r (stream LOBB 64 b)).
    assert (LT : length T = r).
    { unfold T. rewrite firstn_length, stream_length, (proj1 Hb). clear - L E. lia. }
    set (M0 := repeat false (N.to_nat (total - total mod 1024))).
    assert (BL : blen (M0 ++ T) = total).
    { unfold blen. rewrite app_length, LT. unfold M0. rewrite repeat_length. unfold r. clear. lia. }
    destruct (haifa_padding_spec LOBB 64 16 (fun s _ _ _ => s) 0%N inj eq_refl ltac:(lia) ltac:(lia) HI M0 T b) as (b1 & E1 & K1 & S1).
    + exact Hb.
    + now rewrite LT.
    + unfold M0. rewrite repeat_length. change (64 * 16) with 1024. clear. lia.
    + rewrite LT. change (64 * 16) with 1024. clear - L E. lia.
    + intros TE. rewrite TE in LT. cbn [length] in LT. unfold M0. destruct C as [->|C]; [reflexivity|]. exfalso. unfold r in LT. clear - LT C. lia.
    + unfold short. rewrite BL. exact Ht.
    + rewrite BL in E1. rewrite E1. f_equal. unfold last_block.
      set (k := blake_taken total) in *.
      assert (FX : Forall (fits 8) (firstn k (le_octets 8 b) ++ repeat 0%N (128 - k))).
      { apply Forall_app. split; [apply Forall_firstn', le_octets_fits|apply (block_ok_zeros 8 (128 - k))]. }
      assert (LO : length (le_octets 8 b) = 128) by (rewrite le_octets_length, (proj1 Hb); reflexivity).
      rewrite <- (words_of_stream_stream LOBB 64 b1 eq_refl ltac:(lia) (proj2 K1)).
      rewrite <- (le_words_stream 8) by (auto; lia). change (8 * 8) with 64. f_equal. rewrite S1, LT.
      rewrite octets_bits_app, <- octets_bits_firstn, le_octets_stream. change (8 * 8) with 64. unfold T. rewrite E. f_equal.
      unfold octets_bits. rewrite stream_zeros. f_equal. clear - E L. change (64 * 16) with 1024. lia.
Qed.

Lemma full_test total : (total mod 8 = 0)%N ->
  (negb (total =? 0) && (total mod N.of_nat (64 * 16) =? 0))%N = (blake_taken total =? 128).
Proof.
  intros H8. change (N.of_nat (64 * 16)) with 1024%N. destruct (taken_cases total H8) as [(Z & F0 & ->)|(C & L & _)].
  - rewrite F0. apply N.eqb_neq in Z. now rewrite Z.
  - replace (blake_taken total =? 128) with false by (symmetry; apply Nat.eqb_neq; clear - L; lia).
    destruct C as [->|C]; [reflexivity|]. apply N.eqb_neq in C. now rewrite C, andb_false_r.
Qed.

Lemma count_octets total : (total mod 8 = 0)%N -> ((total + 7) / 8 = total / 8)%N.
Proof. intros. lia. Qed.

Lemma digest_ok st b total : block_ok 64 8 st -> block_ok 64 16 b -> (total < 2 ^ 64)%N -> (total mod 8 = 0)%N ->
  ob_digest (the_object inj bits) st b total =
  Some (after_digest st b total, blake_output (bits / 8) (after_digest st b total)) /\ block_ok 64 8 (after_digest st b total).
Proof.
  intros Hs Hb Ht H8. cbn [ob_digest the_object haifa_object]. rewrite (padding_ok b total Hb Ht H8), (full_test total H8).
  destruct (process_block_bits st b total false Hs Ht) as [E1 K1]. cbn [flag] in E1. rewrite E1.
  rewrite (count_octets total H8) in K1 |- *. cbv zeta. unfold after_digest.
  set (s1 := if blake_taken total =? 128 then F st b (total / 8) false else st).
  assert (Hs1 : block_ok 64 8 s1) by (unfold s1; destruct (blake_taken total =? 128); assumption).
  clearbody s1. destruct (process_block_bits s1 (last_block b total) total true Hs1 Ht) as [E2 K2].
  change 0xFFFFFFFFFFFFFFFF%N with (flag true). rewrite E2. rewrite (count_octets total H8) in K2 |- *. split; [|exact K2].
  unfold blake_output. rewrite (pack_le 8) by lia. generalize (F s1 (last_block b total) (total / 8) true). clear. intros s2. reflexivity.
Qed.

Lemma reset_same st : block_ok 64 8 st -> haifa_reset bits st = with_parameter (bits / 8) st.
Proof. intros [L _]. destruct st as [|x l]; [discriminate L|]. reflexivity. Qed.
Lemma parameter_ok st : bits <= 512 -> block_ok 64 8 st -> block_ok 64 8 (with_parameter (bits / 8) st).
Proof.
  intros Hb [L Fo]. destruct st as [|x l]; [discriminate L|]. inversion Fo; subst. split; [exact L|].
  unfold with_parameter, set, get. cbn [firstn skipn app nth]. constructor; [|assumption].
  apply lxor_ok; [assumption|]. apply lxor_ok; [reflexivity|]. unfold fits. change (2 ^ N.of_nat 64)%N with 18446744073709551616%N.
  clear - Hb. lia.
Qed.

Definition good (P : nat -> option (list N)) : Prop := forall i st, P i = Some st -> block_ok 64 8 st.
Lemma good_put i st P : block_ok 64 8 st -> good P -> good (put i st P).
Proof. intros Hs H j s. unfold put. destruct (j =? i); [intros [= <-]; exact Hs|apply H]. Qed.

Lemma iv_ok : bits <= 512 -> block_ok 64 8 (with_parameter (bits / 8) IV).
Proof. intros Hb. apply parameter_ok; [exact Hb|exact IV_ok]. Qed.

Lemma every_program_from cs : bits <= 512 -> Forall (octet_arguments 64 16) cs -> forall P, good P ->
  object_calls (the_object inj bits) (fun s => s) P cs = blake_returns (bits / 8) P cs.
Proof.
  intros Hb HA. pose proof (iv_ok Hb) as KI. induction HA as [|c cs [Ha Ho] HA IH]; intros P HP; [reflexivity|].
  destruct c as [i|i b n|i b n|i|i j|i j]; cbn [object_calls blake_returns].
  - apply (IH (put i (with_parameter (bits / 8) IV) P)). now apply good_put.
  - destruct (P i) as [st|] eqn:Ei; [|reflexivity]. destruct Ha as (L & Fb & Hn).
    destruct (process_block_bits st b n false (HP _ _ Ei) Hn) as [E K]. cbn [flag] in E.
    change (c_proc (ob_class (the_object inj bits)) st b n) with (blake2b_process_block st b n 0). rewrite E.
    apply IH. now apply good_put.
  - destruct (P i) as [st|] eqn:Ei; [|reflexivity]. destruct Ha as (L & Fb & Hn).
    destruct (digest_ok st b n (HP _ _ Ei) (conj L Fb) Hn Ho) as [E K]. rewrite E. cbv zeta.
    refine (eq_trans (f_equal (option_map _) (IH _ (good_put i _ P K HP))) _). reflexivity.
  - destruct (P i) as [st|] eqn:Ei; [|reflexivity]. apply (IH (put i (with_parameter (bits / 8) IV) P)). now apply good_put.
  - destruct (P i) as [st|] eqn:Ei; [|reflexivity]. destruct (P j) as [st2|]; [|reflexivity].
    change (ob_reset_to (the_object inj bits) st) with (haifa_reset bits st). rewrite reset_same by exact (HP _ _ Ei).
    apply IH. apply good_put; [|exact HP]. apply parameter_ok; [exact Hb|exact (HP _ _ Ei)].
  - destruct (P i) as [st|] eqn:Ei; [|reflexivity]. apply IH. apply good_put; [exact (HP _ _ Ei)|exact HP].
Qed.

Theorem every_blake_program cs : bits <= 512 -> Forall (octet_arguments 64 16) cs ->
  object_calls (the_object inj bits) (fun s => s) nothing cs = blake_returns (bits / 8) nothing cs.
Proof. intros Hb HA. apply every_program_from; auto. intros i st [=]. Qed.
End Blake.

(** ** Whole messages one after the other *)
Lemma blake_returns_same nn cs : forall P Q, (forall i, P i = Q i) -> blake_returns nn P cs = blake_returns nn Q cs.
Proof.
  assert (PUT : forall i (x : list N) P Q, (forall j, P j = Q j) -> forall j, put i x P j = put i x Q j).
  { intros i x P Q H j. unfold put. destruct (j =? i); auto. }
  induction cs as [|c cs IH]; intros P Q H; [reflexivity|]. destruct c; cbn [blake_returns]; rewrite <- ?H;
    repeat match goal with |- match ?x with _ => _ end = match ?x with _ => _ end => destruct x; try reflexivity end;
    cbv zeta; try (apply f_equal); apply IH, PUT; exact H.
Qed.

Definition data_pad (n : nat) : nat := if n =? 0 then 128 else (128 - n mod 128) mod 128.
Lemma data_octets_cons A B : length A = 128 -> B <> [] -> data_octets (A ++ B) = A ++ data_octets B.
Proof.
  intros LA HB. unfold data_octets. rewrite app_length, LA, <- app_assoc.
  assert (LB : length B <> 0) by (destruct B; [contradiction|discriminate]).
  destruct (Nat.eqb_spec (128 + length B) 0) as [X|_]; [exfalso; clear - X; lia|].
  destruct (Nat.eqb_spec (length B) 0) as [X|_]; [contradiction|].
  replace ((128 + length B) mod 128) with (length B mod 128) by (clear; lia). reflexivity.
Qed.
Lemma data_blocks_cons A B : length A = 128 -> B <> [] -> data_blocks (A ++ B) = le_words 8 A :: data_blocks B.
Proof.
  intros LA HB. unfold data_blocks. rewrite data_octets_cons by assumption. rewrite chunks_cons by (auto; lia). reflexivity.
Qed.
Lemma data_blocks_some B : data_blocks B <> [].
Proof.
  destruct (data_length B) as [L Z]. unfold data_blocks. intros E. apply map_eq_nil in E.
  assert (length (chunks 128 (data_octets B)) = 0) by now rewrite E.
  rewrite chunks_length in H. destruct (data_octets B) as [|x l]; [contradiction|]. cbn [length] in *. clear - H L. lia.
Qed.
Lemma leading_cons A B : length A = 128 -> B <> [] -> leading_blocks (A ++ B) = le_words 8 A :: leading_blocks B.
Proof.
  intros LA HB. unfold leading_blocks. rewrite data_blocks_cons by assumption. rewrite app_length, LA.
  assert (LB : length B <> 0) by (destruct B; [contradiction|discriminate]).
  replace ((128 + length B) mod 128) with (length B mod 128) by (clear; lia).
  replace (128 + length B =? 0) with (length B =? 0) by (clear - LB; lia).
  destruct ((length B mod 128 =? 0) && negb (length B =? 0)); [reflexivity|]. cbn [removelast].
  destruct (data_blocks B) eqn:E; [exfalso; exact (data_blocks_some B E)|reflexivity].
Qed.

Lemma block_octets_back m : Forall (fits 8) m -> length m <= 128 ->
  length (le_words 8 (m ++ repeat 0%N (128 - length m))) = 16 /\ Forall (fits 64) (le_words 8 (m ++ repeat 0%N (128 - length m))) /\
  le_octets 8 (le_words 8 (m ++ repeat 0%N (128 - length m))) = m ++ repeat 0%N (128 - length m).
Proof.
  intros F L. exact (block_of_octets (Build_published false 8 16 8 0x80%N [] (fun s _ => s) 0) (Nat.lt_0_succ 7) (Nat.lt_0_succ 15) m F L).
Qed.
Lemma taken_message from (m : list N) : from mod 128 = 0 -> (from = 0 \/ m <> []) -> length m <= 128 ->
  blake_taken (N.of_nat (8 * (from + length m))) = length m.
Proof.
  exact (used (Build_published false 8 16 8 0x80%N [] (fun s _ => s) 0) (Nat.lt_0_succ 7) (Nat.lt_0_succ 15) from m).
Qed.

Lemma octet_count n : (N.of_nat (8 * n) / 8 = N.of_nat n)%N.
Proof. rewrite Nat2N.inj_mul. change (N.of_nat 8) with 8%N. rewrite N.mul_comm. apply N.div_mul. discriminate. Qed.

(** The last block of a message that has at most one. *)
Lemma one_block h i m : Forall (fits 8) m -> length m <= 128 -> (i = 0 \/ m <> []) ->
  after_digest h (le_words 8 (m ++ repeat 0%N (128 - length m))) (N.of_nat (8 * (128 * i + length m))) =
  F (non_final h i (leading_blocks m)) (last (data_blocks m) []) (N.of_nat (128 * i + length m)) true.
Proof.
  intros Fm L Hi. destruct (block_octets_back m Fm L) as (_ & _ & E). unfold after_digest, last_block. rewrite E.
  rewrite octet_count.
  rewrite taken_message; [|rewrite Nat.mul_comm; apply Nat.mod_mul; discriminate|destruct Hi as [->|]; auto|exact L].
  rewrite firstn_app, Nat.sub_diag, firstn_all. cbn [firstn]. rewrite app_nil_r.
  assert (ED : data_blocks m = [le_words 8 (m ++ repeat 0%N (128 - length m))]).
  { unfold data_blocks, data_octets.
    replace (if length m =? 0 then 128 else (128 - length m mod 128) mod 128) with (128 - length m)
      by (destruct (Nat.eqb_spec (length m) 0) as [X|X]; clear - X L; lia).
    rewrite chunks_single; [reflexivity|lia|]. rewrite app_length, repeat_length. clear - L. lia. }
  unfold leading_blocks. rewrite ED. cbn [last removelast].
  destruct (Nat.eqb_spec (length m) 128) as [X|X].
  - rewrite X. change (128 mod 128 =? 0) with true. change (128 =? 0) with false.
    cbn [negb andb non_final]. replace ((i + 1) * 128) with (128 * i + 128) by (clear; lia). reflexivity.
  - replace ((length m mod 128 =? 0) && negb (length m =? 0)) with false; [reflexivity|].
    destruct (Nat.eqb_spec (length m) 0) as [Z|Z]; [now rewrite andb_false_r|].
    replace (length m mod 128 =? 0) with false; [reflexivity|]. clear - X Z L. lia.
Qed.

Lemma blake_message nn fuel i cs : forall m h k slots, length m < fuel -> (k = 0 \/ m <> []) ->
  Forall (fits 8) m -> slots i = Some h ->
  let h' := F (non_final h k (leading_blocks m)) (last (data_blocks m) []) (N.of_nat (128 * k + length m)) true in
  blake_returns nn slots (blake_calls fuel i (128 * k) m ++ cs) =
  option_map (cons (i, blake_output nn h')) (blake_returns nn (put i h' slots) cs).
Proof.
  induction fuel as [|fuel IH]; intros m h k slots Hf H1 Fm Hi h'; [exfalso; clear - Hf; lia|]. cbn [blake_calls].
  destruct (Nat.leb_spec (length m) 128) as [L|L].
  - cbn [app blake_returns]. rewrite Hi. cbv zeta. rewrite (one_block h k m Fm L H1). reflexivity.
  - cbn [app blake_returns]. rewrite Hi.
    set (A := firstn 128 m) in *. set (B := skipn 128 m) in *.
    assert (EM : m = A ++ B) by (symmetry; apply firstn_skipn).
    assert (LA : length A = 128) by (unfold A; rewrite firstn_length; clear - L; lia).
    assert (LB : length B = length m - 128) by apply skipn_length.
    assert (NB : B <> []) by (intros X; rewrite X in LB; cbn [length] in LB; clear - LB L; lia).
    assert (FB : Forall (fits 8) B) by now apply skipn_fit.
    replace ((N.of_nat (8 * (128 * k + 128)) + 7) / 8)%N with (N.of_nat ((k + 1) * 128)) by (clear; lia).
    replace (128 * k + 128) with (128 * (k + 1)) by (clear; lia).
    rewrite (IH B (F h (le_words 8 A) (N.of_nat ((k + 1) * 128)) false) (k + 1)).
    + assert (EH : h' = F (non_final (F h (le_words 8 A) (N.of_nat ((k + 1) * 128)) false) (k + 1) (leading_blocks B))
          (last (data_blocks B) []) (N.of_nat (128 * (k + 1) + length B)) true).
      { unfold h'. replace (128 * k + length m) with (128 * (k + 1) + length B) by (rewrite LB; clear - L; lia).
        rewrite EM. rewrite leading_cons, data_blocks_cons by assumption. cbn [non_final].
        pose proof (data_blocks_some B) as DS. destruct (data_blocks B) as [|x l]; [contradiction|]. reflexivity. }
      rewrite <- EH. apply f_equal. apply blake_returns_same. intros j. unfold put. now destruct (j =? i).
    + rewrite LB. clear - Hf L. lia.
    + now right.
    + exact FB.
    + unfold put. now rewrite Nat.eqb_refl.
Qed.

Lemma blake_calls_ok fuel i : forall m from, Forall (fits 8) m -> (N.of_nat (8 * (from + length m)) < 2 ^ 64)%N ->
  Forall (octet_arguments 64 16) (blake_calls fuel i from m).
Proof.
  induction fuel as [|fuel IH]; intros m from Fm Ht; [constructor|]. cbn [blake_calls].
  destruct (Nat.leb_spec (length m) 128) as [L|L].
  - destruct (block_octets_back m Fm L) as (A & B & _). constructor; [|constructor]. split; [cbn [arguments_ok]; auto|].
    clear Ht. rewrite Nat2N.inj_mul. change (N.of_nat 8) with 8%N. rewrite N.mul_comm. apply N.mod_mul. discriminate.
  - assert (FF : Forall (fits 8) (firstn 128 m)) by now apply Forall_firstn'.
    assert (LF : length (firstn 128 m) = 128) by (rewrite firstn_length; clear - L; lia).
    pose proof (block_octets_back (firstn 128 m) FF ltac:(rewrite LF; reflexivity)) as (A & B & _).
    rewrite LF, Nat.sub_diag in A, B. cbn [repeat] in A, B. rewrite app_nil_r in A, B. constructor.
    + split; [|exact I]. cbn [arguments_ok]. split; [exact A|]. split; [exact B|].
      eapply N.le_lt_trans; [|exact Ht]. clear - L. lia.
    + apply IH; [now apply skipn_fit|]. rewrite skipn_length.
      replace (from + 128 + (length m - 128)) with (from + length m) by (clear - L; lia). exact Ht.
Qed.

Lemma blake_hash_message nn i m h slots cs : Forall (fits 8) m -> slots i = Some h ->
  blake_returns nn slots (blake_hash_calls i m ++ cs) =
  option_map (cons (i, blake_output nn (blake_state h m))) (blake_returns nn (put i (blake_state h m) slots) cs).
Proof.
  intros Fm Hi. exact (blake_message nn (S (length m)) i cs m h 0 slots (Nat.lt_succ_diag_r _) (or_introl eq_refl) Fm Hi).
Qed.

Theorem blake_reused inj bits i m1 m2 : injector_contract LOBB 64 16 inj -> bits <= 512 ->
  Forall (fits 8) m1 -> Forall (fits 8) m2 -> (N.of_nat (8 * length m1) < 2 ^ 64)%N -> (N.of_nat (8 * length m2) < 2 ^ 64)%N ->
  object_calls (the_object inj bits) (fun s => s) nothing (New i :: blake_hash_calls i m1 ++ blake_hash_calls i m2) =
  Some [(i, BLAKE2b_observed (bits / 8) m1);
        (i, blake_output (bits / 8) (blake_state (blake_state (initial_state (bits / 8)) m1) m2))].
Proof.
  intros HI Hb F1 F2 S1 S2. rewrite every_blake_program; auto.
  2:{ constructor; [split; exact I|]. apply Forall_app. split; apply blake_calls_ok; auto. }
  cbn [blake_returns]. change (with_parameter (bits / 8) IV) with (initial_state (bits / 8)).
  rewrite (blake_hash_message _ i m1 (initial_state (bits / 8))); [|exact F1|unfold put; now rewrite Nat.eqb_refl].
  rewrite <- (app_nil_r (blake_hash_calls i m2)).
  rewrite (blake_hash_message _ i m2 (blake_state (initial_state (bits / 8)) m1)); [|exact F2|unfold put; now rewrite Nat.eqb_refl].
  rewrite observed_final. reflexivity.
Qed.

(** Passing a state on twice. *)
Lemma parameter_twice nn st : st <> [] -> with_parameter nn (with_parameter nn st) = st.
Proof.
  destruct st as [|x l]; [contradiction|]. intros _. unfold with_parameter, set, get. cbn [firstn skipn app nth].
  now rewrite N.lxor_assoc, N.lxor_nilpotent, N.lxor_0_r.
Qed.
Theorem passed_twice inj bits i j k cs1 cs2 ds : i <> j ->
  forall P, object_calls (the_object inj bits) (fun s => s) P (cs1 ++ Restore i j :: Restore j k :: cs2) = Some ds ->
  object_calls (the_object inj bits) (fun s => s) P (cs1 ++ Restore i j :: Clone i k :: cs2) = Some ds.
Proof.
  intros Hij. revert ds. induction cs1 as [|c cs1 IH]; intros ds P.
  - cbn [app object_calls]. destruct (P i) as [s|] eqn:Ei; [|discriminate]. destruct (P j) as [s'|]; [|discriminate].
    assert (E1 : forall x, put j x P j = Some x) by (intros x; unfold put; now rewrite Nat.eqb_refl).
    assert (E2 : forall x, put j x P i = Some s) by (intros x; unfold put; apply Nat.eqb_neq in Hij; now rewrite Hij).
    rewrite E1, E2. destruct (put j _ P k); [|discriminate].
    change (ob_reset_to (the_object inj bits)) with (haifa_reset bits). now rewrite LObject.haifa_reset_twice.
  - destruct c as [a|a b n|a b n|a|a b|a b]; cbn [app object_calls].
    + apply IH.
    + destruct (P a); [apply IH|discriminate].
    + destruct (P a); [|discriminate]. destruct (ob_digest _ _ _ _) as [[s' d]|]; [|discriminate].
      destruct (object_calls _ _ _ (cs1 ++ Restore i j :: Restore j k :: cs2)) as [ds'|] eqn:E; [|discriminate].
      intros [= <-]. rewrite (IH _ _ E). reflexivity.
    + destruct (P a); [apply IH|discriminate].
    + destruct (P a); [|discriminate]. destruct (P b); [apply IH|discriminate].
    + destruct (P a); [apply IH|discriminate].
Qed.
