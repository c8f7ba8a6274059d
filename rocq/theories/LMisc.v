(** Proofs about the small helpers. *)
From Coq Require Import NArith Arith List Bool Lia ZifyBool ZifyNat ZifyN ZArith.
From Verif Require Import SpecStream LStream SpecDer SpecWords LWords MPack MMisc.
Import ListNotations.
Ltac Zify.zify_post_hook ::= Z.div_mod_to_equations.

(** ** DigestInfo *)
Lemma take_tlv_exact t l rest d : (l <? 128)%N = true -> length rest + length d = N.to_nat l ->
  take_tlv t (t :: l :: rest ++ d) = Some (rest ++ d, []).
Proof.
  intros Hl Hn. unfold take_tlv. rewrite N.eqb_refl, Hl, app_length, Hn, Nat.leb_refl. cbn [andb].
  rewrite firstn_all2, skipn_all2 by (rewrite app_length; lia). reflexivity.
Qed.

(** A prefix is right for digests of [n] octets and an object identifier: decided by looking at
    the prefix alone. *)
Definition prefix_check (prefix arcs : list N) (n : nat) : bool :=
  match prefix with
  | t0 :: l0 :: t1 :: l1 :: rest =>
      (t0 =? SEQUENCE)%N && (l0 <? 128)%N && (N.to_nat l0 =? length rest + 2 + n) &&
      match take_tlv SEQUENCE (t1 :: l1 :: rest) with
      | Some (alg, [t2; l2]) =>
          (t2 =? OCTET_STRING)%N && (l2 <? 128)%N && (N.to_nat l2 =? n) &&
          match take_tlv OBJECT_IDENTIFIER alg with
          | Some (o, params) =>
              match take_tlv NULL params, oid o with
              | Some ([], []), Some a => if list_eq_dec N.eq_dec a arcs then true else false
              | _, _ => false
              end
          | None => false
          end
      | _ => false
      end
  | _ => false
  end.

Lemma take_tlv_app t os d a b : take_tlv t os = Some (a, b) -> take_tlv t (os ++ d) = Some (a, b ++ d).
Proof.
  destruct os as [|t1 [|l rest]]; try discriminate. unfold take_tlv. cbn [app]. rewrite app_length.
  destruct ((t1 =? t)%N && (l <? 128)%N) eqn:B; [|discriminate]. cbn [andb].
  destruct (N.to_nat l <=? length rest) eqn:L; [|discriminate].
  intros E. injection E as <- <-. replace (N.to_nat l <=? length rest + length d) with true by lia.
  rewrite firstn_app, skipn_app. replace (N.to_nat l - length rest) with 0 by lia.
  cbn [firstn skipn]. now rewrite app_nil_r.
Qed.

Lemma prefix_check_ok prefix arcs n d : prefix_check prefix arcs n = true -> length d = n ->
  digest_info (prefix ++ d) = Some (arcs, d).
Proof.
  intros H Hd. destruct prefix as [|t0 [|l0 [|t1 [|l1 rest]]]]; try discriminate.
  unfold prefix_check in H. apply andb_true_iff in H. destruct H as [H H2].
  apply andb_true_iff in H. destruct H as [H H1]. apply andb_true_iff in H. destruct H as [H0 H00].
  apply N.eqb_eq in H0. subst t0.
  destruct (take_tlv SEQUENCE (t1 :: l1 :: rest)) as [[alg r]|] eqn:E1; [|discriminate].
  destruct r as [|t2 [|l2 [|]]]; try discriminate.
  apply andb_true_iff in H2. destruct H2 as [H2 H3].
  apply andb_true_iff in H2. destruct H2 as [H2 H4]. apply andb_true_iff in H2. destruct H2 as [H2 H5].
  apply N.eqb_eq in H2. subst t2.
  destruct (take_tlv OBJECT_IDENTIFIER alg) as [[o params]|] eqn:E2; [|discriminate].
  unfold digest_info.
  change ((SEQUENCE :: l0 :: t1 :: l1 :: rest) ++ d) with (SEQUENCE :: l0 :: (t1 :: l1 :: rest) ++ d).
  rewrite take_tlv_exact; [|auto|cbn [length] in *; lia].
  rewrite (take_tlv_app _ _ d _ _ E1), E2. cbn [app].
  assert (E3 : take_tlv OCTET_STRING (OCTET_STRING :: l2 :: [] ++ d) = Some ([] ++ d, [])).
  { apply take_tlv_exact; auto. cbn [length]. lia. }
  cbn [app] in E3. rewrite E3.
  destruct (take_tlv NULL params) as [[x y]|]; [|discriminate].
  destruct x; [|discriminate]. destruct y; [|discriminate].
  destruct (oid o); [|discriminate]. destruct (list_eq_dec N.eq_dec l arcs); [|discriminate]. now subst.
Qed.

(** The outer length octet disagrees with the octets that follow. *)
Lemma prefix_bad l0 rest d : N.to_nat l0 <> length rest + length d ->
  digest_info (0x30%N :: l0 :: rest ++ d) = None.
Proof.
  intros H. unfold digest_info, take_tlv at 1. rewrite app_length.
  destruct ((0x30 =? SEQUENCE)%N && (l0 <? 128)%N) eqn:B; [|reflexivity]. cbn [andb].
  destruct (N.to_nat l0 <=? length rest + length d) eqn:L; [|reflexivity].
  destruct (skipn (N.to_nat l0) (rest ++ d)) eqn:S; [|reflexivity].
  assert (length (skipn (N.to_nat l0) (rest ++ d)) = 0) by now rewrite S.
  rewrite skipn_length, app_length in H0. lia.
Qed.

Lemma der_good : forall prefix arcs n, In (prefix, arcs, n)
    [(pkcs_md5, id_md5, 16); (pkcs_sha1, id_sha1, 20); (pkcs_sha3_224, id_sha3_224, 28);
     (pkcs_sha3_256, id_sha3_256, 32); (pkcs_sha3_384, id_sha3_384, 48); (pkcs_sha3_512, id_sha3_512, 64);
     (pkcs_ripemd 160, id_ripemd160, 20); (pkcs_tiger, id_tiger192, 24)] ->
  forall d, length d = n -> digest_info (prefix ++ d) = Some (arcs, d).
Proof.
  intros prefix arcs n Hin d Hd. apply prefix_check_ok with n; auto. revert Hin. cbn [In].
  intros Hin. repeat (destruct Hin as [Hin|Hin]; [injection Hin as <- <- <-; reflexivity|]). contradiction.
Qed.

Lemma der_bad_lengths : forall prefix n, In (prefix, n)
    [(pkcs_sha2_256, 32); (pkcs_sha2_512, 64); (pkcs_ripemd 128, 16); (pkcs_ripemd 256, 32); (pkcs_ripemd 320, 40)] ->
  forall d, length d = n -> digest_info (prefix ++ d) = None.
Proof.
  intros prefix n Hin d Hd. cbn [In] in Hin.
  repeat (destruct Hin as [Hin|Hin]; [injection Hin as <- <-; apply prefix_bad; rewrite Hd; vm_compute; discriminate|]).
  contradiction.
Qed.

Lemma der_sha0 : forall d, length d = 20 ->
  digest_info (pkcs_sha ++ d) = Some (id_sha1, d) /\ id_sha1 <> id_sha0.
Proof.
  intros d Hd. split; [|discriminate]. apply prefix_check_ok with 20; auto.
Qed.

(** ** pow *)
Lemma size_half n : (0 < n)%N -> N.size n = N.succ (N.size (n / 2)).
Proof. intros H. rewrite <- N.div2_div. destruct n as [|[p|p|]]; [lia|reflexivity..]. Qed.

Section Pow.
Context {T : Type} (mul : T -> T -> T) (one : T).
Context (assoc : forall a b c, mul a (mul b c) = mul (mul a b) c)
        (one_l : forall a, mul one a = a) (one_r : forall a, mul a one = a).
Fixpoint power (x : T) (n : nat) : T := match n with O => one | S k => mul x (power x k) end.

Lemma power_add x a b : power x (a + b) = mul (power x a) (power x b).
Proof. induction a; cbn; [now rewrite one_l|]. now rewrite IHa, assoc. Qed.
Lemma power_sq x n : power (mul x x) n = power x (n + n).
Proof.
  induction n; [reflexivity|]. replace (S n + S n) with (S (S (n + n))) by lia. cbn. now rewrite IHn, assoc.
Qed.

Lemma pow_loop_ok fuel : forall x n r, 2 * N.to_nat (N.size n) < fuel ->
  pow_loop mul fuel x n r = Some (mul r (power x (N.to_nat n))).
Proof.
  induction fuel as [fuel IH] using lt_wf_ind. intros x n r Hf.
  destruct fuel as [|k]; [lia|]. cbn [pow_loop]. destruct (N.ltb_spec 0 n) as [Hn|Hn].
  - destruct (N.eqb_spec (n mod 2) 0) as [E|E].
    + assert (Sz : N.size n = N.succ (N.size (n / 2))).
      { apply size_half. lia. }
      rewrite IH by lia. f_equal. rewrite power_sq. do 2 f_equal. lia.
    + destruct k as [|k].
      { exfalso. destruct n; [lia|]. assert (0 < N.size (N.pos p))%N by (destruct p; reflexivity). lia. }
      cbn [pow_loop].
      destruct (N.ltb_spec 0 (n - 1)) as [Hn1|Hn1].
      * assert (E1 : ((n - 1) mod 2 =? 0)%N = true) by lia. rewrite E1.
        assert (Sz : N.size n = N.succ (N.size ((n - 1) / 2))).
        { replace ((n - 1) / 2)%N with (n / 2)%N by lia.
          apply size_half. lia. }
        rewrite IH by lia. f_equal. rewrite power_sq, <- assoc. f_equal.
        change (mul x (power x (N.to_nat ((n - 1) / 2) + N.to_nat ((n - 1) / 2)))) with
          (power x (S (N.to_nat ((n - 1) / 2) + N.to_nat ((n - 1) / 2)))). f_equal. lia.
      * f_equal. assert (n = 1)%N by lia. subst n. change (N.to_nat 1) with 1. cbn [power]. now rewrite !one_r.
  - assert (n = 0)%N by lia. subst n. cbn. now rewrite one_r.
Qed.

Lemma pow_ok fuel x n : 2 * N.to_nat (N.size n) < fuel -> pow mul one fuel x n = Some (power x (N.to_nat n)).
Proof. intros H. unfold pow. rewrite pow_loop_ok by auto. now rewrite one_l. Qed.
End Pow.

Lemma power_mod m x n : (0 < m)%N -> power (fun a b => (a * b) mod m)%N (1 mod m)%N x n = (x ^ N.of_nat n mod m)%N.
Proof.
  intros Hm. induction n; [reflexivity|]. cbn [power]. rewrite IHn, N.mul_mod_idemp_r by lia.
  rewrite Nnat.Nat2N.inj_succ, N.pow_succ_r'. reflexivity.
Qed.

(** pow on an unsigned [w]-bit type. *)
Lemma pow_unsigned w x n fuel : 0 < w -> fits w x -> 2 * N.to_nat (N.size n) < fuel ->
  pow (fun a b => (a * b) mod 2 ^ N.of_nat w)%N 1%N fuel x n = Some (x ^ n mod 2 ^ N.of_nat w)%N.
Proof.
  intros Hw Hx Hf. set (m := (2 ^ N.of_nat w)%N).
  assert (Hm : (0 < m)%N) by (apply N.neq_0_lt_0, N.pow_nonzero; lia).
  assert (H1 : (1 mod m = 1)%N).
  { apply N.mod_small. apply N.pow_gt_1; lia. }
  (* work with values below m, where 1 is a unit *)
  assert (L : forall fuel x n r, (x < m)%N -> (r < m)%N -> 2 * N.to_nat (N.size n) < fuel ->
     pow_loop (fun a b => (a * b) mod m)%N fuel x n r = Some ((r * (x ^ n mod m)) mod m)%N).
  { clear x n fuel Hx Hf. induction fuel as [fuel IH] using lt_wf_ind. intros x n r Hx Hr Hf.
    destruct fuel as [|k]; [lia|]. cbn [pow_loop].
    assert (Hml : forall a b, ((a * b) mod m < m)%N) by (intros; apply N.mod_lt; lia).
    destruct (N.ltb_spec 0 n) as [Hn|Hn].
    - destruct (N.eqb_spec (n mod 2) 0) as [E|E].
      + assert (Sz : N.size n = N.succ (N.size (n / 2))).
        { apply size_half. lia. }
        rewrite IH by (auto; lia). f_equal. f_equal. f_equal.
        replace n with (2 * (n / 2))%N at 2 by lia. rewrite N.pow_mul_r.
        rewrite N.pow_2_r.
        assert (P : forall q, ((((x * x) mod m) ^ q) mod m = ((x * x) ^ q) mod m)%N).
        { intros q. induction q using N.peano_ind; [reflexivity|]. rewrite !N.pow_succ_r'.
          rewrite <- (N.mul_mod_idemp_r _ (((x * x) mod m) ^ q)) by lia. rewrite IHq.
          rewrite N.mul_mod_idemp_r, N.mul_mod_idemp_l by lia. reflexivity. }
        apply P.
      + destruct k as [|k].
        { exfalso. destruct n; [lia|]. assert (0 < N.size (N.pos p))%N by (destruct p; reflexivity). lia. }
        assert (F2 : forall q, (q = n - 1)%N -> pow_loop (fun a b => (a * b) mod m)%N (S k) x q ((r * x) mod m)%N
                   = Some (((r * x) mod m * (x ^ q mod m)) mod m)%N).
        { intros q ->. cbn [pow_loop].
          destruct (N.ltb_spec 0 (n - 1)) as [Hn1|Hn1].
          - assert (E1 : ((n - 1) mod 2 =? 0)%N = true) by lia. rewrite E1.
            assert (Sz : N.size n = N.succ (N.size ((n - 1) / 2))).
            { replace ((n - 1) / 2)%N with (n / 2)%N by lia.
              apply size_half. lia. }
            rewrite IH by (auto; lia). f_equal. f_equal. f_equal.
            replace (n - 1)%N with (2 * ((n - 1) / 2))%N at 2 by lia. rewrite N.pow_mul_r, N.pow_2_r.
            generalize ((n - 1) / 2)%N. intros q. induction q using N.peano_ind; [reflexivity|].
            rewrite !N.pow_succ_r'. rewrite <- (N.mul_mod_idemp_r _ (((x * x) mod m) ^ q)) by lia. rewrite IHq.
            rewrite N.mul_mod_idemp_r, N.mul_mod_idemp_l by lia. reflexivity.
          - f_equal. replace (n - 1)%N with 0%N by lia. rewrite N.pow_0_r, H1, N.mul_1_r.
            symmetry. apply N.mod_mod. lia. }
        rewrite (F2 (n - 1)%N eq_refl). f_equal.
        replace n with (N.succ (n - 1)) at 2 by lia. rewrite N.pow_succ_r'.
        rewrite !N.mul_mod_idemp_r, N.mul_mod_idemp_l by lia. f_equal. lia.
    - assert (n = 0)%N by lia. subst n. rewrite N.pow_0_r, H1, N.mul_1_r. f_equal. symmetry. apply N.mod_small. auto. }
  unfold pow. rewrite L; auto.
  - rewrite N.mul_1_l. f_equal. apply N.mod_mod. lia.
  - unfold m. apply N.pow_gt_1; lia.
Qed.

(** ** strxor *)
Lemma strxor_loop_ok n : forall m p1 p2 out,
  (p1 + n <= out \/ out + n <= p1 \/ out <= p1) ->
  (p2 + n <= out \/ out + n <= p2 \/ out <= p2) ->
  let (m', out') := strxor_loop n n m p1 p2 out in
  out' = out + n /\
  (forall i, i < n -> m' (out + i) = N.lxor (m (p1 + i)) (m (p2 + i))) /\
  (forall q, q < out \/ out + n <= q -> m' q = m q).
Proof.
  induction n as [|n IH]; intros m p1 p2 out H1 H2; cbn [strxor_loop].
  - split; [lia|]. split; [lia|auto].
  - specialize (IH (store m out (N.lxor (m p1) (m p2))) (S p1) (S p2) (S out)).
    destruct (strxor_loop n n _ (S p1) (S p2) (S out)) as [m' out'].
    destruct IH as (E & K & U); [lia|lia|].
    split; [lia|]. split.
    + intros i Hi. destruct i as [|i].
      * rewrite !Nat.add_0_r. rewrite U by lia. unfold store. now rewrite Nat.eqb_refl.
      * replace (out + S i) with (S out + i) by lia. rewrite K by lia. unfold store.
        replace (S p1 + i =? out) with false by lia. replace (S p2 + i =? out) with false by lia.
        f_equal; f_equal; lia.
    + intros q Hq. rewrite U by lia. unfold store. replace (q =? out) with false by lia. reflexivity.
Qed.

Lemma strxor_ok m p1 p2 out n :
  (p1 + n <= out \/ out + n <= p1 \/ out <= p1) -> (p2 + n <= out \/ out + n <= p2 \/ out <= p2) ->
  exists m', strxor m p1 n p2 n out = Some (m', out + n) /\
    (forall i, i < n -> m' (out + i) = N.lxor (m (p1 + i)) (m (p2 + i))) /\
    (forall q, q < out \/ out + n <= q -> m' q = m q).
Proof.
  intros H1 H2. unfold strxor. rewrite Nat.eqb_refl. pose proof (strxor_loop_ok n m p1 p2 out H1 H2) as K.
  destruct (strxor_loop n n m p1 p2 out) as [m' o]. destruct K as (-> & K1 & K2). eauto.
Qed.

(** Twice in place with the same second operand. *)
Lemma strxor_twice m p1 p2 n : p1 + n <= p2 \/ p2 + n <= p1 ->
  exists m' m'', strxor m p1 n p2 n p1 = Some (m', p1 + n) /\ strxor m' p1 n p2 n p1 = Some (m'', p1 + n) /\
    forall q, m'' q = m q.
Proof.
  intros H.
  destruct (strxor_ok m p1 p2 p1 n) as (m' & E1 & K1 & U1); [lia|lia|].
  destruct (strxor_ok m' p1 p2 p1 n) as (m'' & E2 & K2 & U2); [lia|lia|].
  exists m', m''. split; [auto|]. split; [auto|]. intros q.
  destruct (Nat.lt_ge_cases q p1) as [Q|Q]; [rewrite U2, U1 by auto; reflexivity|].
  destruct (Nat.lt_ge_cases q (p1 + n)) as [Q2|Q2]; [|rewrite U2, U1 by auto; reflexivity].
  replace q with (p1 + (q - p1)) by lia. rewrite K2, K1 by lia. rewrite U1 by lia.
  now rewrite N.lxor_assoc, N.lxor_nilpotent, N.lxor_0_r.
Qed.

(** ** Compressors *)
Lemma adder_loop w : forall n k (s1 s2 : list N), k + n <= length s1 ->
  length (state_adder_loop w (seq k n) s1 s2) = length s1 /\
  forall i, nth i (state_adder_loop w (seq k n) s1 s2) 0%N =
    if (k <=? i) && (i <? k + n) then ((nth i s1 0 + nth i s2 0) mod 2 ^ N.of_nat w)%N else nth i s1 0%N.
Proof.
  induction n as [|n IH]; intros k s1 s2 Hk; cbn [seq state_adder_loop].
  - split; [reflexivity|]. intros i. replace ((k <=? i) && (i <? k + 0)) with false by lia. reflexivity.
  - set (s := firstn k s1 ++ _ :: skipn (S k) s1).
    assert (Ls : length s = length s1).
    { unfold s. rewrite app_length, firstn_length. cbn [length]. rewrite skipn_length. lia. }
    assert (Ns : forall i, nth i s 0%N = if i =? k then ((nth k s1 0 + nth k s2 0) mod 2 ^ N.of_nat w)%N else nth i s1 0%N).
    { intros i. unfold s. destruct (Nat.lt_trichotomy i k) as [L|[L|L]].
      - rewrite app_nth1 by (rewrite firstn_length; lia). replace (i =? k) with false by lia.
        rewrite <- (firstn_skipn k s1) at 2. rewrite app_nth1 by (rewrite firstn_length; lia). reflexivity.
      - subst i. rewrite Nat.eqb_refl. rewrite app_nth2 by (rewrite firstn_length; lia).
        rewrite firstn_length, Nat.min_l by lia. now rewrite Nat.sub_diag.
      - replace (i =? k) with false by lia. rewrite app_nth2 by (rewrite firstn_length; lia).
        rewrite firstn_length, Nat.min_l by lia. replace (i - k) with (S (i - S k)) by lia. cbn [nth].
        rewrite <- (firstn_skipn (S k) s1) at 2. rewrite app_nth2 by (rewrite firstn_length; lia).
        rewrite firstn_length, Nat.min_l by lia. reflexivity. }
    destruct (IH (S k) s s2) as [L1 N1]; [lia|]. split; [lia|].
    intros i. rewrite N1, !Ns. destruct (i =? k) eqn:Q.
    + apply Nat.eqb_eq in Q. subst i. replace ((S k <=? k) && (k <? S k + n)) with false by lia.
      replace ((k <=? k) && (k <? k + S n)) with true by lia. reflexivity.
    + replace ((S k <=? i) && (i <? S k + n)) with ((k <=? i) && (i <? k + S n)) by lia. reflexivity.
Qed.

Lemma adder_ok w s1 s2 : length s1 = length s2 ->
  length (state_adder w s1 s2) = length s1 /\
  forall i, i < length s1 -> nth i (state_adder w s1 s2) 0%N = ((nth i s1 0 + nth i s2 0) mod 2 ^ N.of_nat w)%N.
Proof.
  intros L. unfold state_adder. replace (length s2 <? length s1) with false by lia.
  destruct (adder_loop w (length s1) 0 s1 s2) as [A B]; [lia|]. split; [exact A|].
  intros i Hi. rewrite B. replace ((0 <=? i) && (i <? 0 + length s1)) with true by lia. reflexivity.
Qed.

Lemma dm_ok w encrypt s m : length (encrypt m s) = length s ->
  length (davies_meyer encrypt (state_adder w) s m) = length s /\
  forall i, i < length s -> nth i (davies_meyer encrypt (state_adder w) s m) 0%N =
    ((nth i s 0 + nth i (encrypt m s) 0) mod 2 ^ N.of_nat w)%N.
Proof. intros L. apply adder_ok. auto. Qed.

Lemma mmo_ok w encrypt k s m : length (encrypt (k s) m) = length m ->
  length (matyas_meyer_oseas encrypt (state_adder w) k s m) = length m /\
  forall i, i < length m -> nth i (matyas_meyer_oseas encrypt (state_adder w) k s m) 0%N =
    ((nth i (encrypt (k s) m) 0 + nth i m 0) mod 2 ^ N.of_nat w)%N.
Proof.
  intros L. destruct (adder_ok w (encrypt (k s) m) m L) as [A B]. unfold matyas_meyer_oseas.
  split; [lia|]. intros i Hi. apply B. lia.
Qed.

Lemma mp_ok w encrypt k s m : length (encrypt (k s) m) = length m -> length s = length m ->
  length (miyaguchi_preneel encrypt (state_adder w) k s m) = length m /\
  forall i, i < length m -> nth i (miyaguchi_preneel encrypt (state_adder w) k s m) 0%N =
    ((nth i (encrypt (k s) m) 0 + nth i m 0 + nth i s 0) mod 2 ^ N.of_nat w)%N.
Proof.
  intros L Ls. unfold miyaguchi_preneel.
  destruct (adder_ok w s (encrypt (k s) m)) as [A1 B1]; [lia|].
  destruct (adder_ok w (state_adder w s (encrypt (k s) m)) m) as [A B]; [lia|].
  split; [lia|]. intros i Hi. rewrite B, B1 by lia.
  rewrite N.add_mod_idemp_l by (apply N.pow_nonzero; lia). f_equal. lia.
Qed.

(** ** pack *)
Lemma pack_round_trip e1 e2 w1 w2 xs : w1 mod 8 = 0 -> 0 < w1 -> w2 mod 8 = 0 -> 0 < w2 ->
  Forall (fits w1) xs -> (w1 * length xs) mod w2 = 0 ->
  let ys := pack e1 e2 w1 w2 xs in
  w2 * length ys = w1 * length xs /\ Forall (fits w2) ys /\ stream e2 w2 ys = stream e1 w1 xs /\
  pack e2 e1 w2 w1 ys = xs.
Proof.
  intros H1 P1 H2 P2 HF Hm ys.
  assert (S : stream e2 w2 ys = stream e1 w1 xs).
  { apply stream_words_of_stream; auto. now rewrite stream_length. }
  split; [rewrite <- !(stream_length e2 w2), S; apply stream_length|].
  split; [apply words_of_stream_fits|]. split; [exact S|].
  unfold pack at 1. rewrite S. apply words_of_stream_stream; auto.
Qed.

Lemma pack_octets_words n os : 0 < n -> Forall (fits 8) os ->
  pack BOBB BOBB 8 (8 * n) os = be_words n os /\ pack BOBB LOBB 8 (8 * n) os = le_words n os /\
  pack LOBB LOBB 8 (8 * n) os = le_words n os /\ pack LOBB BOBB 8 (8 * n) os = be_words n os.
Proof.
  intros Hn HF. unfold pack.
  assert (E : stream LOBB 8 os = stream BOBB 8 os).
  { unfold stream. apply flat_map_ext. intros x. reflexivity. }
  rewrite E. change (stream BOBB 8 os) with (octets_bits os).
  rewrite le_words_stream, be_words_stream by auto. auto.
Qed.

Lemma pow_product (T : Type) (mul : T -> T -> T) (one : T) :
  (forall a b c, mul a (mul b c) = mul (mul a b) c) -> (forall a, mul one a = a) -> (forall a, mul a one = a) ->
  forall fuel x n, 2 * N.to_nat (N.size n) < fuel ->
  pow mul one fuel x n = Some (fold_right mul one (repeat x (N.to_nat n))).
Proof.
  intros H1 H2 H3 fuel x n Hf. rewrite pow_ok by auto. f_equal.
  induction (N.to_nat n) as [|k IH]; [reflexivity|]. cbn. now rewrite IH.
Qed.

Lemma pow_example :
  (forall a b c, (a * (b * c) = a * b * c)%N) /\ (forall a, (1 * a = a)%N) /\ (forall a, (a * 1 = a)%N) /\
  pow N.mul 1%N 9 3%N 13%N = Some 1594323%N /\ 2 * N.to_nat (N.size 13) < 9.
Proof.
  split; [apply N.mul_assoc|]. split; [apply N.mul_1_l|]. split; [apply N.mul_1_r|].
  split; [reflexivity|]. change (N.size 13) with 4%N. lia.
Qed.
