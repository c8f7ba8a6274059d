(** Fermat's little theorem and Pocklington's criterion for Coq's integers. *)
From Coq Require Import ZArith Znumtheory Zpow_facts Lia List Bool Permutation.
Import ListNotations.
Local Open Scope Z_scope.

(** ** Fermat *)
Definition product (l : list Z) : Z := fold_right Z.mul 1 l.
Lemma product_perm l l' : Permutation l l' -> product l = product l'.
Proof. induction 1; cbn [product fold_right] in *; unfold product in *; lia. Qed.
Lemma product_scale a p l : product (map (fun i => (a * i) mod p) l) mod p = (a ^ Z.of_nat (length l) * product l) mod p.
Proof.
  induction l as [|x l IH]; [reflexivity|]. cbn [map length product fold_right]. fold (product l). fold (product (map (fun i => (a * i) mod p) l)).
  rewrite Nat2Z.inj_succ, Z.pow_succ_r by lia. rewrite Zmult_mod, IH, <- Zmult_mod, Zmult_mod_idemp_l. f_equal. ring.
Qed.
Lemma product_coprime p l : prime p -> Forall (fun x => 0 < x < p) l -> rel_prime (product l) p.
Proof.
  intros Hp F. induction F as [|x l Hx F IH]; [apply rel_prime_1|]. cbn [product fold_right]. fold (product l).
  apply rel_prime_sym, rel_prime_mult; [|now apply rel_prime_sym]. apply rel_prime_sym, rel_prime_le_prime; auto. lia.
Qed.
Lemma cancel p a x y : 0 < p -> rel_prime a p -> (x * a) mod p = (y * a) mod p -> x mod p = y mod p.
Proof.
  intros Hp R E. assert (D : (p | (x - y) * a)).
  { apply Z.mod_divide; [lia|]. replace ((x - y) * a) with (x * a - y * a) by ring. rewrite Zminus_mod, E, Z.sub_diag. reflexivity. }
  rewrite Z.mul_comm in D. apply Gauss in D; [|now apply rel_prime_sym]. destruct D as (k & Ek).
  replace x with (y + k * p) by lia. apply Z.mod_add. lia.
Qed.
Theorem fermat_unit (p a : Z) : prime p -> ~ (p | a) -> a ^ (p - 1) mod p = 1.
Proof.
  intros Hp Ha. pose proof (prime_ge_2 p Hp) as H2.
  set (l := map Z.of_nat (seq 1 (Z.to_nat (p - 1)))).
  assert (Fl : Forall (fun x => 0 < x < p) l).
  { apply Forall_forall. intros x Hx. apply in_map_iff in Hx. destruct Hx as (n & <- & Hn). apply in_seq in Hn. lia. }
  assert (Il : forall x, 0 < x < p -> In x l).
  { intros x Hx. apply in_map_iff. exists (Z.to_nat x). split; [lia|]. apply in_seq. lia. }
  assert (Ll : Z.of_nat (length l) = p - 1) by (unfold l; rewrite map_length, seq_length; lia).
  assert (ND : NoDup l) by (apply FinFun.Injective_map_NoDup; [intros x y; lia|apply seq_NoDup]).
  assert (Ra : rel_prime a p) by (apply rel_prime_sym, prime_rel_prime; auto).
  rewrite Forall_forall in Fl.
  assert (P : Permutation (map (fun i => (a * i) mod p) l) l).
  { apply NoDup_Permutation_bis.
    - clear Il Ll. induction l as [|x l IH]; [constructor|]. inversion ND; subst. cbn [map]. constructor; [|apply IH; auto; intros; apply Fl; now right].
      intros Hin. apply in_map_iff in Hin. destruct Hin as (y & Ey & Hy).
      assert (Exy : y mod p = x mod p). { apply (cancel p a); auto; [lia|]. rewrite (Z.mul_comm y), (Z.mul_comm x). exact Ey. }
      rewrite !Z.mod_small in Exy; [subst; contradiction| |]; [pose proof (Fl x (or_introl eq_refl))|pose proof (Fl y (or_intror Hy))]; lia.
    - now rewrite map_length.
    - intros y Hy. apply in_map_iff in Hy. destruct Hy as (x & <- & Hx). apply Il. pose proof (Z.mod_pos_bound (a * x) p).
      assert ((a * x) mod p <> 0); [|lia]. intros E. apply Z.mod_divide in E; [|lia]. apply Gauss in E; [|now apply rel_prime_sym].
      destruct E as (k & Ek). pose proof (Fl x Hx). assert (0 < k) by nia. nia. }
  assert (E := product_scale a p l). rewrite (product_perm _ _ P), Ll in E.
  rewrite <- (Z.mul_1_l (product l)) in E at 1. apply cancel in E; [|lia|apply product_coprime; auto; now apply Forall_forall].
  rewrite <- E. apply Z.mod_small. lia.
Qed.
Theorem fermat (p x : Z) : prime p -> 0 <= x < p -> x ^ p mod p = x.
Proof.
  intros Hp Hx. pose proof (prime_ge_2 p Hp) as H2. destruct (Z.eq_dec x 0) as [->|Hx0].
  - rewrite Z.pow_0_l by lia. apply Z.mod_0_l. lia.
  - replace p with (1 + (p - 1)) at 1 by lia. rewrite Z.pow_add_r, Z.pow_1_r by lia.
    rewrite <- Zmult_mod_idemp_r, fermat_unit, Z.mul_1_r by (auto; intros D; apply Z.divide_pos_le in D; lia). apply Z.mod_small. lia.
Qed.

(** ** Pocklington *)
Lemma pow_mod a e n : 0 < n -> (a mod n) ^ e mod n = a ^ e mod n.
Proof. intros Hn. symmetry. apply Zpower_mod. exact Hn. Qed.
Lemma pow_one_mod b m k p : 1 < p -> 0 <= m -> 0 <= k -> b ^ m mod p = 1 -> b ^ (m * k) mod p = 1.
Proof.
  intros Hp Hm Hk E. rewrite Z.pow_mul_r by lia. rewrite <- pow_mod, E by lia. rewrite Z.pow_1_l by lia. apply Z.mod_small. lia.
Qed.
Lemma coprime_exponents c m q p : 1 < p -> 0 < m -> 0 < q -> rel_prime m q -> c ^ m mod p = 1 -> c ^ q mod p = 1 -> c mod p = 1.
Proof.
  intros Hp Hm Hq R Em Eq. destruct (rel_prime_bezout m q R) as [u v E].
  set (u' := u mod q). assert (Hu : 0 <= u' < q) by (apply Z.mod_pos_bound; lia).
  assert (Eu : exists w, u' * m = 1 + w * q).
  { exists (- v - u / q * m). pose proof (Z.div_mod u q). unfold u'. nia. }
  destruct Eu as (w & Ew). destruct (Z_lt_le_dec w 0) as [Hw|Hw].
  - assert (q = 1) by nia. subst q. now rewrite Z.pow_1_r in Eq.
  - assert (E1 := pow_one_mod c m u' p Hp ltac:(lia) ltac:(lia) Em). rewrite (Z.mul_comm m), Ew, Z.pow_add_r, Z.pow_1_r, (Z.mul_comm w) in E1 by nia.
    rewrite <- Zmult_mod_idemp_r, (pow_one_mod c q w p), Z.mul_1_r in E1 by (auto; lia). exact E1.
Qed.
(** The largest power of q dividing m, up to q^e. *)
Lemma largest_power q m : 1 < q -> 0 < m -> forall e : nat, (q ^ Z.of_nat e | m) \/
  exists j m', (j < e)%nat /\ m = q ^ Z.of_nat j * m' /\ ~ (q | m').
Proof.
  intros Hq Hm e. induction e as [|e IH]; [left; exists m; cbn; lia|].
  destruct IH as [(m' & E)|(j & m' & Hj & E & N)]; [|right; exists j, m'; split; [lia|auto]].
  destruct (Zdivide_dec q m') as [(k & Ek)|N].
  - left. exists k. rewrite Nat2Z.inj_succ, Z.pow_succ_r by lia. rewrite E, Ek. ring.
  - right. exists e, m'. split; [lia|]. split; [rewrite E; ring|exact N].
Qed.
Lemma pocklington_step n p q (e : nat) a : prime p -> (p | n) -> 1 < n -> prime q -> (0 < e)%nat -> (q ^ Z.of_nat e | n - 1) ->
  a ^ (n - 1) mod n = 1 -> Z.gcd (a ^ ((n - 1) / q) - 1) n = 1 -> (q ^ Z.of_nat e | p - 1).
Proof.
  intros Pp Dp Hn Pq He [k Ek] E1 E2. pose proof (prime_ge_2 p Pp). pose proof (prime_ge_2 q Pq).
  destruct e as [|e]; [lia|]. clear He. rewrite Nat2Z.inj_succ, Z.pow_succ_r in * by lia.
  set (Q := q ^ Z.of_nat e) in *. assert (HQ : 0 < Q) by (apply Z.pow_pos_nonneg; lia). assert (Hk : 0 < k) by nia.
  assert (Ed : (n - 1) / q = k * Q) by (rewrite Ek; replace (k * (q * Q)) with (k * Q * q) by ring; apply Z.div_mul; lia).
  set (b := a ^ k).
  assert (Eb : b ^ (q * Q) mod p = 1).
  { unfold b. rewrite <- Z.pow_mul_r, <- Ek by nia. destruct Dp as (h & Eh). rewrite (Zmod_div_mod p n); [|lia|lia|exists h; exact Eh].
    rewrite E1. apply Z.mod_small. lia. }
  assert (Nb : b ^ Q mod p <> 1).
  { intros Hb. unfold b in Hb. rewrite <- Z.pow_mul_r, <- Ed in Hb by lia. assert (D : (p | 1)).
    { rewrite <- E2. apply Z.gcd_greatest; auto. apply Z.mod_divide; [lia|]. rewrite Zminus_mod, Hb. rewrite (Z.mod_small 1) by lia. reflexivity. }
    apply Z.divide_1_r_nonneg in D; lia. }
  destruct (largest_power q (p - 1) ltac:(lia) ltac:(lia) (S e)) as [D|(j & m' & Hj & Em & Nm)].
  { now rewrite Nat2Z.inj_succ, Z.pow_succ_r in D by lia. }
  exfalso. apply Nb. set (J := q ^ Z.of_nat j) in *. assert (HJ : 0 < J) by (apply Z.pow_pos_nonneg; lia). assert (Hm : 0 < m') by nia.
  assert (EQ : q * Q = J * q ^ Z.of_nat (S e - j)).
  { unfold J, Q. rewrite <- Z.pow_succ_r, <- Z.pow_add_r by lia. f_equal. lia. }
  assert (Ec : b ^ J mod p = 1).
  { apply (coprime_exponents (b ^ J) m' (q ^ Z.of_nat (S e - j))); [lia|lia| | | |].
    - apply Z.pow_pos_nonneg; lia.
    - apply rel_prime_sym. generalize (S e - j)%nat. intros i. induction i as [|i IH]; [apply rel_prime_1|].
      rewrite Nat2Z.inj_succ, Z.pow_succ_r by lia. apply rel_prime_sym, rel_prime_mult; apply rel_prime_sym; auto. now apply prime_rel_prime.
    - rewrite <- Z.pow_mul_r, <- Em by lia. apply fermat_unit; auto. intros D. apply Z.mod_divide in D; [|lia].
      rewrite <- pow_mod, D in Eb by lia. rewrite Z.pow_0_l in Eb by nia. rewrite Z.mod_0_l in Eb by lia. lia.
    - rewrite <- Z.pow_mul_r, <- EQ; auto; try lia. }
  assert (HQJ : Q = J * q ^ Z.of_nat (e - j)) by (unfold J, Q; clear - Hj H0; rewrite <- Z.pow_add_r by lia; f_equal; lia).
  rewrite HQJ. clear - Ec HJ H Hj H0. apply pow_one_mod; auto; lia.
Qed.

(** ** As a computation *)
Fixpoint powm (a n : Z) (e : positive) : Z :=
  match e with
  | xH => a mod n
  | xO e' => let x := powm a n e' in (x * x) mod n
  | xI e' => let x := powm a n e' in ((x * x) mod n * a) mod n
  end.
Lemma powm_ok a n e : powm a n e = a ^ Zpos e mod n.
Proof.
  induction e as [e IH|e IH|]; cbn [powm]; cbv zeta.
  - rewrite IH. replace (Zpos (xI e)) with (Zpos e + Zpos e + 1) by lia. rewrite !Z.pow_add_r by lia. rewrite Z.pow_1_r.
    now rewrite <- Zmult_mod, Zmult_mod_idemp_l.
  - rewrite IH. replace (Zpos (xO e)) with (Zpos e + Zpos e) by lia. rewrite Z.pow_add_r by lia. now rewrite <- Zmult_mod.
  - now rewrite Z.pow_1_r.
Qed.
Definition powz (a n e : Z) : Z := match e with Zpos p => powm a n p | _ => 1 mod n end.
Lemma powz_ok a n e : 0 <= e -> powz a n e = a ^ e mod n.
Proof. destruct e as [|p|p]; intros H; cbn [powz]; [reflexivity|apply powm_ok|lia]. Qed.
(** Certificate: a and the (q, e); one power is computed for all q. *)
Definition qs_product (l : list (Z * nat)) : Z := fold_right (fun c r => fst c * r) 1 l.
Definition check_q (n y : Z) (Q : Z) (c : Z * nat) : bool :=
  (0 <? snd c)%nat && ((n - 1) mod (fst c ^ Z.of_nat (snd c)) =? 0) && (Z.gcd (powz y n (Q / fst c) - 1) n =? 1).
Fixpoint distinct (l : list Z) : bool :=
  match l with
  | [] => true
  | x :: r => negb (existsb (Z.eqb x) r) && distinct r
  end.
Definition check (n a : Z) (l : list (Z * nat)) : bool :=
  let Q := qs_product l in
  let y := powz a n ((n - 1) / Q) in
  (1 <? n) && ((n - 1) mod Q =? 0) && (powz y n Q =? 1) && forallb (check_q n y Q) l && distinct (map fst l) &&
  (n <=? (fold_right (fun c r => fst c ^ Z.of_nat (snd c) * r) 1 l) ^ 2).
Lemma powers_dvd m (l : list (Z * nat)) : Forall (fun c => prime (fst c)) l -> distinct (map fst l) = true ->
  Forall (fun c => (fst c ^ Z.of_nat (snd c) | m)) l -> (fold_right (fun c r => fst c ^ Z.of_nat (snd c) * r) 1 l | m).
Proof.
  induction l as [|[q e] l IH]; intros Pl Dl Fl; cbn [fold_right]; [apply Z.divide_1_l|]. inversion Pl; inversion Fl; subst. cbn [fst snd map distinct] in *.
  apply andb_prop in Dl. destruct Dl as [Nq Dl]. specialize (IH H2 Dl H6). destruct IH as (k & Ek). rewrite Ek in H5.
  assert (RP : rel_prime (q ^ Z.of_nat e) (fold_right (fun c r => fst c ^ Z.of_nat (snd c) * r) 1 l)).
  { clear - Nq H1 H2. apply rel_prime_sym. induction e as [|e IHe]; [apply rel_prime_sym, rel_prime_1|].
    rewrite Nat2Z.inj_succ, Z.pow_succ_r by lia. apply rel_prime_mult; [|exact IHe]. clear IHe.
    induction l as [|[q' e'] l IH]; cbn [fold_right fst snd]; [apply rel_prime_1|]. inversion H2; subst. cbn [map existsb fst] in *.
    apply negb_true_iff, orb_false_iff in Nq. destruct Nq as [N1 N2]. apply Z.eqb_neq in N1.
    apply rel_prime_sym, rel_prime_mult; [|apply rel_prime_sym, IH; auto; now rewrite N2].
    clear H2 IH. induction e' as [|e' IHe]; [apply rel_prime_sym, rel_prime_1|]. rewrite Nat2Z.inj_succ, Z.pow_succ_r by lia. apply rel_prime_mult; [|exact IHe].
    apply prime_rel_prime; auto. intros D. apply prime_div_prime in D; auto. }
  rewrite Z.mul_comm in H5. apply Gauss in H5; [|exact RP]. destruct H5 as (h & Eh). exists h. rewrite Ek, Eh. ring.
Qed.
Theorem check_prime n a (l : list (Z * nat)) : check n a l = true -> Forall (fun c => prime (fst c)) l -> prime n.
Proof.
  unfold check. cbv zeta. set (Q := qs_product l). set (y := powz a n ((n - 1) / Q)). intros H Pl.
  repeat (apply andb_prop in H; destruct H as [H ?]). rename H into Hn, H4 into HQ, H3 into Hy, H2 into Hc, H1 into Hd, H0 into Hf.
  apply Z.ltb_lt in Hn. apply Z.eqb_eq in HQ, Hy. apply Z.leb_le in Hf. rewrite forallb_forall in Hc.
  assert (Q0 : 0 < Q).
  { unfold Q. clear - Pl. induction Pl as [|c l P Pl IH]; [cbn; lia|]. cbn [qs_product fold_right]. fold (qs_product l). pose proof (prime_ge_2 _ P). nia. }
  assert (E0 : 0 <= (n - 1) / Q) by (apply Z.div_pos; lia).
  assert (EQ : n - 1 = (n - 1) / Q * Q) by (pose proof (Z.div_mod (n - 1) Q); lia).
  assert (Ey : forall k, 0 <= k -> powz y n k = a ^ ((n - 1) / Q * k) mod n).
  { intros k Hk. rewrite powz_ok by auto. unfold y. rewrite powz_ok by auto. rewrite pow_mod by lia. now rewrite <- Z.pow_mul_r by lia. }
  assert (A1 : a ^ (n - 1) mod n = 1) by (rewrite EQ, <- Ey by lia; exact Hy).
  assert (K : forall p, prime p -> (p | n) -> (fold_right (fun c r => fst c ^ Z.of_nat (snd c) * r) 1 l | p - 1)).
  { intros p Pp Dp. apply powers_dvd; auto. apply Forall_forall. intros [q e] Hin. cbn [fst snd].
    assert (Hce := Hc _ Hin). unfold check_q in Hce. cbn [fst snd] in Hce. repeat (apply andb_prop in Hce; destruct Hce as [Hce ?]).
    apply Nat.ltb_lt in Hce. apply Z.eqb_eq in H0, H. rewrite Forall_forall in Pl. assert (Pq := Pl _ Hin). cbn [fst] in Pq.
    assert (Hq2 := prime_ge_2 _ Pq). apply Z.mod_divide in H0; [|apply Z.pow_nonzero; lia].
    assert (DQ : (q | Q)).
    { unfold Q. clear - Hin. induction l as [|c l IH]; [contradiction|]. cbn [qs_product fold_right]. fold (qs_product l). destruct Hin as [->|Hin].
      - cbn [fst]. apply Z.divide_factor_l.
      - apply Z.divide_mul_r. auto. }
    destruct DQ as (h & Eh).
    apply (pocklington_step n p q e a); auto.
    rewrite Ey in H by (apply Z.div_pos; lia). 
    assert (Ex : (n - 1) / Q * (Q / q) = (n - 1) / q).
    { rewrite EQ at 2. generalize ((n - 1) / Q). intros z. rewrite Eh. rewrite Z.div_mul by lia.
      replace (z * (h * q)) with (z * h * q) by ring. now rewrite Z.div_mul by lia. }
    rewrite Ex in H. etransitivity; [|exact H]. set (z := a ^ ((n - 1) / q)).
    replace (z - 1) with ((z mod n - 1) + (z / n) * n) by (pose proof (Z.div_mod z n); lia).
    rewrite (Z.gcd_comm _ n), (Z.gcd_comm _ n). apply Z.gcd_add_mult_diag_r. }
  destruct (prime_dec n) as [Pn|Pn]; auto. exfalso.
  destruct (not_prime_divide n Hn Pn) as (m & Hm & k & Ek).
  set (f := fold_right (fun c r => fst c ^ Z.of_nat (snd c) * r) 1 l) in *.
  assert (Big : forall d, 1 < d -> (d | n) -> f < d).
  { clear Hd. intros d Hd Dd. assert (P : exists p, prime p /\ (p | d)).
    { clear - Hd. assert (G : forall b, 0 <= b -> forall d, 1 < d <= b -> exists p, prime p /\ (p | d)).
      { intros b Hb. pattern b. apply natlike_ind; auto; [intros; lia|]. intros x Hx IH d0 Hd0. destruct (prime_dec d0) as [P|P]; [exists d0; split; auto; apply Z.divide_refl|].
        destruct (not_prime_divide d0 ltac:(lia) P) as (m & Hm & D). destruct (IH m ltac:(lia)) as (p & P1 & P2). exists p. split; auto. eapply Z.divide_trans; eauto. }
      apply (G d); lia. }
    destruct P as (p & Pp & Dp). assert (D := K p Pp (Z.divide_trans _ _ _ Dp Dd)). pose proof (prime_ge_2 p Pp).
    apply Z.divide_pos_le in D; [|lia]. apply Z.divide_pos_le in Dp; lia. }
  assert (B1 := Big m ltac:(lia) ltac:(exists k; exact Ek)). assert (B2 := Big k ltac:(nia) ltac:(exists m; lia)).
  assert (F0 : 0 <= f).
  { unfold f. clear - Pl. induction Pl as [|c l P Pl IH]; cbn [fold_right]; [lia|]. pose proof (prime_ge_2 _ P).
    apply Z.mul_nonneg_nonneg; auto. apply Z.pow_nonneg. lia. }
  rewrite Z.pow_2_r in Hf. nia.
Qed.
