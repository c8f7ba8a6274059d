(** expand_message_xmd and hash-to-field: proofs. *)
From Coq Require Import NArith Arith List Bool Lia ZifyBool ZifyNat ZifyN ZArith.
From Verif Require Import SpecStream LStream MPack MAcc SpecOctets LGen SpecWords SpecOctetHash SpecXmd MXmd SpecXmdHist LArith.
Import ListNotations.
Ltac Zify.zify_post_hook ::= Z.div_mod_to_equations.

Lemma hash_pieces_app C inj ps qs : forall a,
  hash_pieces C inj a (ps ++ qs) = bind (hash_pieces C inj a ps) (fun a => hash_pieces C inj a qs).
Proof.
  induction ps as [|[vb xs] ps IH]; intros a; [reflexivity|]. cbn [hash_pieces app].
  destruct (hash_into C inj vb a xs); [apply IH|reflexivity].
Qed.
Lemma pieces_octets_app h ps qs : pieces_octets h (ps ++ qs) = pieces_octets h ps ++ pieces_octets h qs.
Proof. unfold pieces_octets. now rewrite flat_map_app. Qed.

Lemma skipn_twice {A} (l : list A) : forall n m, skipn n (skipn m l) = skipn (m + n) l.
Proof.
  induction l as [|x l IH]; intros n m; [now rewrite !skipn_nil|]. destruct m; [reflexivity|]. apply IH.
Qed.
Section X.
Context (C : construction) (inj : injector) (H : list N -> list N).
Context (OH : octet_hash C inj H).
Notation h := (c_host C).

(** The accumulator after some pieces. *)
Definition fed (a : acc C) (os : list N) : Prop :=
  exists junk ps, block_ok (c_word C) (c_words C) junk /\ Forall (piece_ok C) ps /\
    hash_pieces C inj (acc_init C junk) ps = Some a /\ pieces_octets h ps = os.
Definition short (os : list N) : Prop := (N.of_nat (8 * length os) < 2 ^ 64)%N.

Lemma fed_init junk : block_ok (c_word C) (c_words C) junk -> fed (acc_init C junk) [].
Proof. intros Hj. exists junk, []. split; [exact Hj|]. split; [constructor|]. split; reflexivity. Qed.

Lemma fed_into a os vb xs : fed a os -> piece_ok C (vb, xs) -> short (os ++ range_octets h vb xs) ->
  exists a', hash_into C inj vb a xs = Some a' /\ fed a' (os ++ range_octets h vb xs).
Proof.
  intros (junk & ps & Hj & HP & E & EO) Hp S. destruct OH as (_ & _ & _ & _ & O).
  assert (EP : pieces_octets h (ps ++ [(vb, xs)]) = os ++ range_octets h vb xs).
  { rewrite pieces_octets_app, EO. unfold pieces_octets. cbn. now rewrite app_nil_r. }
  destruct (O junk (ps ++ [(vb, xs)])) as (a' & E' & _); auto.
  { apply Forall_app. auto. }
  { rewrite EP. exact S. }
  assert (E2 := E'). rewrite hash_pieces_app, E in E2. cbn [bind hash_pieces] in E2.
  destruct (hash_into C inj vb a xs) as [a1|] eqn:E1; [|discriminate]. injection E2 as ->.
  exists a'. split; [reflexivity|]. exists junk, (ps ++ [(vb, xs)]).
  split; [exact Hj|]. split; [apply Forall_app; auto|]. split; [exact E'|exact EP].
Qed.
Lemma piece8 os : Forall (fits 8) os -> piece_ok C (8, os).
Proof. intros F. destruct OH as (O1 & O2 & _). repeat split; auto; cbn; lia. Qed.
Lemma fed_octets a os xs : fed a os -> Forall (fits 8) xs -> short (os ++ xs) ->
  exists a', hash_octets C inj a xs = Some a' /\ fed a' (os ++ xs).
Proof.
  intros Fa Fx S. destruct OH as (_ & _ & _ & O & _).
  destruct (fed_into a os 8 xs) as (a' & E' & F'); auto.
  - now apply piece8.
  - now rewrite (range_octets_8 C O xs) by auto.
  - rewrite (range_octets_8 C O xs) in F' by auto. eauto.
Qed.
Lemma fed_result a os : fed a os -> short os -> acc_result C a = Some (H os).
Proof.
  intros (junk & ps & Hj & HP & E & EO) S. destruct OH as (_ & _ & _ & _ & O).
  destruct (O junk ps) as (a' & E' & R); auto; [now rewrite EO|]. congruence.
Qed.
Lemma short_le os os' : length os' <= length os -> short os -> short os'.
Proof. unfold short. lia. Qed.

Lemma fits_octet x : fits 8 (x mod 256)%N.
Proof. unfold fits. change (2 ^ N.of_nat 8)%N with 256%N. lia. Qed.

Context (r b : nat).
Context (HL : forall os, length (H os) = b) (HF : forall os, Forall (fits 8) (H os)).
Context (b_pos : 0 < b) (Hb : (N.of_nat b < 2 ^ 60)%N).
Context (junks : nat -> list N) (HJ : forall i, block_ok (c_word C) (c_words C) (junks i)).
Context (dst : list N) (HD : Forall (fits 8) dst) (D16 : 16 <= length dst <= 255).

Lemma octet_I2OSP i : i < 256 -> [(N.of_nat i mod 256)%N] = I2OSP i 1.
Proof. intros L. reflexivity. Qed.

Lemma bi_digest_ok i x : length x = b -> Forall (fits 8) x -> i < 256 ->
  bi_digest C inj (junks i) x i dst = Some (H (x ++ I2OSP i 1 ++ DST_prime dst)).
Proof.
  intros Lx Fx Hi. unfold bi_digest.
  assert (S : short (x ++ I2OSP i 1 ++ DST_prime dst)).
  { unfold short, DST_prime, I2OSP. rewrite !app_length, Lx, !rev_length. cbn [octets_le length]. lia. }
  destruct (fed_octets (acc_init C (junks i)) [] x) as (a1 & E1 & F1); auto using fed_init.
  { eapply short_le; [|exact S]. rewrite !app_length. cbn [length]. lia. }
  rewrite E1. cbn [bind app] in *.
  destruct (fed_octets a1 x [(N.of_nat i mod 256)%N]) as (a2 & E2 & F2); auto.
  { constructor; [apply fits_octet|constructor]. }
  { eapply short_le; [|exact S]. rewrite !app_length. cbn. lia. }
  rewrite E2. cbn [bind].
  destruct (fed_octets a2 _ dst F2) as (a3 & E3 & F3); auto.
  { eapply short_le; [|exact S]. unfold DST_prime. rewrite !app_length. cbn. lia. }
  rewrite E3. cbn [bind].
  destruct (fed_octets a3 _ [(N.of_nat (length dst) mod 256)%N] F3) as (a4 & E4 & F4); auto.
  { constructor; [apply fits_octet|constructor]. }
  { eapply short_le; [|exact S]. unfold DST_prime. rewrite !app_length. cbn. lia. }
  rewrite E4. cbn [bind].
  assert (EO : ((x ++ [(N.of_nat i mod 256)%N]) ++ dst) ++ [(N.of_nat (length dst) mod 256)%N] =
    x ++ I2OSP i 1 ++ DST_prime dst).
  { rewrite (octet_I2OSP i) by lia. rewrite (octet_I2OSP (length dst)) by lia. unfold DST_prime. now rewrite <- !app_assoc. }
  rewrite (fed_result a4 _ F4); rewrite EO; auto.
Qed.

Lemma xor_octets_ok x y : Forall (fits 8) x -> Forall (fits 8) y -> Forall (fits 8) (xor_octets x y).
Proof.
  intros Fx. revert y. unfold xor_octets. induction Fx as [|a x Ha Fx IH]; intros y Fy; [constructor|].
  destruct Fy as [|c y Hc Fy]; [constructor|]. cbn. constructor; [|now apply IH].
  unfold fits in *. apply LArith.lxor_fits; auto.
Qed.
Lemma xor_octets_length x y : length x = length y -> length (xor_octets x y) = length x.
Proof. intros L. unfold xor_octets. rewrite map_length, combine_length. lia. Qed.

Lemma copy_at_next done x rest : copy_at (done ++ rest) (length done) x =
  if length x <=? length rest then Some ((done ++ x) ++ skipn (length x) rest) else None.
Proof.
  unfold copy_at. rewrite app_length.
  destruct (Nat.leb_spec (length done + length x) (length done + length rest)), (Nat.leb_spec (length x) (length rest)); try lia; [|reflexivity].
  f_equal. rewrite firstn_app, firstn_all, Nat.sub_diag, firstn_O, app_nil_r.
  rewrite skipn_app. rewrite skipn_all2 by lia. cbn [app]. replace (length done + length x - length done) with (length x) by lia.
  now rewrite app_assoc.
Qed.

Lemma xmd_loop_ok b0 : length b0 = b -> Forall (fits 8) b0 ->
  forall n i bi don rest, length bi = b -> Forall (fits 8) bi -> length don = (i * b) -> i + n < 256 ->
  1 <= i ->
  xmd_loop C inj b junks b0 dst n (S i) bi (don ++ rest) =
  if n * b <=? length rest then Some (don ++ concat (more_b H dst b0 n i bi) ++ skipn (n * b) rest) else None.
Proof.
  intros L0 F0 n. induction n as [|n IH]; intros i bi don rest Lb Fb Ld Li H1.
  - reflexivity.
  - cbn [xmd_loop more_b concat].
    unfold strxor_digests. rewrite L0, Lb, Nat.eqb_refl. cbn [bind].
    fold (xor_octets b0 bi). rewrite bi_digest_ok; auto; try lia.
    2:{ rewrite xor_octets_length; lia. } 2:{ now apply xor_octets_ok. }
    cbn [bind]. set (x := H _). replace ((S i - 1) * b) with (length don) by lia.
    rewrite copy_at_next. assert (Lx : length x = b) by apply HL. rewrite Lx.
    destruct (Nat.leb_spec b (length rest)).
    + cbn [bind]. rewrite IH; auto; try lia; [|apply HF|rewrite app_length; lia].
      rewrite skipn_length.
      destruct (Nat.leb_spec (n * b) (length rest - b)), (Nat.leb_spec (S n * b) (length rest)); try lia; [|reflexivity].
      rewrite <- !app_assoc. rewrite skipn_twice. reflexivity.
    + cbn [bind]. destruct (Nat.leb_spec (S n * b) (length rest)); [lia|reflexivity].
Qed.

Lemma more_b_length b0 n : forall i bi, length (concat (more_b H dst b0 n i bi)) = n * b.
Proof. induction n as [|n IH]; intros; cbn [more_b concat]; [reflexivity|]. rewrite app_length, HL, IH. lia. Qed.

Notation suffix := (left_behind dst).

Lemma l_i_b len : (N.of_nat len < 0x10000)%N -> l_i_b_str len = I2OSP len 2.
Proof.
  intros L. unfold l_i_b_str, I2OSP. cbn [octets_le rev app]. f_equal. rewrite N.shiftr_div_pow2. reflexivity.
Qed.

Lemma process_ok k len buf a msg :
  fed a (repeat 0%N r ++ msg) -> accepted b k len = true -> length buf = len ->
  short (msg_prime r msg dst len) ->
  if (len mod b =? 0) && negb (len =? 0) then
    exists a', xmd_process C inj b junks len dst buf a = Some (expand_message_xmd H b r msg dst len, a') /\
      fed a' (repeat 0%N r ++ msg ++ suffix len)
  else xmd_process C inj b junks len dst buf a = None.
Proof.
  intros Fa HA Lb S. unfold accepted in HA.
  apply andb_prop in HA. destruct HA as [HA A3]. apply andb_prop in HA. destruct HA as [A1 A2].
  assert (L16 : (N.of_nat len < 0x10000)%N) by lia. clear A1 A2.
  unfold xmd_process.
  replace (negb ((16 <=? length dst) && (length dst <=? 255))) with false by lia.
  assert (F2 : Forall (fits 8) (l_i_b_str len)) by (repeat constructor; apply fits_octet).
  unfold msg_prime in S. unfold left_behind.
  destruct (fed_octets a _ (l_i_b_str len) Fa) as (a1 & E1 & Fd1); auto.
  { eapply short_le; [|exact S]. rewrite l_i_b by auto. rewrite !app_length. lia. }
  rewrite E1. cbn [bind].
  destruct (fed_octets a1 _ [0%N] Fd1) as (a2 & E2 & Fd2).
  { repeat constructor. }
  { eapply short_le; [|exact S]. rewrite l_i_b by auto. rewrite !app_length. cbn. lia. }
  rewrite E2. cbn [bind].
  destruct (fed_octets a2 _ dst Fd2) as (a3 & E3 & Fd3); auto.
  { eapply short_le; [|exact S]. rewrite l_i_b by auto. unfold DST_prime. rewrite !app_length. cbn. lia. }
  rewrite E3. cbn [bind].
  destruct (fed_octets a3 _ [(N.of_nat (length dst) mod 256)%N] Fd3) as (a4 & E4 & Fd4); auto.
  { repeat constructor. apply fits_octet. }
  { eapply short_le; [|exact S]. rewrite l_i_b by auto. unfold DST_prime. rewrite !app_length. cbn. lia. }
  rewrite E4. cbn [bind].
  assert (EO : ((((repeat 0%N r ++ msg) ++ l_i_b_str len) ++ [0%N]) ++ dst) ++ [(N.of_nat (length dst) mod 256)%N] =
    repeat 0%N r ++ msg ++ I2OSP len 2 ++ I2OSP 0 1 ++ DST_prime dst).
  { rewrite l_i_b by auto. rewrite (octet_I2OSP (length dst)) by lia. unfold DST_prime. rewrite <- !app_assoc. reflexivity. }
  rewrite EO in Fd4. rewrite (fed_result a4 _ Fd4) by exact S. cbn [bind].
  set (b0 := H (repeat 0%N r ++ _)).
  (* the number of blocks *)
  assert (Ell : ell b len = ceil_div len b).
  { unfold ell, ceil_div. destruct (Nat.eqb_spec (len mod b) 0).
    - rewrite Nat.add_0_r. apply Nat.div_unique with (r := b - 1); [lia|].
      pose proof (Nat.div_mod len b ltac:(lia)). lia.
    - apply Nat.div_unique with (r := len mod b - 1); pose proof (Nat.mod_upper_bound len b ltac:(lia));
      pose proof (Nat.div_mod len b ltac:(lia)); lia. }
  rewrite bi_digest_ok; auto; try apply HL; try apply HF; try lia. cbn [bind].
  set (b1 := H (b0 ++ _)).
  rewrite (copy_at_next [] b1 buf : copy_at buf 0 b1 = _).
  assert (L1 : length b1 = b) by apply HL. rewrite L1.
  destruct (Nat.leb_spec b (length buf)) as [Kb|Kb].
  2:{ cbn [bind]. replace ((len mod b =? 0) && negb (len =? 0)) with false; [reflexivity|].
      rewrite Nat.mod_small by lia. lia. }
  cbn [bind app].
  rewrite (xmd_loop_ok b0); try apply HL; try apply HF; auto; try lia.
  rewrite skipn_length, Lb.
  rewrite Ell in *. assert (EC : ceil_div len b * b = len + (if len mod b =? 0 then 0 else b - len mod b)).
  { rewrite <- Ell. unfold ell. pose proof (Nat.div_mod len b ltac:(lia)). pose proof (Nat.mod_upper_bound len b ltac:(lia)).
    destruct (len mod b =? 0) eqn:?; lia. }
  assert (C1 : 1 <= ceil_div len b) by (destruct (ceil_div len b); [destruct (len mod b =? 0); lia|lia]).
  assert (EM : (ceil_div len b - 1) * b = ceil_div len b * b - b) by (destruct (ceil_div len b); lia).
  rewrite EM, EC.
  destruct (Nat.eqb_spec (len mod b) 0) as [E0|E0].
  - replace (negb (len =? 0)) with true by lia. cbn [andb].
    destruct (Nat.leb_spec (len + 0 - b) (len - b)); [|lia]. cbn [bind]. exists a4. split; [|exact Fd4].
    f_equal. f_equal. rewrite skipn_twice. rewrite (skipn_all2 buf) by lia. rewrite app_nil_r.
    unfold expand_message_xmd. fold (msg_prime r msg dst len) in b0. cbn zeta. unfold msg_prime. fold b0. fold b1. cbn [concat].
    symmetry. apply firstn_all2. rewrite app_length, L1, more_b_length. lia.
  - cbn [andb]. pose proof (Nat.mod_upper_bound len b ltac:(lia)).
    destruct (Nat.leb_spec (len + (b - len mod b) - b) (len - b)); [lia|]. reflexivity.
Qed.

End X.

Section Y.
Context (C : construction) (inj : injector) (H : list N -> list N) (r b : nat).
Context (OH : octet_hash C inj H).
Notation h := (c_host C).
Context (HL : forall os, length (H os) = b) (HF : forall os, Forall (fits 8) (H os)).
Context (b_pos : 0 < b) (Hb : (N.of_nat b < 2 ^ 60)%N).
Context (dst : list N) (HD : Forall (fits 8) dst) (D16 : 16 <= length dst <= 255).
Context (k len : nat) (HA : accepted b k len = true).

Lemma init_ok junk : input_block_octets C r -> block_ok (c_word C) (c_words C) junk -> short (repeat 0%N r) ->
  exists a, xmd_init C inj junk = Some a /\ fed C inj a (repeat 0%N r).
Proof.
  intros Hr Hj S. unfold xmd_init, r_in_bytes. unfold input_block_octets in Hr.
  rewrite Hr, Nat.mul_comm, Nat.div_mul by discriminate. apply (fed_octets C inj H OH (acc_init C junk) []); auto.
  - now apply fed_init.
  - apply Forall_forall. intros x Hx. apply repeat_spec in Hx. subst. reflexivity.
Qed.

Context (Hmul : len mod b = 0) (Hpos : 0 < len).

Lemma run_from ops : forall a msg, fed C inj a (repeat 0%N r ++ msg) -> Forall (xop_ok C len) ops ->
  short (repeat 0%N r ++ msg ++ absorbed h (left_behind dst len) ops) ->
  xmd_run C inj b len dst a ops = Some (outputs h (fun m => expand_message_xmd H b r m dst len) (left_behind dst len) msg ops).
Proof.
  induction ops as [|[vb xs|js buf] ops IH]; intros a msg Fa HO S; [reflexivity| |];
    inversion HO as [|? ? Ho HO']; subst; cbn [xmd_run outputs absorbed flat_map] in *; fold (absorbed h (left_behind dst len) ops) in S.
  - unfold xmd_update. destruct (fed_into C inj H OH a _ vb xs Fa Ho) as (a' & E & F').
    { eapply short_le; [|exact S]. rewrite !app_length. lia. }
    rewrite E. cbn [bind]. rewrite <- app_assoc in F'. apply IH; auto. now rewrite <- app_assoc.
  - destruct Ho as [HJ LB].
    pose proof (process_ok C inj H OH r b HL HF b_pos Hb js HJ dst HD D16 k len buf a msg Fa HA LB) as P.
    replace ((len mod b =? 0) && negb (len =? 0)) with true in P by lia.
    destruct P as (a' & E & F').
    { eapply short_le; [|exact S]. unfold msg_prime, left_behind. rewrite !app_length. lia. }
    rewrite E. cbn [bind snd fst]. rewrite (IH a' (msg ++ left_behind dst len)); auto.
    now rewrite <- !app_assoc.
Qed.
End Y.

Section Z.
Context (C : construction) (inj : injector) (H : list N -> list N) (r b : nat).
Context (p : N) (m L count : nat) (dst : list N).
Notation h := (c_host C).

Definition fields (u : list N) : list (list N) :=
  map (fun i => map (fun j => (be_value (firstn L (skipn (L * (j + i * m)) u)) mod p)%N) (seq 0 m)) (seq 0 count).
Lemma h2f_process_is junks buf a :
  h2f_process C inj b p m L count junks dst buf a =
  bind (xmd_process C inj b junks (count * m * L) dst buf a) (fun q => Some (fields (fst q), snd q)).
Proof. unfold h2f_process, fields. destruct (xmd_process _ _ _ _ _ _ _ _) as [[u a']|]; reflexivity. Qed.
Lemma h2f_run_is ops : forall a,
  h2f_run C inj b p m L count dst a ops = bind (xmd_run C inj b (count * m * L) dst a ops) (fun us => Some (map fields us)).
Proof.
  induction ops as [|[vb xs|js buf] ops IH]; intros a; [reflexivity| |]; cbn [h2f_run xmd_run].
  - destruct (xmd_update C inj vb a xs); [apply IH|reflexivity].
  - rewrite h2f_process_is. destruct (xmd_process _ _ _ _ _ _ _ _) as [[u a']|]; [|reflexivity].
    cbn [bind snd fst]. rewrite IH. destruct (xmd_run _ _ _ _ _ _ _); reflexivity.
Qed.
Lemma outputs_map {A B} (F : list N -> A) (g : A -> B) left ops : forall msg,
  outputs h (fun x => g (F x)) left msg ops = map g (outputs h F left msg ops).
Proof. induction ops as [|[vb xs|js buf] ops IH]; intros msg; cbn; rewrite ?IH; reflexivity. Qed.
Lemma fields_spec msg : fields (expand_message_xmd H b r msg dst (count * m * L)) = hash_to_field H b r p m L count msg dst.
Proof. reflexivity. Qed.
Lemma hash_to_field_range msg : (p <> 0)%N -> Forall (fun cs => length cs = m /\ Forall (fun x => (x < p)%N) cs) (hash_to_field H b r p m L count msg dst)
  /\ length (hash_to_field H b r p m L count msg dst) = count.
Proof.
  intros Hp. unfold hash_to_field. split; [|now rewrite map_length, seq_length].
  apply Forall_map, Forall_forall. intros i _. split; [now rewrite map_length, seq_length|].
  apply Forall_map, Forall_forall. intros j _. now apply N.mod_lt.
Qed.
End Z.
