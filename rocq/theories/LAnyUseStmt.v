(** Merkle-Damgard objects in every program: whole messages one after the other. *)
From Coq Require Import NArith Arith List Bool Lia ZifyBool ZifyNat ZifyN ZArith.
From Verif Require Import SpecStream LStream SpecWords LWords SpecMD SpecMDOctets LMDStmt LGen LMDOctets LExtend MPack MAcc SpecCollide SpecStore
  SpecObject MObject MObjects SpecAnyUse LAnyUse.
Import ListNotations.
Ltac Zify.zify_post_hook ::= Z.div_mod_to_equations.

Lemma shape inj o h : object_of inj o h -> 0 < word h /\ 0 < block h /\ fits 8 (mark h).
Proof. intros H; destruct H; cbn [word block mark dm rmd]; repeat split; lia. Qed.

Lemma returns_same h cs : forall P Q, (forall i, P i = Q i) -> returns h P cs = returns h Q cs.
Proof.
  assert (PUT : forall i (x : list N) P Q, (forall j, P j = Q j) -> forall j, put i x P j = put i x Q j).
  { intros i x P Q H j. unfold put. destruct (j =? i); auto. }
  induction cs as [|c cs IH]; intros P Q H; [reflexivity|]. destruct c; cbn [returns]; rewrite <- ?H;
    repeat match goal with |- match ?x with _ => _ end = match ?x with _ => _ end => destruct x; try reflexivity end;
    try (apply f_equal); apply IH, PUT; exact H.
Qed.

Lemma skipn_fit {A} (Q : A -> Prop) k l : Forall Q l -> Forall Q (skipn k l).
Proof. intros H. rewrite <- (firstn_skipn k l) in H. now apply Forall_app in H. Qed.

Section S.
Context (h : published) (Hn : 0 < word h) (Hb : 0 < block h) (Hm : fits 8 (mark h)).
Notation n := (word h).
Notation r := (word h * block h).

Lemma r_pos : 0 < r. Proof. apply Nat.mul_pos_pos; assumption. Qed.
Lemma zeros_fit k : Forall (fits 8) (repeat 0%N k).
Proof. apply Forall_forall. intros x Hx. apply repeat_spec in Hx. subst. reflexivity. Qed.

Lemma block_of_octets os : Forall (fits 8) os -> length os <= r ->
  length (block_of h os) = block h /\ Forall (fits (8 * n)) (block_of h os) /\
  to_octets (big h) n (block_of h os) = os ++ repeat 0%N (r - length os).
Proof.
  intros F L. unfold block_of. set (x := os ++ repeat 0%N (r - length os)).
  assert (Fx : Forall (fits 8) x) by (apply Forall_app; split; [exact F|apply zeros_fit]).
  assert (Lx : length x = r) by (unfold x; rewrite app_length, repeat_length; lia).
  destruct (to_words_ok (big h) n (block h) Hn Hb x Lx Fx) as [A B]. split; [exact A|]. split; [exact B|].
  apply octets_bits_inj; [apply to_octets_fits|exact Fx|]. rewrite (to_octets_stream (big h)).
  rewrite <- (to_words_stream (big h) n Hn x Fx).
  apply stream_words_of_stream; [rewrite Nat.mul_comm; apply Nat.mod_mul; discriminate|lia|].
  rewrite octets_bits_length, Lx, Nat.mul_mod_distr_l by lia. rewrite (Nat.mul_comm (word h) (block h)), Nat.mod_mul by lia. reflexivity.
Qed.

Lemma used from (m : list N) : from mod r = 0 -> (from = 0 \/ m <> []) -> length m <= r ->
  octets_used h (N.of_nat (8 * (from + length m))) = length m.
Proof.
  intros H0 H1 H2. unfold octets_used.
  destruct (N.eqb_spec (N.of_nat (8 * (from + length m))) 0) as [E|E].
  - lia.
  - cbv zeta. replace (N.of_nat (8 * (from + length m)) / 8)%N with (N.of_nat (from + length m)) by lia.
    rewrite <- Nnat.Nat2N.inj_mod, Nat2N.id. rewrite <- Nat.add_mod_idemp_l, H0, Nat.add_0_l by (pose proof r_pos; lia).
    assert (length m <> 0) by (destruct H1 as [->|H1]; [lia|destruct m; [congruence|discriminate]]).
    destruct (Nat.eq_dec (length m) r) as [->|NE].
    + rewrite Nat.mod_same by (pose proof r_pos; lia). reflexivity.
    + rewrite Nat.mod_small by lia. destruct (Nat.eqb_spec (length m) 0); [contradiction|reflexivity].
Qed.

Lemma message_returns fuel i cs : forall m P from slots, length m < fuel -> from mod r = 0 -> (from = 0 \/ m <> []) ->
  Forall (fits 8) m -> slots i = Some P ->
  let P' := P ++ m ++ ending h (N.of_nat (8 * (from + length m))) in
  returns h slots (message_calls h fuel i from m ++ cs) =
  option_map (cons (i, output h (chained h (init h) P'))) (returns h (put i P' slots) cs).
Proof.
  induction fuel as [|fuel IH]; intros m P from slots Hf H0 H1 F Hi P'; [lia|]. pose proof r_pos as Hr. cbn [message_calls].
  destruct (Nat.leb_spec (length m) r) as [L|L].
  - cbn [app returns]. rewrite Hi. destruct (block_of_octets m F L) as (_ & _ & E).
    assert (EF : finished h (block_of h m) (N.of_nat (8 * (from + length m))) = m ++ ending h (N.of_nat (8 * (from + length m)))).
    { unfold finished. rewrite used by assumption. rewrite E. rewrite firstn_app_exact by reflexivity. reflexivity. }
    rewrite EF. reflexivity.
  - cbn [app returns]. rewrite Hi.
    assert (LF : length (firstn r m) = r) by (rewrite firstn_length; lia).
    assert (FF : Forall (fits 8) (firstn r m)) by now apply Forall_firstn'.
    assert (FS : Forall (fits 8) (skipn r m)) by now apply skipn_fit.
    destruct (block_of_octets (firstn r m) FF ltac:(lia)) as (_ & _ & E). rewrite E, LF, Nat.sub_diag, app_nil_r.
    assert (LS : length (skipn r m) = length m - r) by apply skipn_length.
    rewrite (IH (skipn r m) (P ++ firstn r m) (from + r)).
    + replace (from + r + length (skipn r m)) with (from + length m) by lia.
      replace ((P ++ firstn r m) ++ skipn r m ++ ending h (N.of_nat (8 * (from + length m)))) with P'.
      2:{ unfold P'. rewrite <- (firstn_skipn r m) at 1. rewrite <- !app_assoc. reflexivity. }
      apply f_equal. apply returns_same. intros j. unfold put. now destruct (j =? i).
    + lia.
    + rewrite <- Nat.add_mod_idemp_l, H0 by lia. apply Nat.mod_same. lia.
    + right. intros X. rewrite X in LS. cbn [length] in LS. lia.
    + exact FS.
    + unfold put. now rewrite Nat.eqb_refl.
Qed.

Lemma calls_ok fuel i : forall m from, Forall (fits 8) m -> (N.of_nat (8 * (from + length m)) < 2 ^ 64)%N ->
  Forall (octet_arguments (8 * n) (block h)) (message_calls h fuel i from m).
Proof.
  induction fuel as [|fuel IH]; intros m from F Ht; [constructor|]. cbn [message_calls].
  destruct (Nat.leb_spec (length m) r) as [L|L].
  - destruct (block_of_octets m F L) as (A & B & _). constructor; [|constructor]. split; [cbn [arguments_ok]; auto|].
    clear Ht. rewrite Nat2N.inj_mul. change (N.of_nat 8) with 8%N. rewrite N.mul_comm. apply N.mod_mul. discriminate.
  - assert (FF : Forall (fits 8) (firstn r m)) by now apply Forall_firstn'.
    assert (LF : length (firstn r m) = r) by (rewrite firstn_length; lia).
    destruct (block_of_octets (firstn r m) FF ltac:(lia)) as (A & B & _). constructor.
    + split; [|exact I]. cbn [arguments_ok]. split; [exact A|]. split; [exact B|].
      eapply N.le_lt_trans; [|exact Ht]. clear Ht. lia.
    + apply IH; [now apply skipn_fit|]. rewrite skipn_length.
      replace (from + r + (length m - r)) with (from + length m) by lia. exact Ht.
Qed.

Lemma ending_padded m : m ++ ending h (N.of_nat (8 * length m)) = padded (big h) n (block h) (len_field h) (mark h) m.
Proof.
  pose proof r_pos as Hr. unfold ending, padded, length_field. cbv zeta. do 3 f_equal. f_equal. unfold pad_zeros. do 2 f_equal.
  unfold octets_used. destruct (N.eqb_spec (N.of_nat (8 * length m)) 0) as [E|E].
  - assert (length m = 0) as -> by lia. reflexivity.
  - replace (N.of_nat (8 * length m) / 8)%N with (N.of_nat (length m)) by lia.
    rewrite <- Nnat.Nat2N.inj_mod, Nat2N.id. cbv zeta.
    rewrite <- !Nat.add_assoc, <- (Nat.add_mod_idemp_l (length m)) by lia.
    destruct (Nat.eqb_spec (length m mod r) 0) as [->|_]; [|reflexivity].
    rewrite <- Nat.add_mod_idemp_l, Nat.mod_same by lia. reflexivity.
Qed.
Lemma chained_app iv a b : length a mod r = 0 -> chained h iv (a ++ b) = chained h (chained h iv a) b.
Proof. intros H. unfold chained. rewrite chunks_app by (auto using r_pos). now rewrite map_app, fold_left_app. Qed.
Lemma chained_padded iv m : chained h iv (padded (big h) n (block h) (len_field h) (mark h) m) = fold_left (compress h) (message_blocks h m) iv.
Proof. reflexivity. Qed.
End S.

Lemma two_messages inj o h i m1 m2 from : object_of inj o h ->
  injector_contract (if big h then BOBB else LOBB) (8 * word h) (block h) inj ->
  Forall (fits 8) m1 -> Forall (fits 8) m2 -> (N.of_nat (8 * length m1) < 2 ^ 64)%N -> (N.of_nat (8 * (from + length m2)) < 2 ^ 64)%N ->
  from mod (word h * block h) = 0 -> (from = 0 \/ m2 <> []) ->
  let p := padded (big h) (word h) (block h) (len_field h) (mark h) m1 in
  object_calls o (fun s => s) nothing (New i :: hash_calls h i 0 m1 ++ hash_calls h i from m2) =
  Some [(i, output h (final_state h m1)); (i, output h (chained h (init h) (p ++ m2 ++ ending h (N.of_nat (8 * (from + length m2))))))].
Proof.
  intros HO HI F1 F2 L1 L2 H0 H1 p. destruct (shape _ _ _ HO) as (Hn & Hb & Hm).
  rewrite (every_program inj o h HO HI).
  2:{ constructor; [split; exact I|]. apply Forall_app. split; apply calls_ok; auto. }
  cbn [returns]. unfold hash_calls.
  rewrite (message_returns h Hn Hb (S (length m1)) i _ m1 [] 0); auto; try lia.
  2:{ apply Nat.mod_0_l. pose proof (r_pos h Hn Hb). lia. }
  2:{ unfold put. now rewrite Nat.eqb_refl. }
  cbn [app Nat.add]. rewrite (ending_padded h Hn Hb). fold p.
  rewrite <- (app_nil_r (message_calls h (S (length m2)) i from m2)).
  rewrite (message_returns h Hn Hb (S (length m2)) i _ m2 p from); auto; try lia.
  unfold put. now rewrite Nat.eqb_refl.
Qed.

Theorem forgotten_reset inj o h i m1 m2 : object_of inj o h ->
  injector_contract (if big h then BOBB else LOBB) (8 * word h) (block h) inj ->
  Forall (fits 8) m1 -> Forall (fits 8) m2 -> (N.of_nat (8 * length m1) < 2 ^ 64)%N -> (N.of_nat (8 * length m2) < 2 ^ 64)%N ->
  object_calls o (fun s => s) nothing (New i :: hash_calls h i 0 m1 ++ hash_calls h i 0 m2) =
  Some [(i, output h (final_state h m1)); (i, output h (fold_left (compress h) (message_blocks h m2) (final_state h m1)))].
Proof.
  intros HO HI F1 F2 L1 L2. destruct (shape _ _ _ HO) as (Hn & Hb & Hm). pose proof (r_pos h Hn Hb) as Hr.
  rewrite (two_messages inj o h i m1 m2 0 HO HI F1 F2 L1 L2); auto; [|apply Nat.mod_0_l; lia].
  cbn [Nat.add]. rewrite (ending_padded h Hn Hb), (chained_app h Hn Hb), chained_padded; [reflexivity|].
  apply (padded_length (big h) (word h) (block h)); assumption.
Qed.
Theorem counted_on inj o h i m1 m2 : object_of inj o h ->
  injector_contract (if big h then BOBB else LOBB) (8 * word h) (block h) inj ->
  let p := padded (big h) (word h) (block h) (len_field h) (mark h) m1 in
  Forall (fits 8) m1 -> Forall (fits 8) m2 -> m2 <> [] -> (N.of_nat (8 * length (p ++ m2)) < 2 ^ 64)%N ->
  object_calls o (fun s => s) nothing (New i :: hash_calls h i 0 m1 ++ hash_calls h i (length p) m2) =
  Some [(i, output h (final_state h m1)); (i, output h (final_state h (p ++ m2)))].
Proof.
  intros HO HI p F1 F2 NE L. destruct (shape _ _ _ HO) as (Hn & Hb & Hm). pose proof (r_pos h Hn Hb) as Hr.
  assert (L1 : (N.of_nat (8 * length m1) < 2 ^ 64)%N).
  { eapply N.le_lt_trans; [|exact L]. clear. unfold p, padded. rewrite !app_length. lia. }
  rewrite app_length in L.
  rewrite (two_messages inj o h i m1 m2 (length p) HO HI F1 F2 L1 L); auto.
  - fold p. rewrite <- app_length, app_assoc, (ending_padded h Hn Hb), chained_padded. reflexivity.
  - apply (padded_length (big h) (word h) (block h)); assumption.
Qed.
