(** The block stream processor appends exactly the bit stream of the values it is given. *)
From Coq Require Import NArith Arith List Bool Lia ZifyBool ZifyNat ZifyN ZArith.
From Verif Require Import SpecStream LStream MPack LInj MAcc LAcc.
Import ListNotations.
Ltac Zify.zify_post_hook ::= Z.div_mod_to_equations.

Section Bsp.
Context (C : construction) (inj : injector).
Context (WF : wf_construction C).
Notation e := (c_endian C).
Notation h := (c_host C).
Notation w := (c_word C).
Notation bw := (c_words C).
Notation bb := (block_bits C).
Context (HI : injector_contract e w bw inj).

Section Width.
Context (vb : nat) (Hv8 : vb mod 8 = 0) (Hvp : 0 < vb) (Hvw : w mod vb = 0).
Notation bv := (block_values C vb).

Lemma bb_bv : bb = vb * bv.
Proof.
  unfold block_values. apply Nat.div_exact; [lia|].
  unfold block_bits. assert (w = vb * (w / vb)) by (apply Nat.div_exact; lia).
  rewrite H, <- Nat.mul_assoc, Nat.mul_comm, Nat.mod_mul; lia.
Qed.

Lemma bv_pos : 0 < bv.
Proof. pose proof (bb_pos C WF). rewrite bb_bv in H. nia. Qed.

Record bspR (p : bsp C) (M : list bool) (P : list N) : Prop := {
  bs_acc : strictR C (b_acc C p) M;
  bs_cache : block_ok vb bv (b_cache C p);
  bs_seen : b_seen C p = length P;
  bs_lt : length P < bv;
  bs_head : firstn (length P) (b_cache C p) = P }.

Lemma bsp_init_R a M : strictR C a M -> bspR (bsp_init C vb a) M [].
Proof.
  intros. pose proof bv_pos. constructor; simpl; auto. apply block_ok_zeros.
Qed.

Lemma pack_block_ok c : block_ok vb bv c -> block_ok w bw (pack_to h e vb w c).
Proof.
  intros Hc. unfold pack_to, pack. apply block_ok_words; [apply WF|].
  rewrite (block_stream_length h vb bv) by auto. rewrite <- bb_bv. reflexivity.
Qed.

Lemma pack_stream c : block_ok vb bv c -> stream e w (pack_to h e vb w c) = stream h vb c.
Proof.
  intros Hc. unfold pack_to, pack. apply (block_stream_words e w bw); try apply WF.
  rewrite (block_stream_length h vb bv) by auto. rewrite <- bb_bv. reflexivity.
Qed.

Lemma upd_ok k x d : block_ok vb bv d -> fits vb x -> k < bv ->
  block_ok vb bv (firstn k d ++ x :: skipn (S k) d).
Proof.
  intros [L F] Hx Hk. split.
  - rewrite app_length. cbn [length]. rewrite firstn_length, skipn_length. lia.
  - apply Forall_app. split.
    + apply Forall_forall. intros y Hy. eapply Forall_forall; [exact F|].
      rewrite <- (firstn_skipn k d). apply in_or_app. auto.
    + constructor; auto. apply Forall_forall. intros y Hy. eapply Forall_forall; [exact F|].
      rewrite <- (firstn_skipn (S k) d). apply in_or_app. auto.
Qed.

Lemma bsp_update_one_R p M P x :
  bspR p M P -> fits vb x -> fine C (M ++ stream h vb (P ++ [x])) ->
  exists p' M' P', bsp_update_one C inj vb p x = Some p' /\ bspR p' M' P' /\
    M' ++ stream h vb P' = M ++ stream h vb (P ++ [x]).
Proof.
  intros [Ha Hc Hs Hl Hh] Hx Hsh. pose proof bv_pos as Hbv. pose proof bb_bv as Ebb.
  unfold bsp_update_one. rewrite Hs.
  destruct (length P <? bv) eqn:E1; [|lia]. clear E1.
  cbn [b_seen b_cache b_acc].
  set (c := firstn (length P) (b_cache C p) ++ x :: skipn (S (length P)) (b_cache C p)).
  assert (Hc' : block_ok vb bv c) by (apply upd_ok; auto).
  assert (Hh' : firstn (length (P ++ [x])) c = P ++ [x]).
  { rewrite app_length. simpl length. unfold c. rewrite Hh.
    replace (P ++ x :: skipn (S (length P)) (b_cache C p)) with ((P ++ [x]) ++ skipn (S (length P)) (b_cache C p))
      by (now rewrite <- app_assoc).
    rewrite firstn_stream_app by (rewrite app_length; simpl; lia).
    replace (length P + 1) with (length (P ++ [x])) by (rewrite app_length; simpl; lia).
    apply firstn_all. }
  destruct (S (length P) =? bv) eqn:E2.
  - apply Nat.eqb_eq in E2.
    assert (Ec : c = P ++ [x]).
    { rewrite <- Hh'. rewrite app_length. simpl length. rewrite firstn_all2; auto.
      destruct Hc' as [L _]. lia. }
    unfold bsp_process_block. cbn [b_acc b_cache].
    destruct (block_feed_spec C inj WF HI (b_acc C p) M (pack_to h e vb w c) bb) as (a' & E3 & R3); auto.
    + apply pack_block_ok; auto.
    + rewrite pack_stream by auto. 
      destruct (bb =? 0) eqn:Z.
      * rewrite firstn_all2; [|rewrite (block_stream_length h vb bv) by auto; lia]. now rewrite Ec.
      * rewrite firstn_all2; [|rewrite (block_stream_length h vb bv) by auto; lia]. now rewrite Ec.
    + rewrite E3. eexists _, _, []. split; [reflexivity|]. split.
      * constructor; cbn [b_acc b_cache b_seen length]; auto. exact R3.
      * simpl stream. rewrite app_nil_r, pack_stream by auto. f_equal.
        destruct (bb =? 0) eqn:Z;
          (rewrite firstn_all2; [|rewrite (block_stream_length h vb bv) by auto; lia]; now rewrite Ec).
  - apply Nat.eqb_neq in E2. eexists _, M, (P ++ [x]). split; [reflexivity|]. split; [|reflexivity].
    constructor; cbn [b_acc b_cache b_seen]; auto; rewrite app_length; simpl length; try lia.
Qed.

Lemma bsp_update_n_R xs : forall p M P,
  bspR p M P -> Forall (fits vb) xs -> fine C (M ++ stream h vb (P ++ xs)) ->
  exists p' M' P', bsp_update_n C inj vb p xs = Some p' /\ bspR p' M' P' /\
    M' ++ stream h vb P' = M ++ stream h vb (P ++ xs).
Proof.
  induction xs as [|x xs IH]; intros p M P HR HF Hsh.
  - exists p, M, P. rewrite app_nil_r. auto.
  - inversion HF as [|? ? Hx HF']; subst.
    assert (Hsplit : forall (Q : list bool), M ++ stream h vb (P ++ x :: xs) =
                     (M ++ stream h vb (P ++ [x])) ++ stream h vb xs).
    { intros _. rewrite <- app_assoc, <- stream_app, <- app_assoc. reflexivity. }
    rewrite (Hsplit []) in Hsh |- *.
    destruct (bsp_update_one_R p M P x) as (p1 & M1 & P1 & E1 & R1 & S1); auto.
    { eapply (fine_prefix C); eauto. }
    cbn [bsp_update_n]. rewrite E1.
    destruct (IH p1 M1 P1) as (p2 & M2 & P2 & E2 & R2 & S2); auto.
    + rewrite stream_app, app_assoc, S1. exact Hsh.
    + exists p2, M2, P2. split; [auto|]. split; [auto|].
      rewrite S2, stream_app, app_assoc, S1. reflexivity.
Qed.

Lemma hash_into_R a M xs :
  strictR C a M -> Forall (fits vb) xs -> fine C (M ++ stream h vb xs) ->
  exists a', hash_into C inj vb a xs = Some a' /\ strictR C a' (M ++ stream h vb xs).
Proof.
  intros HR HF Hsh. unfold hash_into.
  destruct (bsp_update_n_R xs (bsp_init C vb a) M []) as (p & M' & P & E & R & S); auto.
  { now apply bsp_init_R. }
  rewrite E. cbn [app] in S. unfold bsp_finish.
  destruct R as [Ra Rc Rs Rl Rh]. rewrite Rs. pose proof bb_bv as Ebb.
  destruct (0 <? length P) eqn:EP.
  - unfold bsp_process_block.
    destruct (block_feed_spec C inj WF HI (b_acc C p) M' (pack_to h e vb w (b_cache C p)) (length P * vb))
      as (a' & E3 & R3); auto.
    + now apply pack_block_ok.
    + nia.
    + destruct (length P * vb =? 0) eqn:Z; [nia|].
      rewrite pack_stream by auto. rewrite Nat.mul_comm, stream_firstn, Rh, S. exact Hsh.
    + exists a'. split; [exact E3|].
      destruct (length P * vb =? 0) eqn:Z; [nia|].
      rewrite pack_stream in R3 by auto. rewrite Nat.mul_comm, stream_firstn, Rh, S in R3. exact R3.
  - assert (P = []) by (destruct P; [auto|simpl in EP; lia]). subst P.
    exists (b_acc C p). split; [reflexivity|]. simpl stream in S. rewrite app_nil_r in S. now rewrite <- S.
Qed.
End Width.

(** Pieces with individual element widths. *)
Definition piece_ok (p : nat * list N) : Prop :=
  fst p mod 8 = 0 /\ 0 < fst p /\ w mod (fst p) = 0 /\ Forall (fits (fst p)) (snd p).

Definition pieces_bits (ps : list (nat * list N)) : list bool :=
  flat_map (fun p => stream h (fst p) (snd p)) ps.

Lemma hash_pieces_R ps : forall a M,
  strictR C a M -> Forall piece_ok ps -> fine C (M ++ pieces_bits ps) ->
  exists a', hash_pieces C inj a ps = Some a' /\ strictR C a' (M ++ pieces_bits ps).
Proof.
  induction ps as [|[vb xs] ps IH]; intros a M HR HF Hsh.
  - exists a. simpl. now rewrite app_nil_r.
  - inversion HF as [|? ? Hx HF']; subst. destruct Hx as (H1 & H2 & H3 & H4). cbn [fst snd] in *.
    change (pieces_bits ((vb, xs) :: ps)) with (stream h vb xs ++ pieces_bits ps) in *.
    rewrite app_assoc in Hsh |- *.
    destruct (hash_into_R vb H1 H2 H3 a M xs) as (a1 & E1 & R1); auto.
    { eapply (fine_prefix C); eauto. }
    cbn [hash_pieces]. rewrite E1. apply IH; auto.
Qed.

(** Block feeds. *)
Definition feed_bits (f : feed) : list bool :=
  match f with
  | FBlock v n => firstn (if n =? 0 then bb else n) (stream e w v)
  | FWord x n => firstn (if n =? 0 then w else n) (word_stream e w x)
  end.

Definition feed_ok (f : feed) : Prop :=
  match f with
  | FBlock v n => block_ok w bw v /\ n <= bb
  | FWord x n => fits w x /\ n <= w
  end.

Definition is_block_feed (f : feed) : Prop := match f with FBlock _ _ => True | FWord _ _ => False end.

Lemma block_feeds_R fs : forall a M,
  strictR C a M -> Forall feed_ok fs -> Forall is_block_feed fs ->
  fine C (M ++ flat_map feed_bits fs) ->
  exists a', acc_feeds C inj a fs = Some a' /\ strictR C a' (M ++ flat_map feed_bits fs).
Proof.
  induction fs as [|f fs IH]; intros a M HR HF HB Hsh.
  - exists a. simpl. now rewrite app_nil_r.
  - inversion HF as [|? ? Hx HF']; subst. inversion HB as [|? ? Hy HB']; subst.
    destruct f as [v n|]; [|contradiction]. destruct Hx as [Hx1 Hx2].
    cbn [flat_map] in *. rewrite app_assoc in Hsh |- *.
    destruct (block_feed_spec C inj WF HI a M v n) as (a1 & E1 & R1); auto.
    { eapply (fine_prefix C); eauto. }
    cbn [acc_feeds]. rewrite E1. apply IH; auto.
Qed.

(** Mixed feeds: fine as long as every word feed leaves the block incomplete or starts inside
    a word; the last feed is free. *)
Fixpoint no_word_completion (len : nat) (fs : list feed) : Prop :=
  match fs with
  | [] => True
  | FBlock v n :: fs' => no_word_completion (len + (if n =? 0 then bb else n)) fs'
  | FWord x n :: fs' =>
      let n' := if n =? 0 then w else n in
      (fs' = [] \/ (len + n') mod bb <> 0 \/ len mod w <> 0) /\ no_word_completion (len + n') fs'
  end.

Lemma feed_bits_length f : feed_ok f ->
  length (feed_bits f) = match f with FBlock _ n => if n =? 0 then bb else n
                                    | FWord _ n => if n =? 0 then w else n end.
Proof.
  destruct f as [v n|x n]; cbn; intros [H1 H2]; rewrite firstn_length.
  - rewrite (block_stream_length e w bw) by auto. fold (block_bits C).
    destruct (n =? 0); unfold block_bits in *; lia.
  - rewrite word_stream_length. destruct (n =? 0); lia.
Qed.

Lemma mixed_feeds_R fs : forall a M,
  strictR C a M -> Forall feed_ok fs -> no_word_completion (length M) fs ->
  fine C (M ++ flat_map feed_bits fs) ->
  exists a', acc_feeds C inj a fs = Some a' /\ weakR C a' (M ++ flat_map feed_bits fs).
Proof.
  induction fs as [|f fs IH]; intros a M HR HF HB Hsh.
  - exists a. simpl. rewrite app_nil_r. split; auto. now apply strict_weak.
  - inversion HF as [|? ? Hx HF']; subst.
    pose proof (feed_bits_length f Hx) as Lf.
    cbn [flat_map] in *. rewrite app_assoc in Hsh |- *.
    destruct f as [v n|x n]; destruct Hx as [Hx1 Hx2]; cbn [no_word_completion] in HB.
    + destruct (block_feed_spec C inj WF HI a M v n) as (a1 & E1 & R1); auto.
      { eapply (fine_prefix C); eauto. }
      cbn [acc_feeds]. rewrite E1. apply IH; auto. rewrite app_length, Lf. exact HB.
    + destruct HB as [HB1 HB2].
      destruct (word_feed_spec C inj WF HI a M x n) as (a1 & E1 & R1 & S1); auto.
      { eapply (fine_prefix C); eauto. }
      cbn [acc_feeds]. rewrite E1.
      destruct HB1 as [->|HB1].
      * exists a1. split; [reflexivity|]. simpl flat_map. rewrite app_nil_r. exact R1.
      * apply IH; auto. rewrite app_length, Lf. exact HB2.
Qed.
End Bsp.
