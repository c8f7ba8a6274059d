(** Proofs about the entry points and the shape of digests. *)
From Coq Require Import NArith Arith List Bool Lia ZifyBool ZifyNat ZifyN ZArith.
From Verif Require Import SpecStream LStream MPack LInj MAcc LAcc LBsp MConstr SpecMD LMD LMDProps SpecHist LHist
  LMDStmt SpecOctets LGen MMisc MHash SpecHash.
Import ListNotations.
Ltac Zify.zify_post_hook ::= Z.div_mod_to_equations.

Lemma write_all_ok d : forall m out, exists m', write_all m out d = (m', out + length d) /\
  forall q, m' q = if (out <=? q) && (q <? out + length d) then nth (q - out) d 0%N else m q.
Proof.
  induction d as [|x d IH]; intros m out; cbn [write_all length].
  - exists m. split; [f_equal; lia|]. intros q. replace ((out <=? q) && (q <? out + 0)) with false by lia. reflexivity.
  - destruct (IH (store m out x) (S out)) as (m' & E & K). exists m'. split; [rewrite E; f_equal; lia|].
    intros q. rewrite K. unfold store. destruct (Nat.eq_dec q out) as [->|Q].
    + replace ((S out <=? out) && (out <? S out + length d)) with false by lia.
      rewrite Nat.eqb_refl. replace ((out <=? out) && (out <? out + S (length d))) with true by lia.
      now rewrite Nat.sub_diag.
    + replace ((out <=? q) && (q <? out + S (length d))) with ((S out <=? q) && (q <? S out + length d)) by lia.
      replace (q =? out) with false by lia.
      destruct ((S out <=? q) && (q <? S out + length d)) eqn:B; [|reflexivity].
      replace (q - out) with (S (q - S out)) by lia. reflexivity.
Qed.

Lemma every_entry C inj digits sg (ok_cache : list N -> Prop) m first n d :
  (forall junk, ok_cache junk -> hash_once C inj (value_bits digits sg) junk (read_range m first n) = Some d) ->
  every_entry_point C inj digits sg ok_cache m first n d.
Proof.
  intros H junk Hj. specialize (H junk Hj). unfold hash_once in H.
  destruct (hash_into C inj (value_bits digits sg) (acc_init C junk) (read_range m first n)) as [a|] eqn:E; [|discriminate].
  assert (O : object_is C d (Some a)).
  { exists a. split; [reflexivity|]. split; [exact H|]. split; [exact H|]. split; [exact H|].
    intros j. unfold as_array. rewrite H, Nat.leb_refl. reflexivity. }
  assert (W : forall out, written m out d (as_iterator C m out a)).
  { intros out. unfold as_iterator. rewrite H. destruct (write_all_ok d m out) as (m' & E1 & K).
    exists m'. rewrite E1. split; [reflexivity|exact K]. }
  assert (A : accumulators_are C d (Some (a, as_accumulator C a))).
  { exists a, a. split; [reflexivity|]. split; exact H. }
  unfold hash_iter_out, hash_range_out, hash_ilist_out, hash_iter, hash_range, hash_ilist, hash_adaptor,
    hash_iter_acc, hash_range_acc, hash_ilist_acc, value_impl, impl_process.
  rewrite E. split; [exact W|]. split; [exact W|]. split; [exact W|].
  split; [exact O|]. split; [exact O|]. split; [exact O|]. split; [intros; exact O|].
  split; [exact A|]. split; [exact A|exact A].
Qed.

Lemma array_small C size junk a d : acc_result C a = Some d -> size < length d -> as_array C size junk a = None.
Proof. intros H L. unfold as_array. rewrite H. replace (length d <=? size) with false by lia. reflexivity. Qed.

Lemma array_large C size junk a d i : acc_result C a = Some d -> length d <= i < size -> length junk = size ->
  exists out, as_array C size junk a = Some out /\ length out = size /\
    firstn (length d) out = d /\ nth i out 0%N = nth i junk 0%N.
Proof.
  intros H L Lj. unfold as_array. rewrite H. replace (length d <=? size) with true by lia.
  eexists. split; [reflexivity|]. rewrite app_length, skipn_length. split; [lia|].
  split; [now rewrite firstn_app_exact|].
  rewrite app_nth2 by lia. rewrite <- (firstn_skipn (length d) junk) at 2.
  rewrite app_nth2 by (rewrite firstn_length; lia). rewrite firstn_length. f_equal. lia.
Qed.

(** ** Shape of digests *)
Definition digest_shape (n : nat) (d : list N) : Prop := length d = n /\ Forall (fun o => (o < 256)%N) d.

Lemma words8_shape e s n : length s = 8 * n -> digest_shape n (words_of_stream e 8 s).
Proof.
  intros H. split; [rewrite words_of_stream_length, H; lia|]. exact (words_of_stream_fits e 8 s).
Qed.

Lemma fold_length (comp : list N -> list N -> list N) n : (forall s b, length s = n -> length (comp s b) = n) ->
  forall bs s, length s = n -> length (fold_left comp bs s) = n.
Proof. intros H. induction bs as [|b bs IH]; intros s Hs; cbn; auto. Qed.

Lemma md_hash_shape e w bw lb dw marker iv comp M sw :
  (forall s b, length s = sw -> length (comp s b) = sw) -> length iv = sw -> dw <= sw -> w mod 8 = 0 ->
  digest_shape (w * dw / 8) (md_hash e w bw lb (w * dw) marker iv comp M).
Proof.
  intros Hc Hi Hd H8. unfold md_hash. apply words8_shape.
  rewrite firstn_length, stream_length. unfold md_chain.
  rewrite (fold_length comp sw) by auto. rewrite Nat.min_l by nia.
  rewrite Nat.mul_comm. destruct (Nat.mod_divides w 8) as [K _]; [lia|]. destruct (K H8) as (c & ->).
  replace (dw * (8 * c)) with (c * dw * 8) by lia. rewrite Nat.div_mul by lia. lia.
Qed.

Lemma expected_Forall e D (P : list N -> Prop) : (forall M, P (D M)) ->
  forall ops M, Forall P (expected e D M ops).
Proof. intros H. induction ops as [|[vb xs|] ops IH]; intros M; cbn; auto. Qed.

Lemma expected_octets_Forall e D (P : list N -> Prop) : (forall M, P (D M)) ->
  forall ops M, Forall P (expected_octets e D M ops).
Proof. intros H. induction ops as [|[vb xs|] ops IH]; intros M; cbn; auto. Qed.
