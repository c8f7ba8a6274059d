(** find_group_hash: proofs. *)
From Coq Require Import NArith Arith List Bool Lia ZifyBool ZifyNat ZifyN ZArith.
From Verif Require Import SpecStream MPack MAcc SpecOctets LGen SpecOctetHash MXmd LXmd SpecFgh MFgh.
Import ListNotations.
Ltac Zify.zify_post_hook ::= Z.div_mod_to_equations.

Section F.
Context (C : construction) (inj : injector) (H : list N -> list N) (OH : octet_hash C inj H).
Notation h := (c_host C).

Lemma urs_fits : Forall (fits 8) urs.
Proof. repeat constructor. Qed.

Lemma reach junk dst ps : block_ok (c_word C) (c_words C) junk -> Forall (fits 8) dst -> Forall (piece_ok C) ps ->
  short (dst ++ urs ++ pieces_octets h ps) ->
  exists a a', fgh_init C inj junk dst = Some a /\ hash_pieces C inj a ps = Some a' /\
    fed C inj a' (dst ++ urs ++ pieces_octets h ps).
Proof.
  intros Hj HD HP S. unfold fgh_init.
  destruct (fed_octets C inj H OH (acc_init C junk) [] dst) as (a1 & E1 & F1); auto using fed_init.
  { eapply short_le; [|exact S]. rewrite !app_length. cbn [length]. lia. }
  rewrite E1. cbn [bind app] in *.
  destruct (fed_octets C inj H OH a1 dst urs F1 urs_fits) as (a2 & E2 & F2).
  { eapply short_le; [|exact S]. rewrite !app_length. lia. }
  rewrite E2. exists a2. destruct F2 as (j & qs & J1 & J2 & J3 & J4). destruct OH as (_ & _ & _ & _ & O).
  destruct (O j (qs ++ ps)) as (a' & E' & _); auto.
  - apply Forall_app; auto.
  - rewrite pieces_octets_app, J4, <- app_assoc. exact S.
  - assert (E3 := E'). rewrite hash_pieces_app, J3 in E3. cbn [bind] in E3. exists a'.
    split; [reflexivity|]. split; [exact E3|].
    exists j, (qs ++ ps). split; [exact J1|]. split; [apply Forall_app; auto|]. split; [exact E'|].
    now rewrite pieces_octets_app, J4, <- app_assoc.
Qed.

Context {P : Type} (decode : list N -> option P).
Context (a : acc C) (os : list N) (Fa : fed C inj a os) (HS : short (os ++ [0%N])).

Lemma step f i : (i < 256)%N -> fgh_loop C inj decode (S f) a i =
  match decode (H (os ++ [i])) with Some q => Returned q | None => fgh_loop C inj decode f a ((i + 1) mod 256)%N end.
Proof.
  intros Hi. cbn [fgh_loop].
  destruct (fed_octets C inj H OH a os [i] Fa) as (a1 & E1 & F1).
  { constructor; [exact Hi|constructor]. }
  { eapply short_le; [|exact HS]. rewrite !app_length. reflexivity. }
  rewrite E1, (fed_result C inj H OH a1 _ F1).
  2:{ eapply short_le; [|exact HS]. rewrite !app_length. reflexivity. }
  destruct (decode (H (os ++ [i]))); [reflexivity|].
  replace ((i + 1) mod 256 <? 256)%N with true by lia. reflexivity.
Qed.

Notation cand := (fun i => decode (H (os ++ [i]))).
Lemma loop_found n : forall f i q, first_of cand n i = Some q -> n <= f -> (i + N.of_nat n <= 256)%N ->
  fgh_loop C inj decode f a i = Returned q.
Proof.
  induction n as [|n IH]; intros f i q HF Hf Hi; [discriminate|]. destruct f as [|f]; [lia|].
  rewrite step by lia. cbn [first_of] in HF. destruct (decode (H (os ++ [i]))); [now injection HF as ->|].
  destruct n as [|n]; [discriminate|]. apply IH; try lia. now replace ((i + 1) mod 256)%N with (i + 1)%N by lia.
Qed.
Lemma first_none n : forall i, first_of cand n i = None -> forall j, (i <= j < i + N.of_nat n)%N -> cand j = None.
Proof.
  induction n as [|n IH]; intros i HF j Hj; [lia|]. cbn [first_of] in HF.
  destruct (decode (H (os ++ [i]))) eqn:E; [discriminate|].
  destruct (N.eq_dec j i) as [->|]; [exact E|]. apply (IH (i + 1)%N); [exact HF|lia].
Qed.
Lemma loop_forever : first_of cand 256 0 = None -> forall f i, (i < 256)%N -> fgh_loop C inj decode f a i = Running.
Proof.
  intros HF f. induction f as [|f IH]; intros i Hi; [reflexivity|]. rewrite step by auto.
  pose proof (first_none 256 0%N HF i ltac:(lia)) as E. cbn beta in E. rewrite E. apply IH. lia.
Qed.
End F.

Section S.
Context (C : construction) (inj : injector) (H : list N -> list N).
Context {P : Type} (decode : list N -> option P) (cofactor_mul : P -> P) (is_zero well_formed : P -> bool).
Notation h := (c_host C).
Context (junk dst : list N) (ps : list (nat * list N)).

Lemma cand_eq i : candidate H decode (dst ++ urs) (pieces_octets h ps) i =
  decode (H ((dst ++ urs ++ pieces_octets h ps) ++ [i])).
Proof. unfold candidate. now rewrite <- !app_assoc. Qed.
Lemma first_ext {Q} (f g : N -> option Q) : (forall i, f i = g i) -> forall n i, first_of f n i = first_of g n i.
Proof. intros HE n. induction n as [|n IH]; intros i; [reflexivity|]. cbn [first_of]. now rewrite HE, IH. Qed.

Lemma fgh_all : octet_hash C inj H ->
  block_ok (c_word C) (c_words C) junk -> Forall (fits 8) dst -> Forall (piece_ok C) ps ->
  (N.of_nat (8 * (length dst + length urs + length (pieces_octets h ps) + 1)) < 2 ^ 64)%N ->
  exists a a', fgh_init C inj junk dst = Some a /\ hash_pieces C inj a ps = Some a' /\
  forall fuel, 256 <= fuel ->
    fgh_process C inj decode cofactor_mul is_zero well_formed fuel a' =
    match first_of (candidate H decode (dst ++ urs) (pieces_octets h ps)) 256 0 with
    | Some q => if is_zero (cofactor_mul q) then Aborted
                else if negb (well_formed (cofactor_mul q)) then Aborted else Returned (cofactor_mul q)
    | None => Running
    end.
Proof.
  intros OH Hj HD HP S. destruct (reach C inj H OH junk dst ps) as (a & a' & E & E' & F'); auto.
  { unfold short. rewrite !app_length. lia. }
  exists a, a'. split; [exact E|]. split; [exact E'|]. intros fuel Hf.
  assert (S1 : short ((dst ++ urs ++ pieces_octets h ps) ++ [0%N])).
  { unfold short. rewrite !app_length. cbn [length]. lia. }
  rewrite (first_ext _ _ cand_eq). unfold fgh_process.
  destruct (first_of _ 256 0) as [q|] eqn:E1.
  - now rewrite (loop_found C inj H OH decode a' _ F' S1 256 fuel 0%N q E1 Hf ltac:(lia)).
  - now rewrite (loop_forever C inj H OH decode a' _ F' S1 E1 fuel 0%N ltac:(lia)).
Qed.
End S.
