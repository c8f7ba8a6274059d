(** The statements of PFgh.v. *)
From Coq Require Import NArith Arith List Bool Lia ZifyBool ZifyNat ZifyN ZArith.
From Verif Require Import SpecStream MPack MAcc SpecOctets SpecOctetHash SpecFgh LGen MXmd LXmd MFgh LFgh.
From Verif Require Import SpecMD MConstr SpecKeccak MKeccak SpecSponge LInj LXmdStmt.
Import ListNotations.
Ltac Zify.zify_post_hook ::= Z.div_mod_to_equations.

Lemma first_valid_returned C inj H (P : Type) decode cofactor_mul is_zero well_formed junk dst pieces :
  octet_hash C inj H -> block_ok (c_word C) (c_words C) junk -> Forall (fits 8) dst -> Forall (piece_ok C) pieces ->
  (N.of_nat (8 * (length dst + length urs + length (pieces_octets (c_host C) pieces) + 1)) < 2 ^ 64)%N ->
  forall q : P,
  first_valid H decode cofactor_mul (dst ++ urs) (pieces_octets (c_host C) pieces) = Some q ->
  is_zero q = false -> well_formed q = true ->
  exists a a', fgh_init C inj junk dst = Some a /\ hash_pieces C inj a pieces = Some a' /\
  forall fuel, 256 <= fuel ->
    fgh_process C inj decode cofactor_mul is_zero well_formed fuel a' = Returned q.
Proof.
  intros OH Hj HD HP S q HV Hz Hw.
  destruct (fgh_all C inj H decode cofactor_mul is_zero well_formed junk dst pieces OH Hj HD HP S) as (a & a' & E & E' & F).
  exists a, a'. split; [exact E|]. split; [exact E'|]. intros fuel Hf. rewrite F by exact Hf. unfold first_valid in HV.
  destruct (first_of _ 256 0) as [q0|]; [|discriminate]. cbn [option_map] in HV. injection HV as ->.
  now rewrite Hz, Hw.
Qed.
Lemma small_order C inj H (P : Type) decode (cofactor_mul : P -> P) is_zero well_formed junk dst pieces :
  octet_hash C inj H -> block_ok (c_word C) (c_words C) junk -> Forall (fits 8) dst -> Forall (piece_ok C) pieces ->
  (N.of_nat (8 * (length dst + length urs + length (pieces_octets (c_host C) pieces) + 1)) < 2 ^ 64)%N ->
  forall q,
  first_valid H decode cofactor_mul (dst ++ urs) (pieces_octets (c_host C) pieces) = Some q -> is_zero q = true ->
  exists a a', fgh_init C inj junk dst = Some a /\ hash_pieces C inj a pieces = Some a' /\
  forall fuel, 256 <= fuel ->
    fgh_process C inj decode cofactor_mul is_zero well_formed fuel a' = Aborted.
Proof.
  intros OH Hj HD HP S q HV Hz.
  destruct (fgh_all C inj H decode cofactor_mul is_zero well_formed junk dst pieces OH Hj HD HP S) as (a & a' & E & E' & F).
  exists a, a'. split; [exact E|]. split; [exact E'|]. intros fuel Hf. rewrite F by exact Hf. unfold first_valid in HV.
  destruct (first_of _ 256 0) as [q0|]; [|discriminate]. cbn [option_map] in HV. injection HV as ->.
  now rewrite Hz.
Qed.
Lemma first_all_none {P} (f : N -> option P) n : forall from, (forall i, (from <= i < from + N.of_nat n)%N -> f i = None) ->
  first_of f n from = None.
Proof.
  induction n as [|n IH]; intros from HF; [reflexivity|]. cbn [first_of]. rewrite HF by lia. apply IH. intros i Hi. apply HF. lia.
Qed.
Lemma runs_forever C inj H (P : Type) decode (cofactor_mul : P -> P) is_zero well_formed junk dst pieces :
  octet_hash C inj H -> block_ok (c_word C) (c_words C) junk -> Forall (fits 8) dst -> Forall (piece_ok C) pieces ->
  (N.of_nat (8 * (length dst + length urs + length (pieces_octets (c_host C) pieces) + 1)) < 2 ^ 64)%N ->
  (forall i, (i < 256)%N -> candidate H decode (dst ++ urs) (pieces_octets (c_host C) pieces) i = None) ->
  exists a a', fgh_init C inj junk dst = Some a /\ hash_pieces C inj a pieces = Some a' /\
  forall fuel, fgh_process C inj decode cofactor_mul is_zero well_formed fuel a' = Running.
Proof.
  intros OH Hj HD HP S HN.
  destruct (reach C inj H OH junk dst pieces) as (a & a' & E & E' & F'); auto.
  { unfold short. rewrite !app_length. lia. }
  exists a, a'. split; [exact E|]. split; [exact E'|]. intros fuel. unfold fgh_process.
  rewrite (loop_forever C inj H OH decode a' _ F'); auto.
  - unfold short. rewrite !app_length. cbn [length]. lia.
  - apply first_all_none. intros i Hi. rewrite <- HN with (i := i) by lia. unfold candidate. now rewrite <- !app_assoc.
  - lia.
Qed.
Lemma first_map {P Q} (f : N -> option P) (g : N -> option Q) (h : P -> Q) n : forall from q,
  first_of f n from = Some q ->
  (forall i, f i = None -> g i = None) -> (forall i, f i = Some q -> g i = Some (h q)) -> first_of g n from = Some (h q).
Proof.
  induction n as [|n IH]; intros from q E H0 H1; [discriminate|]. cbn [first_of] in *.
  destruct (f from) as [q0|] eqn:EF.
  - injection E as ->. now rewrite (H1 _ EF).
  - rewrite (H0 _ EF). now apply IH.
Qed.
Lemma published (P : Type) H decode (cofactor_mul : P -> P) is_zero prefix msg q :
  first_valid H decode cofactor_mul prefix msg = Some q -> is_zero q = false ->
  find_group_hash H decode cofactor_mul is_zero prefix msg = Some q.
Proof.
  unfold first_valid, find_group_hash. intros E Hz. destruct (first_of _ 256 0) as [q0|] eqn:EF; [|discriminate].
  cbn [option_map] in E. injection E as <-.
  apply (first_map _ _ cofactor_mul _ _ _ EF); intros i Ei; unfold group_hash; rewrite Ei; [reflexivity|now rewrite Hz].
Qed.

Definition even_decode (d : list N) : option (list N) := if N.even (hd 0%N d) then Some d else None.
Notation C256 := (sha3 (inj_run BOLB 64 17) 256).
Notation inj256 := (inj_run BOBB 64 17).
Lemma sha3_256 : octet_hash C256 inj256 (SHA3_octets 256).
Proof.
  apply (sha3_octet_hash 256 (inj_run BOLB 64 17)); try (apply inj_run_contract; [reflexivity|apply Nat.ltb_lt; reflexivity]).
  - split; [reflexivity|]. lia.
  - constructor.
Qed.
Lemma zeros_ok : block_ok 64 17 (repeat 0%N 17).
Proof. split; [reflexivity|]. apply Forall_forall; intros x Hx; apply repeat_spec in Hx; subst; reflexivity. Qed.
Definition first_octet (os : list N) : option N :=
  match hash_pieces C256 inj256 (acc_init C256 (repeat 0%N 17)) [(8, os)] with
  | Some a => match acc_result C256 a with Some d => Some (hd 0%N d) | None => None end
  | None => None
  end.
Lemma host_octets os : Forall (fits 8) os -> pieces_octets host_order [(8, os)] = os.
Proof.
  intros HF. unfold pieces_octets, range_octets. cbn [flat_map fst snd]. rewrite app_nil_r.
  induction HF as [|o os Ho HF IH]; [reflexivity|]. cbn [flat_map]. rewrite IH.
  assert (Eo : (o mod 256)%N = o) by (apply N.mod_small; exact Ho).
  change (8 / 8) with 1. cbn. now rewrite ?Eo.
Qed.
Lemma sha3_first os b : forallb (fun o => o <? 256)%N os && (length os <? 200) = true ->
  first_octet os = Some b -> hd 0%N (SHA3_octets 256 os) = b.
Proof.
  intros HB E. apply andb_prop in HB. destruct HB as [HB HL]. apply Nat.ltb_lt in HL.
  destruct sha3_256 as (_ & _ & _ & _ & O).
  assert (EP : pieces_octets (c_host C256) [(8, os)] = os).
  { apply host_octets. apply Forall_forall. intros x Hx. rewrite forallb_forall in HB.
    apply HB in Hx. now apply N.ltb_lt in Hx. }
  destruct (O (repeat 0%N 17) [(8, os)]) as (a & E1 & E2).
  - exact zeros_ok.
  - constructor; [|constructor]. split; [reflexivity|]. split; [cbn; lia|]. split; [reflexivity|].
    apply Forall_forall. intros x Hx. rewrite forallb_forall in HB. apply HB in Hx. now apply N.ltb_lt in Hx.
  - rewrite EP. lia.
  - unfold first_octet in E. rewrite E1, E2, EP in E. injection E as E. exact E.
Qed.
Lemma candidate_even prefix msg i b : forallb (fun o => o <? 256)%N (prefix ++ msg ++ [i]) && (length (prefix ++ msg ++ [i]) <? 200) = true ->
  first_octet (prefix ++ msg ++ [i]) = Some b ->
  exists d, candidate (SHA3_octets 256) even_decode prefix msg i = (if N.even b then Some d else None) /\ hd 0%N d = b.
Proof.
  intros HB E. pose proof (sha3_first _ _ HB E) as E1. unfold candidate, even_decode. exists (SHA3_octets 256 (prefix ++ msg ++ [i])).
  rewrite E1. auto.
Qed.
Lemma first_step {P} (f : N -> option P) n from : first_of f (S n) from = match f from with Some q => Some q | None => first_of f n (from + 1) end.
Proof. reflexivity. Qed.
Lemma second {P} (f : N -> option P) q : f 0%N = None -> f 1%N = Some q -> first_of f 256 0 = Some q.
Proof. intros E0 E1. change 256 with (S 255). rewrite first_step, E0. change 255 with (S 254). rewrite (first_step f 254). change (0 + 1)%N with 1%N. now rewrite E1. Qed.
Lemma first {P} (f : N -> option P) q : f 0%N = Some q -> first_of f 256 0 = Some q.
Proof. intros E0. change 256 with (S 255). now rewrite first_step, E0. Qed.

Notation pre := (default_dst ++ urs).
Lemma example :
  octet_hash C256 inj256 (SHA3_octets 256) /\ block_ok (c_word C256) (c_words C256) (repeat 0%N 17) /\ Forall (fits 8) default_dst /\ Forall (piece_ok C256) [(8, [1; 2; 3]%N)] /\ (exists q, first_valid (SHA3_octets 256) even_decode (fun q => q) pre (pieces_octets host_order [(8, [1; 2; 3]%N)]) = Some q /\ (hd 0%N q <? 16)%N = false) /\ (forall i, candidate (SHA3_octets 256) (fun _ => @None N) pre (pieces_octets host_order [(8, [1; 2; 3]%N)]) i = None).
Proof.
  split; [exact sha3_256|]. split; [exact zeros_ok|].
  split; [repeat constructor|]. split; [repeat constructor|]. split; [|reflexivity].
  change (pieces_octets host_order [(8, [1; 2; 3]%N)]) with [1; 2; 3]%N.
  destruct (candidate_even pre [1; 2; 3]%N 0 103) as (d0 & E0 & _); [reflexivity|vm_compute; reflexivity|].
  destruct (candidate_even pre [1; 2; 3]%N 1 56) as (d1 & E1 & H1); [reflexivity|vm_compute; reflexivity|].
  exists d1. split; [|now rewrite H1]. exact (f_equal (option_map (fun q => q)) (second (candidate (SHA3_octets 256) even_decode pre [1; 2; 3]%N) d1 E0 E1)).
Qed.
Lemma example_small :
  exists n q q', 
  first_valid (SHA3_octets 256) even_decode (fun q => q) pre (pieces_octets host_order [(8, [n])]) = Some q /\
  (hd 0%N q <? 16)%N = true /\
  find_group_hash (SHA3_octets 256) even_decode (fun q => q) (fun d => (hd 0%N d <? 16)%N) pre (pieces_octets host_order [(8, [n])]) = Some q'.
Proof.
  exists 91%N. change (pieces_octets host_order [(8, [91%N])]) with [91%N].
  destruct (candidate_even pre [91]%N 0 10) as (d0 & E0 & H0); [reflexivity|vm_compute; reflexivity|].
  destruct (candidate_even pre [91]%N 1 176) as (d1 & E1 & H1); [reflexivity|vm_compute; reflexivity|].
  exists d0, d1. split; [exact (f_equal (option_map (fun q => q)) (first (candidate (SHA3_octets 256) even_decode pre [91]%N) d0 E0))|]. split; [now rewrite H0|].
  apply (second (group_hash (SHA3_octets 256) even_decode (fun q => q) (fun d => (hd 0%N d <? 16)%N) pre [91]%N)); unfold group_hash.
  - rewrite E0. change (N.even 10) with true. cbv iota. rewrite H0. reflexivity.
  - rewrite E1. change (N.even 176) with true. cbv iota. rewrite H1. reflexivity.
Qed.
