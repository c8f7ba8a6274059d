(** Proofs about the library's hashes by name. *)
From Coq Require Import NArith Arith List Bool Lia ZifyBool ZifyNat ZifyN ZArith.
From Verif Require Import SpecStream SpecMD SpecOctets SpecOctetHash SpecStore MPack MAcc MConstr MMisc MHash SpecHash LHash LGen LXmd LHashStmt
  MStore LStore SpecLibrary.
From Verif Require SpecSponge LSha LRipemd LTiger LXmdStmt PMD LMDStmt PSha LSpongeStmt LBlake2bStmt.
Import ListNotations.
Ltac Zify.zify_post_hook ::= Z.div_mod_to_equations.

(** ** From the digest of one range to the digest of every sequence of feeds *)
Lemma zero_block w n : block_ok w n (repeat 0%N n).
Proof.
  split; [apply repeat_length|]. apply Forall_forall. intros x Hx. apply repeat_spec in Hx. subst x.
  unfold fits. apply N.neq_0_lt_0, N.pow_nonzero. discriminate.
Qed.
Lemma octet_hash_ext C inj H H' : octet_hash C inj H ->
  (forall os, Forall (fits 8) os -> (N.of_nat (8 * length os) < 2 ^ 64)%N -> H os = H' os) -> octet_hash C inj H'.
Proof.
  intros (H1 & H2 & H3 & H4 & H5) E. split; [exact H1|]. split; [exact H2|]. split; [exact H3|]. split; [exact H4|].
  intros junk ps Hj HP HS. destruct (H5 junk ps Hj HP HS) as (a & A & R). exists a. split; [exact A|].
  rewrite <- E; [exact R|apply pieces_octets_fits|exact HS].
Qed.
Lemma named e w bw lb dw iv comp inj H : e = BOBB \/ e = LOBB -> md_params w bw lb -> injector_contract e w bw inj ->
  (forall junk os, block_ok w bw junk -> Forall (fits 8) os -> (N.of_nat (8 * length os) < 2 ^ 64)%N ->
     hash_once (PMD.md e w bw lb dw iv comp inj) inj 8 junk os = Some (H os)) ->
  octet_hash (PMD.md e w bw lb dw iv comp inj) inj H.
Proof.
  intros He MP HI K. apply (octet_hash_ext _ _ _ _ (LXmdStmt.md_octet_hash e w bw lb dw iv comp inj He MP HI)).
  intros os HF HL. pose proof (K _ os (zero_block w bw) HF HL) as B.
  rewrite (PMD.C01_md_digest_octets e w bw lb dw iv comp inj _ os MP HI (zero_block w bw) He HF HL) in B. now inversion B.
Qed.
Lemma p32 : md_params 32 16 64. Proof. constructor; cbn; lia. Qed.
Lemma p64 : md_params 64 16 128. Proof. constructor; cbn; lia. Qed.

Lemma sizes d : In d [224; 256; 384; 512] -> SpecSponge.sponge_size d.
Proof. unfold SpecSponge.sponge_size. intros Hd. repeat (destruct Hd as [<- | Hd]; [cbn; lia|]). contradiction. Qed.

Theorem library_octet_hash inj C H : library_hash inj C H -> octet_hash C inj H.
Proof.
  intros [ c HC HI | c HC HI | c HC HI | c HC HI | c HC HI | c HC HI | c HC HI | c HC HI | HI | HI | HI | HI
         | p C' Hp E HI | d injb Hd HB HI | d injb perm Hd HB HP HI | bits injb Hb HB HI ].
  - apply (named LOBB 32 16 64 4); [now right|exact p32|exact HI|]. intros. now apply LSha.md4_once.
  - apply (named LOBB 32 16 64 4); [now right|exact p32|exact HI|]. intros. now apply LSha.md5_once.
  - apply (named BOBB 32 16 64 5); [now left|exact p32|exact HI|]. intros. now apply LSha.sha_once.
  - apply (named BOBB 32 16 64 5); [now left|exact p32|exact HI|]. intros. now apply LSha.sha1_once.
  - apply (named BOBB 32 16 64 7); [now left|exact p32|exact HI|]. intros. now apply LSha.sha2_224_once.
  - apply (named BOBB 32 16 64 8); [now left|exact p32|exact HI|]. intros. now apply LSha.sha2_256_once.
  - apply (named BOBB 64 16 128 6); [now left|exact p64|exact HI|]. intros. now apply LSha.sha2_384_once.
  - apply (named BOBB 64 16 128 8); [now left|exact p64|exact HI|]. intros. now apply LSha.sha2_512_once.
  - apply (named LOBB 32 16 64 4); [now right|exact p32|exact HI|]. intros. now apply LRipemd.ripemd128_once.
  - apply (named LOBB 32 16 64 5); [now right|exact p32|exact HI|]. intros. now apply LRipemd.ripemd160_once.
  - apply (named LOBB 32 16 64 8); [now right|exact p32|exact HI|]. intros. now apply LRipemd.ripemd256_once.
  - apply (named LOBB 32 16 64 10); [now right|exact p32|exact HI|]. intros. now apply LRipemd.ripemd320_once.
  - replace p with (3 + (p - 3)) in * by lia. apply (octet_hash_ext _ _ _ _ (tiger_octet_hash 0 (p - 3) inj C' E HI)).
    intros. apply app_nil_r.
  - exact (LXmdStmt.sha3_octet_hash d injb inj _ _ (sizes d Hd) HB (SpecSponge.SH_sha3 d injb) HI).
  - exact (LXmdStmt.sha3_octet_hash d injb inj _ _ (sizes d Hd) HB (SpecSponge.SH_keccak d injb perm HP) HI).
  - now apply LXmdStmt.blake2b_octet_hash.
Qed.

(** ** What all of them share *)
Lemma library_words inj C H : library_hash inj C H -> (c_word C = 32 \/ c_word C = 64) /\ c_host C = host_order.
Proof.
  intros [ c HC HI | c HC HI | c HC HI | c HC HI | c HC HI | c HC HI | c HC HI | c HC HI | HI | HI | HI | HI
         | p C' Hp E HI | d injb Hd HB HI | d injb perm Hd HB HP HI | bits injb Hb HB HI ];
  try (split; [first [left; reflexivity | right; reflexivity] | reflexivity]).
  replace p with (3 + (p - 3)) in E by lia. change 192 with (64 * (3 + 0)) in E. rewrite LTiger.tiger_is in E. injection E as <-.
  split; [right|]; reflexivity.
Qed.
(** ** Entry points *)
Theorem library_entry inj C H digits (sg : bool) m first n : library_hash inj C H ->
  let vb := if sg then S digits else digits in
  vb mod 8 = 0 -> 0 < vb -> c_word C mod vb = 0 ->
  (forall i, i < n -> fits vb (m (first + i))) -> (N.of_nat (vb * n) < 2 ^ 64)%N ->
  every_entry_point C inj digits sg (block_ok (c_word C) (c_words C)) m first n
    (H (range_octets host_order vb (read_range m first n))).
Proof.
  intros HL vb H8 H0 Hw HF Hs. apply every_entry. rewrite value_bits_ok. fold vb. intros junk Hj.
  destruct (library_words _ _ _ HL) as [_ HH]. destruct (library_octet_hash _ _ _ HL) as (_ & _ & _ & _ & K).
  destruct (K junk [(vb, read_range m first n)] Hj) as (a & E & R).
  - constructor; [|constructor]. unfold piece_ok. cbn [fst snd]. repeat split; auto. now apply read_range_Forall.
  - rewrite HH. unfold pieces_octets. cbn [flat_map map concat fst snd]. rewrite app_nil_r, range_octets_length, read_range_length.
    replace (8 * (vb / 8 * n)) with (vb * n); [exact Hs|]. rewrite Nat.mul_assoc. f_equal. lia.
  - rewrite HH in R. unfold pieces_octets in R. cbn [flat_map map concat fst snd] in R. rewrite app_nil_r in R.
    unfold hash_once. cbn [hash_pieces] in E. destruct (hash_into C inj vb (acc_init C junk) (read_range m first n)) as [b|]; [|discriminate].
    injection E as ->. exact R.
Qed.

(** ** Programs *)
Section Mixed.
Context {K : Type} (C : K -> construction) (inj : K -> injector) (H : K -> list N -> list N)
  (HL : forall k, library_hash (inj k) (C k) (H k)).
Notation value := (fun u : nat * list N => range_octets host_order (fst u) (snd u)).
Definition call_ok (c : call (K * list N) (nat * list N) unit) : Prop :=
  match c with
  | Create _ (k, junk) => block_ok (c_word (C k)) (c_words (C k)) junk
  | Update _ (vb, xs) => vb mod 8 = 0 /\ 0 < vb /\ (forall k, c_word (C k) mod vb = 0) /\ Forall (fits vb) xs
  | _ => True
  end.
Definition holds (s : {k : K & acc (C k)}) (km : K * list N) (n : nat) : Prop :=
  let '(existT _ k a) := s in exists E : k = fst km, fed (C (fst km)) (inj (fst km)) (eq_rect k (fun k => acc (C k)) a _ E) (snd km) /\ length (snd km) <= n.
Definition all_hold (slots : nat -> option {k : K & acc (C k)}) (ms : nat -> option (K * list N)) (n : nat) : Prop :=
  forall i, match slots i, ms i with Some s, Some km => holds s km n | None, None => True | _, _ => False end.
Lemma holds_le s km n n' : n <= n' -> holds s km n -> holds s km n'.
Proof. destruct s as [k a]. intros L (E & F & G). exists E. split; [exact F|lia]. Qed.
Lemma all_put slots ms n i s km : all_hold slots ms n -> holds s km n -> all_hold (put i s slots) (put i km ms) n.
Proof. intros A B j. unfold put. destruct (j =? i); [exact B|apply A]. Qed.
Lemma all_le slots ms n n' : n <= n' -> all_hold slots ms n -> all_hold slots ms n'.
Proof. intros L A i. specialize (A i). destruct (slots i), (ms i); try exact A. now apply (holds_le _ _ n). Qed.

Lemma mixed_run cs : forall slots ms n, all_hold slots ms n -> Forall call_ok cs ->
  (N.of_nat (8 * (n + length (all_octets value cs))) < 2 ^ 64)%N ->
  mixed_calls C inj slots cs = digests_of H value ms cs.
Proof.
  induction cs as [|c cs IH]; intros slots ms n A HF HS; [reflexivity|].
  inversion HF as [|? ? Hc HF']; subst. unfold mixed_calls in *.
  destruct c as [i [k j]|i [vb xs]|i e|i k]; cbn [run_store digests_of call_ok all_octets flat_map fst snd] in *.
  - rewrite (IH _ (put i (k, []) ms) n); auto. apply all_put; [exact A|]. exists eq_refl. cbn. split; [now apply fed_init|lia].
  - pose proof (A i) as Ai. destruct (slots i) as [[k a]|], (ms i) as [[k' m]|]; try contradiction; [|reflexivity].
    destruct Ai as (E & F & G). cbn [fst snd] in *. subst k'. cbn [eq_rect] in F. rewrite app_length in HS.
    destruct (library_words _ _ _ (HL k)) as [_ HH].
    destruct (fed_into (C k) (inj k) (H k) (library_octet_hash _ _ _ (HL k)) a m vb xs) as (a' & E' & F').
    + exact F.
    + destruct Hc as (V8 & V0 & VW & VF). unfold piece_ok. cbn [fst snd]. auto.
    + rewrite HH. unfold short. rewrite app_length. revert HS. generalize (2 ^ 64)%N. intros q HS. lia.
    + rewrite HH in F'. rewrite E'. cbn [option_map].
      apply (IH _ _ (n + length (range_octets host_order vb xs))); auto.
      * apply all_put; [apply (all_le _ _ n); [lia|exact A]|]. exists eq_refl. cbn [eq_rect fst snd]. split; [exact F'|]. rewrite app_length. lia.
      * unfold all_octets. revert HS. generalize (2 ^ 64)%N. intros q HS. lia.
  - pose proof (A i) as Ai. destruct (slots i) as [[k a]|] eqn:ES, (ms i) as [[k' m]|] eqn:EM; try contradiction; [|reflexivity].
    destruct Ai as (E & F & G). cbn [fst snd] in *. subst k'. cbn [eq_rect] in F.
    rewrite (fed_result (C k) (inj k) (H k) (library_octet_hash _ _ _ (HL k)) a m F).
    + cbn [option_map]. f_equal. apply (IH _ _ n); auto. intros l. unfold put. destruct (l =? i) eqn:El; [|apply A].
      apply Nat.eqb_eq in El. subst l. rewrite EM. exists eq_refl. cbn. auto.
    + unfold short. revert HS. generalize (2 ^ 64)%N. intros q HS. lia.
  - pose proof (A i) as Ai. destruct (slots i) as [s|], (ms i) as [km|]; try contradiction; [|reflexivity].
    apply (IH _ _ n); auto. now apply all_put.
Qed.
Theorem mixed_program cs : Forall call_ok cs -> (N.of_nat (8 * length (all_octets value cs)) < 2 ^ 64)%N ->
  mixed_calls C inj nothing cs = digests_of H value nothing cs.
Proof. intros. apply (mixed_run cs _ _ 0); auto. intros i. exact I. Qed.
End Mixed.
