(** Proofs about construction objects used directly. *)
From Coq Require Import NArith Arith List Bool Lia ZifyBool ZifyNat ZifyN ZArith.
From Verif Require Import SpecStream SpecMD SpecOctets SpecOctetHash SpecStore MPack MAcc MConstr LStream LInj LAcc LBsp LMD LMDProps LGen LXmd
  MStore LStore SpecLibrary LLibrary SpecObject MObject.
From Verif Require SpecSponge LSha LRipemd LTiger LXmdStmt PMD PSha LSpongeStmt LBlake2bStmt MSha MRipemd MTiger MKeccak MBlake2b.
Import ListNotations.
Ltac Zify.zify_post_hook ::= Z.div_mod_to_equations.

(** ** The digest of every hash of the library, from the state after whole blocks *)
Lemma library_correct inj C H : library_hash inj C H ->
  wf_construction C /\ injector_contract (c_endian C) (c_word C) (c_words C) inj /\
  exists D, digest_correct C (fun M => length M mod 8 = 0) D.
Proof.
  assert (MDC : forall e w bw lb dw iv comp, md_params w bw lb -> injector_contract e w bw inj ->
    let C := md_construction e w bw lb dw iv comp (merkle_damgard_padding inj e w bw) in
    wf_construction C /\ injector_contract (c_endian C) (c_word C) (c_words C) inj /\
    exists D, digest_correct C (fun M => length M mod 8 = 0) D).
  { intros e w bw lb dw iv comp MP HI. split; [|split].
    - apply (mdC_wf e w bw lb dw iv comp inj MP).
    - exact HI.
    - eexists. intros a M R S _. exact (mdC_correct e w bw lb dw iv comp inj MP HI a M R S I). }
  intros [ c HC HI | c HC HI | c HC HI | c HC HI | c HC HI | c HC HI | c HC HI | c HC HI | HI | HI | HI | HI
         | p C' Hp E HI | d injb Hd HB HI | d injb perm Hd HB HP HI | bits injb Hb HB HI ].
  - exact (MDC LOBB 32 16 64 _ _ _ p32 HI).
  - exact (MDC LOBB 32 16 64 _ _ _ p32 HI).
  - exact (MDC BOBB 32 16 64 _ _ _ p32 HI).
  - exact (MDC BOBB 32 16 64 _ _ _ p32 HI).
  - exact (MDC BOBB 32 16 64 _ _ _ p32 HI).
  - exact (MDC BOBB 32 16 64 _ _ _ p32 HI).
  - exact (MDC BOBB 64 16 128 _ _ _ p64 HI).
  - exact (MDC BOBB 64 16 128 _ _ _ p64 HI).
  - exact (MDC LOBB 32 16 64 _ _ _ p32 HI).
  - exact (MDC LOBB 32 16 64 _ _ _ p32 HI).
  - exact (MDC LOBB 32 16 64 _ _ _ p32 HI).
  - exact (MDC LOBB 32 16 64 _ _ _ p32 HI).
  - unfold MTiger.tiger in E. match type of E with option_map _ ?x = _ => destruct x as [iv|] eqn:EI; [|discriminate E] end.
    cbn [option_map] in E. injection E as <-.
    assert (MP : md_params 64 8 64) by (constructor; cbn; lia).
    split; [|split].
    + exact (tgC_wf LOBB 64 8 64 _ iv _ inj MP).
    + exact HI.
    + eexists. exact (tgC_correct LOBB 64 8 64 _ iv _ inj MP HI).
  - split; [apply LSpongeStmt.sha3_wf; now apply sizes|]. split; [exact HI|]. eexists. apply LSpongeStmt.sha3_correct; [now apply sizes|exact HB].
  - split; [apply LSpongeStmt.keccak_wf; now apply sizes|]. split; [exact HI|]. eexists. apply LSpongeStmt.keccak_correct; [exact HP|now apply sizes|exact HB].
  - split; [now apply LBlake2bStmt.WF|]. split; [exact HI|]. eexists. intros a M R S _.
    now apply (LBlake2bStmt.DCC bits injb Hb HB a M R S I).
Qed.

Lemma library_value inj C H D : library_hash inj C H -> wf_construction C ->
  injector_contract (c_endian C) (c_word C) (c_words C) inj -> digest_correct C (fun M => length M mod 8 = 0) D ->
  forall os, Forall (fits 8) os -> (N.of_nat (8 * length os) < 2 ^ 64)%N -> D (octets_bits os) = H os.
Proof.
  intros HL WF HI DC os HF HS. destruct (library_octet_hash _ _ _ HL) as (W8 & W0 & He & Hh & K).
  assert (EP : pieces_octets (c_host C) [(8, os)] = os).
  { unfold pieces_octets. cbn [flat_map fst snd]. rewrite app_nil_r. now apply range_octets_8. }
  destruct (K (repeat 0%N (c_words C)) [(8, os)]) as (a & A & R).
  - apply zero_block.
  - constructor; [|constructor]. split; [reflexivity|]. split; [cbn [fst]; lia|]. split; [exact W8|exact HF].
  - now rewrite EP.
  - rewrite EP in R. assert (EB : pieces_bits C [(8, os)] = octets_bits os).
    { unfold pieces_bits. transitivity (octets_bits (pieces_octets (c_host C) [(8, os)])); [|now rewrite EP].
      apply pieces_stream; [exact Hh|]. constructor; [reflexivity|constructor]. }
    destruct (pieces_result C inj WF HI _ D DC (repeat 0%N (c_words C)) [(8, os)]) as (a' & A' & R').
    + apply zero_block.
    + constructor; [|constructor]. split; [reflexivity|]. split; [cbn [fst]; lia|]. split; [exact W8|exact HF].
    + unfold LAcc.short, blen. rewrite EB, octets_bits_length. exact HS.
    + rewrite EB, octets_bits_length, Nat.mul_comm. apply Nat.mod_mul. lia.
    + rewrite EB in R'. rewrite A in A'. injection A' as <-. rewrite R in R'. now injection R' as ->.
Qed.

(** ** Programs *)
Section Sim.
Context (o : object) (prepare : c_state (ob_class o) -> c_state (ob_class o)) (counts : bool).
Notation C := (ob_class o).
Context (inj : injector) (H : list N -> list N) (HL : library_hash inj C H).
Context (Hreset : ob_reset_to o (ob_iv o) = c_init C)
        (Hdigest : forall s b n, option_map snd (ob_digest o s b n) = c_digest C s b n)
        (Hcount : counts = false -> forall s b n n', c_proc C s b n = c_proc C s b n').
Notation e := (c_endian C). Notation w := (c_word C). Notation bw := (c_words C).
Notation r := (block_bits C / 8).

Definition matches (p : phase) (s : c_state C) : Prop :=
  match p with
  | spent => True
  | taken m => Forall (fits 8) m /\ (8 * length m) mod block_bits C = 0 /\ s = absorbed C (octets_bits m)
  end.
Definition slots_match (P : nat -> option phase) (S : nat -> option (c_state C)) : Prop :=
  forall i, match P i, S i with
    | Some p, Some s => matches p s
    | None, None => True
    | _, _ => False
    end.
Lemma put_match P S i p s : slots_match P S -> matches p s -> slots_match (put i p P) (put i s S).
Proof. intros M K j. unfold put. destruct (j =? i); [exact K|apply M]. Qed.

Definition restores (cs : list ocall) : bool := existsb (fun c => match c with Restore _ _ => true | _ => false end) cs.

Lemma programs cs : Forall (arguments_ok w bw) cs ->
  (restores cs = true -> forall s, ob_reset_to o (prepare s) = s) ->
  forall P S ds, slots_match P S -> object_digests e w r counts H P cs = Some ds -> object_calls o prepare S cs = Some ds.
Proof.
  destruct (library_correct _ _ _ HL) as (WF & HI & D & DC).
  pose proof (library_value _ _ _ _ HL WF HI DC) as HV.
  destruct (library_octet_hash _ _ _ HL) as (W8 & W0 & He & _ & _).
  pose proof (bb_pos C WF) as BP.
  assert (R8 : 8 * r = block_bits C).
  { symmetry. apply Nat.div_exact; [lia|]. unfold block_bits. rewrite <- Nat.mul_mod_idemp_l, W8 by lia. reflexivity. }
  induction cs as [|c cs IH]; intros HA HR P S ds M HP; [exact HP|].
  inversion HA as [|? ? A1 A2]; subst. 
  assert (HR' : restores cs = true -> forall s, ob_reset_to o (prepare s) = s).
  { intros E. apply HR. unfold restores in *. cbn [existsb]. rewrite E. apply orb_true_r. }
  specialize (IH A2 HR').
  assert (NEW : matches (taken []) (c_init C)).
  { split; [constructor|]. split; [apply Nat.mod_0_l; lia|]. unfold absorbed. change (octets_bits []) with (@nil bool). now rewrite chunks_nil. }
  destruct c as [i|i b seen|i b total|i|i j|i j]; cbn [object_digests object_calls] in *.
  - apply (IH _ _ _ (put_match _ _ i _ _ M NEW) HP).
  - pose proof (M i) as Mi. destruct (P i) as [[m|]|]; try discriminate HP. destruct (S i) as [s|]; [|contradiction].
    destruct Mi as (Fm & Lm & ->).
    destruct (negb counts || _) eqn:EC in HP; [|discriminate HP].
    destruct A1 as (Lb & Fb & Hn).
    refine (IH _ _ _ (put_match _ _ i _ _ M _) HP). split; [|split].
    + apply Forall_app. split; [exact Fm|]. apply range_octets_fits.
    + rewrite app_length, range_octets_length, Lb.
      assert (LB : 8 * (w / 8 * bw) = block_bits C).
      { unfold block_bits. assert (w = 8 * (w / 8)) by (apply Nat.div_exact; lia). nia. }
      rewrite Nat.mul_add_distr_l, <- Nat.add_mod_idemp_l, Lm by lia. rewrite LB. apply Nat.mod_same. lia.
    + rewrite octets_bits_app, <- (range_stream e w b He W8).
      assert (Ls : length (stream e w b) = block_bits C) by (rewrite stream_length, Lb; unfold block_bits; lia).
      rewrite (absorbed_snoc C WF) by (rewrite ?octets_bits_length; auto).
      rewrite words_of_stream_stream by auto.
      destruct counts eqn:EK.
      * f_equal. cbn [negb orb] in EC. apply N.eqb_eq in EC. rewrite EC. unfold count, blen.
        rewrite app_length, octets_bits_length, Ls.
        replace (8 * length m + block_bits C) with (8 * (length m + r)) by (rewrite Nat.mul_add_distr_l, R8; reflexivity).
        unfold wrap64.
        symmetry. apply N.mod_small. rewrite <- EC. exact Hn.
      * now apply Hcount.
  - pose proof (M i) as Mi. destruct (P i) as [[m|]|]; try discriminate HP. destruct (S i) as [s|]; [|contradiction].
    destruct Mi as (Fm & Lm & ->). cbv zeta in HP. set (n := N.to_nat (total / 8) - length m) in *.
    destruct (_ && _ && _) eqn:EC in HP; [|discriminate HP].
    apply andb_true_iff in EC. destruct EC as [EC E3]. apply andb_true_iff in EC. destruct EC as [E1 E2].
    apply N.eqb_eq in E1. apply Nat.leb_le in E2. 
    destruct A1 as (Lb & Fb & Hn).
    set (T := firstn n (range_octets e w b)) in *.
    assert (LT : length T = n).
    { unfold T. rewrite firstn_length, range_octets_length, Lb. apply Nat.min_l.
      assert (8 * (w / 8 * bw) = block_bits C).
      { unfold block_bits. assert (w = 8 * (w / 8)) by (apply Nat.div_exact; lia). nia. }
      lia. }
    assert (FT : Forall (fits 8) T) by (apply Forall_firstn', range_octets_fits).
    assert (LL : (N.of_nat (8 * length (m ++ T)) < 2 ^ 64)%N) by (rewrite app_length, LT, <- E1; exact Hn).
    assert (Q : c_digest C (absorbed C (octets_bits m)) b total = Some (H (m ++ T))).
    { change (acc_result C (Mk_acc false total b (absorbed C (octets_bits m))) = Some (H (m ++ T))).
      rewrite <- HV; [|apply Forall_app; now split|exact LL].
      apply DC.
      - exists (octets_bits m), (octets_bits T). split; [apply octets_bits_app|]. split; [|discriminate].
        constructor; cbn [MAcc.total cache cst].
        + rewrite <- octets_bits_app. unfold count, blen, wrap64. rewrite octets_bits_length.
          rewrite N.mod_small by exact LL. rewrite app_length, LT. exact E1.
        + split; assumption.
        + rewrite octets_bits_length. exact Lm.
        + rewrite octets_bits_length, LT. lia.
        + intros ET. apply (f_equal (@length bool)) in ET. rewrite octets_bits_length, LT in ET. cbn [length] in ET.
          destruct m; [reflexivity|]. cbn [length] in E3. lia.
        + rewrite octets_bits_length, LT, (range_stream e w b He W8). unfold T. apply octets_bits_firstn.
        + reflexivity.
      - unfold LAcc.short, blen. rewrite octets_bits_length. exact LL.
      - rewrite octets_bits_length, Nat.mul_comm. apply Nat.mod_mul. lia. }
    pose proof (Hdigest (absorbed C (octets_bits m)) b total) as HD. rewrite Q in HD.
    destruct (ob_digest o _ b total) as [[s' d]|]; [|discriminate HD]. cbn [option_map snd] in HD. injection HD as ->.
    destruct (object_digests _ _ _ _ _ (put i spent P) cs) as [ds'|] eqn:EQ; [|discriminate HP].
    rewrite (IH (put i spent P) (put i s' S) ds' (put_match _ _ i spent s' M I) EQ). exact HP.
  - pose proof (M i) as Mi. destruct (P i) as [p|]; [|discriminate HP]. destruct (S i) as [s|]; [|contradiction].
    rewrite Hreset. apply (IH _ _ _ (put_match _ _ i _ _ M NEW) HP).
  - pose proof (M i) as Mi. destruct (P i) as [[m|]|]; try discriminate HP. destruct (S i) as [s|]; [|contradiction].
    pose proof (M j) as Mj. destruct (P j) as [p|]; [|discriminate HP]. destruct (S j) as [s'|]; [|contradiction].
    rewrite HR by reflexivity. apply (IH _ _ _ (put_match _ _ j _ _ M Mi) HP).
  - pose proof (M i) as Mi. destruct (P i) as [p|]; [|discriminate HP]. destruct (S i) as [s|]; [|contradiction].
    apply (IH _ _ _ (put_match _ _ j _ _ M Mi) HP).
Qed.
End Sim.

(** ** The three constructions *)
Lemma md_returns e w bw lb dw iv comp padding s b n :
  option_map snd (ob_digest (md_object e w bw lb dw iv comp padding) s b n) =
  c_digest (ob_class (md_object e w bw lb dw iv comp padding)) s b n.
Proof.
  cbn [ob_digest ob_class md_object c_digest md_construction]. unfold md_digest. cbv zeta.
  destruct (padding b _) as [[b1 seen1]|]; [|reflexivity].
  destruct (w * bw <? seen1 + lb); cbn beta iota; destruct (append_length e w bw lb _ _); reflexivity.
Qed.
Lemma sponge_returns e w bw db iv comp padding last fin s b n :
  option_map snd (ob_digest (sponge_object e w bw db iv comp padding last fin) s b n) =
  c_digest (ob_class (sponge_object e w bw db iv comp padding last fin)) s b n.
Proof.
  cbn [ob_digest ob_class sponge_object c_digest sponge_construction]. unfold sponge_digest. cbv zeta.
  destruct (padding b _) as [[b1 [|]]|]; [reflexivity| |reflexivity].
  destruct (last _ _); reflexivity.
Qed.
Lemma haifa_returns e w bw db iv comp padding salt s b n :
  option_map snd (ob_digest (haifa_object e w bw db iv comp padding salt) s b n) =
  c_digest (ob_class (haifa_object e w bw db iv comp padding salt)) s b n.
Proof.
  cbn [ob_digest ob_class haifa_object c_digest haifa_construction]. unfold haifa_digest. cbv zeta.
  destruct (padding b n); reflexivity.
Qed.
Lemma haifa_reset_twice db s : haifa_reset db (haifa_reset db s) = s.
Proof.
  destruct s as [|x l]; [reflexivity|]. cbn [haifa_reset]. f_equal.
  rewrite N.lxor_assoc, N.lxor_nilpotent. apply N.lxor_0_r.
Qed.

Lemma nothing_match o : slots_match o nothing nothing.
Proof. intros i. exact I. Qed.

Lemma xor_changes x c : c <> 0%N -> N.lxor x c <> x.
Proof.
  intros Hc E. apply Hc. transitivity (N.lxor x (N.lxor x c)).
  - now rewrite <- N.lxor_assoc, N.lxor_nilpotent, N.lxor_0_l.
  - rewrite E. apply N.lxor_nilpotent.
Qed.
Lemma parameter_nonzero bits : bits <= 512 -> N.lxor 0x01010000 (N.of_nat (bits / 8)) <> 0%N.
Proof. intros Hb E. apply N.lxor_eq in E. lia. Qed.
