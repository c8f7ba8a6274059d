(** Collisions of the Poseidon hashes, in terms of the calls. *)
From Coq Require Import NArith ZArith Arith List Bool Lia.
From Verif Require Import SpecPoseidon MPoseidonTables MPoseidon.
From Verif Require LPoseidonSponge LPoseidonStmt LZp.
Import ListNotations.

Section M.
Context (F : ring) (dec : forall x y : F, {x = y} + {x <> y}) (P : base_policy) (perm : list F -> list F) (permM : list F -> option (list F))
  (HC : capacity P = 1) (HR : 0 < rate P)
  (HP : forall s, length s = state_words P -> permM s = Some (perm s) /\ length (perm s) = state_words P).
Notation inputs xs := (permutation_inputs perm (rate P) xs).

Lemma same_sponge xs ys h : hash_range P permM xs = Some h -> hash_range P permM ys = Some h ->
  sponge perm (rate P) xs = sponge perm (rate P) ys.
Proof. rewrite !(LPoseidonSponge.hash_range_sponge P perm permM HC HR HP). congruence. Qed.
Lemma same_length xs ys h : length xs = length ys -> hash_range P permM xs = Some h -> hash_range P permM ys = Some h ->
  xs = ys \/ collision perm (inputs xs ++ inputs ys).
Proof. intros L A B. apply (LPoseidonStmt.sponge_same_length dec); auto. exact (same_sponge _ _ _ A B). Qed.
Lemma any_length xs ys h : length xs <= length ys -> hash_range P permM xs = Some h -> hash_range P permM ys = Some h ->
  (exists n, ys = xs ++ repeat zero n /\ padded (rate P) xs = padded (rate P) ys) \/
  collision perm (inputs xs ++ inputs ys) \/ zero_result perm (inputs xs ++ inputs ys).
Proof.
  intros L A B. destruct (LPoseidonStmt.sponge_collision dec perm (rate P) HR xs ys (same_sponge _ _ _ A B)) as [E|E]; [left|right; exact E].
  destruct (LPoseidonStmt.padded_equal (rate P) xs ys E L) as (n & Hn). exists n. auto.
Qed.
End M.
Lemma groups_fuel_length {A} k f : forall l l' : list A, length l = length l' -> length (groups_fuel f k l) = length (groups_fuel f k l').
Proof.
  induction f as [|f IH]; intros l l' L; [reflexivity|]. destruct l as [|x l], l' as [|x' l']; try discriminate L; [reflexivity|].
  cbn [groups_fuel length]. f_equal. apply IH. now rewrite !skipn_length, L.
Qed.
Lemma packed_length word_bits w ws ws' : length ws = length ws' -> length (packed word_bits w ws) = length (packed word_bits w ws').
Proof. intros L. unfold packed, groups. rewrite !map_length, <- L. now apply groups_fuel_length. Qed.
Lemma integers p P perm permM word_bits w ws ws' h : capacity P = 1 -> 0 < rate P ->
  (forall s, length s = state_words P -> permM s = Some (perm s) /\ length (perm s) = state_words P) ->
  0 < w <= word_bits -> w < 32 -> (2 ^ Z.of_nat (word_bits / w * w) <= p)%Z -> length ws = length ws' ->
  Forall (fun x => 0 <= x < 2 ^ Z.of_nat w)%Z ws -> Forall (fun x => 0 <= x < 2 ^ Z.of_nat w)%Z ws' ->
  hash_integers (F := Zp p) P (to_zp p) word_bits permM w ws = Some h ->
  hash_integers (F := Zp p) P (to_zp p) word_bits permM w ws' = Some h ->
  ws = ws' \/ collision perm (permutation_inputs perm (rate P) (map (to_zp p) (packed word_bits w ws)) ++
                              permutation_inputs perm (rate P) (map (to_zp p) (packed word_bits w ws'))).
Proof.
  intros HC HR HP Hw H32 Hp L F1 F2.
  rewrite !(LPoseidonSponge.hash_integers_sponge P perm permM HC HR HP (to_zp p) word_bits (LZp.to_zp_add p) (LZp.to_zp_mul p) eq_refl w) by lia.
  intros A B. assert (E : sponge perm (rate P) (map (to_zp p) (packed word_bits w ws)) = sponge perm (rate P) (map (to_zp p) (packed word_bits w ws'))) by (rewrite <- B in A; inversion A; reflexivity).
  assert (LL : length (map (to_zp p) (packed word_bits w ws)) = length (map (to_zp p) (packed word_bits w ws'))).
  { rewrite !map_length. now apply packed_length. }
  destruct (@LPoseidonStmt.sponge_same_length (Zp p) (LZp.zp_dec p) perm (rate P) HR (map (to_zp p) (packed word_bits w ws)) (map (to_zp p) (packed word_bits w ws')) LL E) as [K|K]; [left|right; exact K].
  exact (LPoseidonStmt.packed_injective p word_bits w ws ws' Hw Hp L F1 F2 K).
Qed.
