(** * Messages as octet strings

    The octets of ranges of wide integers and of histories of calls, in the byte order of the machine,
    and of blocks, in the byte order of the hash ([octets_in_order], SpecStream.v). *)
From Coq Require Import NArith Arith List.
From Verif Require Import SpecStream MAcc.
Import ListNotations.

(** The octets of a range of [vb]-bit integers. *)
Definition range_octets (e : endian) (vb : nat) (xs : list N) : list N :=
  flat_map (octets_in_order e (vb / 8)) xs.

(** The octets of successive ranges, each with its own width. *)
Definition pieces_octets (e : endian) (ps : list (nat * list N)) : list N :=
  flat_map (fun p => range_octets e (fst p) (snd p)) ps.

(** The octets of blocks of [w]-bit words of which the first [n] octets count. *)
Definition blocks_octets (e : endian) (w : nat) (fs : list (list N * nat)) : list N :=
  flat_map (fun f => firstn (snd f) (range_octets e w (fst f))) fs.

(** The digests a history must return. *)
Fixpoint expected_octets {A} (e : endian) (H : list N -> A) (os : list N) (ops : list op) : list A :=
  match ops with
  | [] => []
  | OpHash vb xs :: ops' => expected_octets e H (os ++ range_octets e vb xs) ops'
  | OpExtract :: ops' => H os :: expected_octets e H os ops'
  end.

(** Everything a history feeds. *)
Definition history_octets (e : endian) (ops : list op) : list N :=
  flat_map (fun o => match o with OpHash vb xs => range_octets e vb xs | OpExtract => [] end) ops.
