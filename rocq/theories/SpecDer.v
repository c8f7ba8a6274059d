(** * Specification: DER-encoded DigestInfo (PKCS #1, RFC 8017 section 9.2)

    DigestInfo ::= SEQUENCE { AlgorithmIdentifier, OCTET STRING }, where the algorithm identifier
    of a hash is SEQUENCE { OBJECT IDENTIFIER, NULL }.  A decoder for that shape. *)
From Coq Require Import NArith Arith List Bool.
Import ListNotations.
Local Open Scope N_scope.

(** One tag-length-value element with the given tag; lengths below 128 have the one-octet form
    (X.690 section 8.1.3.4), the only one occurring here. *)
Definition take_tlv (tag : N) (os : list N) : option (list N * list N) :=
  match os with
  | t :: l :: rest =>
      if (t =? tag) && (l <? 128) && (N.to_nat l <=? length rest)%nat
      then Some (firstn (N.to_nat l) rest, skipn (N.to_nat l) rest) else None
  | _ => None
  end.

(** Base-128 subidentifiers (X.690 section 8.19.2), most significant first, top bit of all octets
    but the last set; no leading 0x80. *)
Fixpoint subids (acc : N) (fresh : bool) (os : list N) : option (list N) :=
  match os with
  | [] => if fresh then Some [] else None
  | o :: os' =>
      if o <? 128 then option_map (cons (128 * acc + o)) (subids 0 true os')
      else if fresh && (o =? 128) then None
      else subids (128 * acc + (o - 128)) false os'
  end.

(** X.690 section 8.19.4: the first subidentifier holds the first two components. *)
Definition oid (os : list N) : option (list N) :=
  match subids 0 true os with
  | Some (s :: r) => Some (if s <? 40 then 0 :: s :: r else if s <? 80 then 1 :: s - 40 :: r
                           else 2 :: s - 80 :: r)
  | _ => None
  end.

Definition SEQUENCE := 0x30. Definition OBJECT_IDENTIFIER := 0x06. Definition NULL := 0x05.
Definition OCTET_STRING := 0x04.

(** The object identifier and the digest of a DigestInfo; [None] if it is not one. *)
Definition digest_info (os : list N) : option (list N * list N) :=
  match take_tlv SEQUENCE os with
  | Some (body, []) =>
      match take_tlv SEQUENCE body with
      | Some (alg, rest) =>
          match take_tlv OBJECT_IDENTIFIER alg, take_tlv OCTET_STRING rest with
          | Some (o, params), Some (d, []) =>
              match take_tlv NULL params, oid o with
              | Some ([], []), Some arcs => Some (arcs, d)
              | _, _ => None
              end
          | _, _ => None
          end
      | None => None
      end
  | _ => None
  end.

(** Registered object identifiers. *)
Definition id_md5 : list N := [1; 2; 840; 113549; 2; 5].             (* RFC 8017 A.2.4 *)
Definition id_sha1 : list N := [1; 3; 14; 3; 2; 26].                 (* RFC 8017 A.2.4 *)
Definition id_sha0 : list N := [1; 3; 14; 3; 2; 18].                 (* OIW: the withdrawn SHA *)
Definition id_sha224 : list N := [2; 16; 840; 1; 101; 3; 4; 2; 4].   (* NIST hashAlgs *)
Definition id_sha256 : list N := [2; 16; 840; 1; 101; 3; 4; 2; 1].
Definition id_sha384 : list N := [2; 16; 840; 1; 101; 3; 4; 2; 2].
Definition id_sha512 : list N := [2; 16; 840; 1; 101; 3; 4; 2; 3].
Definition id_sha3_224 : list N := [2; 16; 840; 1; 101; 3; 4; 2; 7].
Definition id_sha3_256 : list N := [2; 16; 840; 1; 101; 3; 4; 2; 8].
Definition id_sha3_384 : list N := [2; 16; 840; 1; 101; 3; 4; 2; 9].
Definition id_sha3_512 : list N := [2; 16; 840; 1; 101; 3; 4; 2; 10].
Definition id_ripemd160 : list N := [1; 3; 36; 3; 2; 1].             (* TeleTrusT *)
Definition id_ripemd128 : list N := [1; 3; 36; 3; 2; 2].
Definition id_ripemd256 : list N := [1; 3; 36; 3; 2; 3].
Definition id_tiger192 : list N := [1; 3; 6; 1; 4; 1; 11591; 12; 2]. (* GNU *)
