(** What a signed certificate looks like (RFC 5280, 4.1.1.3; X.690, 8.1.3), for the soundness of
    certificate verification: a layout of bytes that does not mention the reader. *)
From Verif Require Import Base S_Base64 S_Hash M_Hash M_HKDF S_RSA S_X509.
Open Scope Z_scope.

(** The length [n] is what the length bytes [enc] say in a 64 bit machine word. *)
Definition says (n : Z) (enc : list Z) : Prop :=
  (0 <= n < 128 /\ enc = [n]) \/ (exists ds, bytes ds /\ zlen ds < 128 /\ n = be_val ds mod 2 ^ 64 /\ enc = (128 + zlen ds) :: ds).
(** SEQUENCE { SEQUENCE tbs, SEQUENCE { algorithm, ... }, BIT STRING sig }; the length [n0] of the
    outer SEQUENCE can be wrong (C69). *)
Definition laid_out (der tbs oid sig : list Z) : Prop :=
  exists n0 l0 l1 l2 l3 l4 algo tag unused rest more,
    says n0 l0 /\ says (zlen tbs) l1 /\ says (zlen algo) l2 /\ says (1 + zlen sig) l3 /\ says (zlen oid) l4 /\
    der = (48 :: l0) ++ (48 :: l1 ++ tbs) ++ (48 :: l2 ++ algo) ++ (3 :: l3 ++ unused :: sig) ++ rest /\
    algo ++ (3 :: l3 ++ unused :: sig) ++ rest = tag :: l4 ++ oid ++ more.
(** The three signature algorithms. *)
Definition sig_alg (oid : list Z) (a : alg) : Prop :=
  (oid = rsa_sig_oid 11 /\ a = ASHA256) \/ (oid = rsa_sig_oid 12 /\ a = ASHA384) \/ (oid = rsa_sig_oid 13 /\ a = ASHA512).
