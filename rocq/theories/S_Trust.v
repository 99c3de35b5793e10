(** Certification paths (RFC 5280, section 6), over the observable fields of certificates. *)
From Verif Require Import Base M_X509.
Open Scope Z_scope.

(** [signed c i]: certificate [c] was checked against [i] with success. [trusted name] is the
    trusted certificate of that name, if any. *)
Section Path.
  Variable signed : cert -> cert -> Prop.
  Variable trusted : list Z -> option cert.
  Variable pool : list cert.
  (** [path c l]: [l] leads from [c] to a trusted certificate through members of the pool. *)
  Inductive path : cert -> list cert -> Prop :=
  | path_root c r : trusted (issuer c) = Some r -> signed c r -> path c [r]
  | path_step c i l : In i pool -> subject i = issuer c -> signed c i -> path i l -> path c (i :: l).
End Path.

Definition valid_at (now : Z) (c : cert) : Prop := validity_start c <= now <= validity_end c.
Definition nested (c i : cert) : Prop := validity_start i <= validity_start c /\ validity_end c <= validity_end i.
