(** What the Miller-Rabin test checks for one base, independent of how it is computed
    (Rabin 1980; FIPS 186-4, C.3.1). *)
From Verif Require Import Base.
Open Scope Z_scope.

(** N - 1 = 2^r d with d odd; a^d is 1, or one of a^d, a^2d, ..., a^(2^(r-1) d) is -1, modulo N. *)
Definition strong_probable_prime (N a : Z) : Prop :=
  exists r d, 0 < r /\ Z.odd d = true /\ N - 1 = 2 ^ r * d /\
    (a ^ d mod N = 1 \/ exists i, 0 <= i < r /\ a ^ (2 ^ i * d) mod N = N - 1).
