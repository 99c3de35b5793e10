(** Example RSA keys.  The moduli are products of distinct small primes, so that the factors are
    checked to be prime by computation; d is the inverse of 65537 modulo lcm(p - 1). *)
From Coq Require Import Znumtheory.
From Verif Require Import Base BaseP P_Fermat P_Prime.
Open Scope Z_scope.

Definition primeb (p : Z) : bool := (1 <? p) && (p <? 961) && forallb (fun k => negb (p mod (Z.of_nat k) =? 0) || (p =? Z.of_nat k)) (seq 2 29).
Lemma primeb_ok p : primeb p = true -> prime p.
Proof.
  unfold primeb; rewrite !andb_true_iff, Z.ltb_lt, Z.ltb_lt. intros [[H1 H2] F]. destruct (prime_dec p) as [P|NP]; [exact P|exfalso].
  destruct (small_factor p H1 NP) as (q & Pq & Dq & Sq). pose proof (prime_ge_2 q Pq). rewrite forallb_forall in F.
  specialize (F (Z.to_nat q) ltac:(apply in_seq; nia)). rewrite Z2Nat.id in F by lia. apply Z.mod_divide in Dq; [|lia]. rewrite Dq in F; cbn [Z.eqb negb orb] in F.
  apply Z.eqb_eq in F; subst q. contradiction.
Qed.
Fixpoint increasing (x : Z) (l : list Z) : bool := match l with [] => true | y :: r => (x <? y) && increasing y r end.
Lemma increasing_ok l : forall x, increasing x l = true -> (forall y, In y l -> x < y) /\ NoDup l.
Proof.
  induction l as [|y r IH]; intros x H; [split; [intros y [] | constructor]|]. cbn [increasing] in H. apply andb_prop in H; destruct H as [H1 H2].
  apply Z.ltb_lt in H1. destruct (IH y H2) as [A Bn]. split.
  - intros z [->|Hz]; [exact H1 | specialize (A z Hz); lia].
  - constructor; [intros C; specialize (A y C); lia | exact Bn].
Qed.
(** Raising to the power e d is the identity modulo a product of distinct primes. *)
Definition key_check (l : list Z) (e d : Z) : bool :=
  forallb primeb l && increasing 0 l && (0 <? e * d) && forallb (fun p => (e * d - 1) mod (p - 1) =? 0) l.
Lemma key_check_ok l e d : key_check l e d = true -> forall m, (prods l | m ^ (e * d) - m).
Proof.
  unfold key_check; rewrite !andb_true_iff, Z.ltb_lt. intros [[[H1 H2] H3] H4] m. rewrite forallb_forall in H1, H4. apply prods_divide.
  - apply Forall_forall; intros p Hp; apply primeb_ok, H1, Hp.
  - apply (increasing_ok l 0 H2).
  - intros p Hp. specialize (H4 p Hp). apply Z.eqb_eq in H4. pose proof (primeb_ok p (H1 p Hp)) as Pp. pose proof (prime_ge_2 p Pp).
    apply Z.mod_divide in H4; [|lia]. destruct H4 as [k H4]. replace (e * d) with (1 + k * (p - 1)) by lia. apply fermat_exp; [exact Pp | nia].
Qed.

Definition L272 := [3; 5; 7; 11; 17; 23; 29; 31; 37; 43; 53; 61; 67; 73; 103; 127; 131; 137; 157; 199; 211; 239; 241; 281; 307; 313; 331; 337; 397; 409; 421; 443; 521; 547; 613; 631; 859; 937; 953].
Definition N272 := 7022019314864296495237719351414539059817611517461896120232396741002384139444260855.
Definition D272 := 2717153.
Lemma K272 : N272 = prods L272 /\ key_check L272 65537 D272 = true. Proof. split; vm_compute; reflexivity. Qed.
Definition L277 := [3; 5; 13; 17; 19; 23; 29; 37; 43; 67; 71; 73; 79; 89; 103; 113; 127; 131; 137; 157; 181; 211; 241; 281; 307; 331; 337; 397; 421; 443; 463; 521; 613; 617; 631; 661; 859; 911; 953].
Definition N277 := 126495118355800715840040692015564490275828720094941626298287633907671225057589556585.
Definition D277 := 2717153.
Lemma K277 : N277 = prods L277 /\ key_check L277 65537 D277 = true. Proof. split; vm_compute; reflexivity. Qed.
Definition L304 := [3; 5; 11; 13; 17; 19; 23; 31; 41; 43; 53; 61; 67; 71; 73; 79; 89; 103; 113; 131; 157; 199; 211; 239; 241; 281; 307; 313; 331; 337; 397; 421; 443; 463; 521; 547; 617; 631; 661; 859; 881; 937; 953].
Definition N304 := 20367344542141291157830265955008833829733650732655206769718576407047808977218724744057200935.
Definition D304 := 2717153.
Lemma K304 : N304 = prods L304 /\ key_check L304 65537 D304 = true. Proof. split; vm_compute; reflexivity. Qed.
Definition L784 := [3; 5; 11; 17; 19; 23; 37; 47; 53; 73; 83; 97; 101; 103; 113; 127; 131; 137; 149; 151; 157; 167; 173; 181; 191; 197; 229; 233; 239; 241; 257; 269; 271; 283; 311; 317; 353; 359; 373; 401; 409; 419; 421; 433; 439; 449; 457; 461; 479; 487; 491; 503; 509; 521; 523; 541; 547; 563; 569; 571; 577; 601; 607; 613; 617; 619; 631; 643; 647; 653; 661; 673; 677; 701; 719; 733; 739; 757; 773; 787; 797; 809; 811; 821; 823; 829; 857; 863; 877; 887; 919; 929; 941; 947; 953].
Definition N784 := 82570219209218946706855527145229900161292536052134384145646972246251922288415453709156075514046188556600114417690113143161516080719154247156566432084320549235899915827332359595334773412604290206174967654913171968361095203514614355964535.
Definition D784 := 1183525888980631033134765770174722879197702667622158826037385371895862273.
Lemma K784 : N784 = prods L784 /\ key_check L784 65537 D784 = true. Proof. split; vm_compute; reflexivity. Qed.
