(** C120: the host names a certificate applies to. *)
From Coq Require Import String.
From Verif Require Import Base BaseP S_Bignum M_Bignum P_Bignum P_RSA S_X509 M_X509 P_Cert Cert_Data Prop_X509.
Open Scope Z_scope.

(** ** Specification: RFC 5280 4.2.1.6, RFC 6125 6.4 (RFC 9525 6.3 drops the common name) *)
(** The extension subjectAltName (2.5.29.17) with DNS names. *)
Definition san (names : list (list Z)) : Z * list Z :=
  (163, tlv 48 (tlv 48 (tlv 6 [85; 29; 17] ++ tlv 4 (tlv 48 (concat (map (tlv 130) names)))))).
(** Names are compared without regard to case; a star stands for one label at the left. *)
Definition lower (c : Z) : Z := if (65 <=? c) && (c <=? 90) then c + 32 else c.
Definition same_name (a b : list Z) : Prop := map lower a = map lower b.
Definition presented (p host : list Z) : Prop :=
  same_name p host \/ exists rest label host', p = [42; 46] ++ rest /\ host = label ++ [46] ++ host' /\ label <> [] /\ ~ In 46 label /\ same_name rest host'.
Definition common_name (t : tbs) : list Z := last_value (t_subject t) [85; 4; 3].
(** A certificate with DNS names is for hosts that match one of them, and for no other. *)
Definition is_for (t : tbs) (names : list (list Z)) (host : list Z) : Prop := t_tail t = [san names] /\ Exists (fun p => presented p host) names.
Definition encoded (t : tbs) (after rest : list Z) : list Z := tlv 48 (tlv 48 (tbs_content t) ++ after) ++ rest.

(** ** What the code does *)
Lemma applies t after rest : good_tbs t -> zlen (encoded t after rest) < 2 ^ 64 -> exists c, parse_der (encoded t after rest) = Ok c /\ forall host, appliesTo c host = true <-> host = common_name t.
Proof.
  intros G HL. destruct (C81_fields t after rest G HL) as (c & _ & _ & _ & P & _ & _ & _ & _ & _ & A & _). exists c. split; [exact P | exact A].
Qed.
(** Names that are listed and not the common name, in whatever certificate: refused. *)
Theorem C120_listed_refuted : forall t after rest names host, good_tbs t -> zlen (encoded t after rest) < 2 ^ 64 -> is_for t names host -> host <> common_name t ->
  exists c, parse_der (encoded t after rest) = Ok c /\ appliesTo c host = false.
Proof.
  intros t after rest names host G HL _ NC. destruct (applies t after rest G HL) as (c & P & A). exists c. split; [exact P|]. destruct (appliesTo c host) eqn:E; [|reflexivity]. apply A in E. contradiction.
Qed.
(** The common name is accepted, even if names are listed and it is not among them. *)
Theorem C120_unlisted_refuted : forall t after rest names, good_tbs t -> zlen (encoded t after rest) < 2 ^ 64 -> t_tail t = [san names] -> ~ is_for t names (common_name t) ->
  exists c, parse_der (encoded t after rest) = Ok c /\ appliesTo c (common_name t) = true.
Proof. intros t after rest names G HL _ _. destruct (applies t after rest G HL) as (c & P & A). exists c. split; [exact P|]. apply A. reflexivity. Qed.
(** Of the ways to write a name in large and small letters one is accepted. *)
Theorem C120_case_refuted : forall t after rest host, good_tbs t -> zlen (encoded t after rest) < 2 ^ 64 -> same_name host (common_name t) -> host <> common_name t ->
  exists c, parse_der (encoded t after rest) = Ok c /\ appliesTo c host = false.
Proof.
  intros t after rest host G HL _ NC. destruct (applies t after rest G HL) as (c & P & A). exists c. split; [exact P|]. destruct (appliesTo c host) eqn:E; [|reflexivity]. apply A in E. contradiction.
Qed.
(** A star stands for itself only. *)
Theorem C120_wildcard_refuted : forall t after rest domain label, good_tbs t -> zlen (encoded t after rest) < 2 ^ 64 -> common_name t = [42; 46] ++ domain -> label <> [42] -> ~ In 46 label ->
  exists c, parse_der (encoded t after rest) = Ok c /\ appliesTo c (label ++ [46] ++ domain) = false /\ appliesTo c ([42; 46] ++ domain) = true.
Proof.
  intros t after rest domain label G HL EC NL ND. destruct (applies t after rest G HL) as (c & P & A). exists c. split; [exact P|]. rewrite EC in A. split; [|apply A; reflexivity].
  destruct (appliesTo c _) eqn:E; [|reflexivity]. apply A in E. exfalso. destruct label as [|x [|y label]]; cbn [app] in E.
  - discriminate E.
  - apply NL. congruence.
  - apply ND. right. left. congruence.
Qed.
Lemma absent oid : forall n v, ~ In oid (map a_oid n) -> fold_left (fun v a => if list_eqb (a_oid a) oid then a_value a else v) n v = v.
Proof.
  induction n as [|a l IH]; intros v N; [reflexivity|]. cbn [map] in N. cbn [fold_left].
  destruct (list_eqb (a_oid a) oid) eqn:E; [apply list_eqb_eq in E; exfalso; apply N; left; exact E|]. apply IH. intros H. apply N. right. exact H.
Qed.
(** A certificate without a common name applies to the empty name. *)
Theorem C120_nameless : forall t after rest, good_tbs t -> zlen (encoded t after rest) < 2 ^ 64 -> ~ In [85; 4; 3] (map a_oid (t_subject t)) ->
  exists c, parse_der (encoded t after rest) = Ok c /\ forall host, appliesTo c host = true <-> host = [].
Proof.
  intros t after rest G HL N. destruct (applies t after rest G HL) as (c & P & A). exists c. split; [exact P|]. replace (common_name t) with (@nil Z) in A; [exact A|].
  symmetry. apply absent. exact N.
Qed.
(** The two claims together, for one certificate: issued for www.b.c and *.d.e, common name a. *)
Definition tN : tbs := Tbs 5 alg11 (cn "M") (day 2022) (day 2025) (cn "a") nB 65537 [san [chars "www.b.c"; chars "*.d.e"]].
Lemma good_N : good_tbs tN. Proof. unfold tN. good_t. Qed.
Theorem C120_names_refuted : exists t names host wrong c, good_tbs t /\ t_tail t = [san names] /\ parse_der (encoded t [] []) = Ok c /\
  is_for t names host /\ appliesTo c host = false /\ ~ is_for t names wrong /\ appliesTo c wrong = true.
Proof.
  destruct (applies tN [] [] good_N ltac:(vm_compute; reflexivity)) as (c & P & A). change (common_name tN) with (chars "a") in A.
  exists tN, [chars "www.b.c"; chars "*.d.e"], (chars "X.d.E"), (chars "a"), c. split; [exact good_N|]. split; [reflexivity|]. split; [exact P|].
  split; [split; [reflexivity|]; apply Exists_cons_tl, Exists_cons_hd; right; exists (chars "d.e"), (chars "X"), (chars "d.E"); repeat split; [discriminate | intros [H|[]]; discriminate H]|].
  split; [destruct (appliesTo c (chars "X.d.E")) eqn:E; [apply A in E; discriminate E | reflexivity]|].
  split; [|apply A; reflexivity].
  intros [_ H]. inversion H as [? ? [X|(r & l & h & E & F & _ & ND & _)]|? ? H2]; subst.
  - discriminate X.
  - discriminate E.
  - inversion H2 as [? ? [X|(r & l & h & E & F & _ & ND & _)]|? ? H3]; subst; [discriminate X | | inversion H3].
    change (chars "a") with [97] in F. destruct l as [|x [|y l]]; discriminate F.
Qed.
Print Assumptions C120_listed_refuted.
Print Assumptions C120_unlisted_refuted.
Print Assumptions C120_case_refuted.
Print Assumptions C120_wildcard_refuted.
Print Assumptions C120_nameless.
Print Assumptions C120_names_refuted.
Example C120_case : good_tbs tN /\ zlen (encoded tN [] []) < 2 ^ 64 /\ is_for tN [chars "www.b.c"; chars "*.d.e"] (chars "WWW.b.c") /\ chars "WWW.b.c" <> common_name tN /\ same_name (chars "A") (common_name tN) /\ chars "A" <> common_name tN.
Proof. split; [exact good_N|]. split; [vm_compute; reflexivity|]. split; [split; [reflexivity|]; apply Exists_cons_hd; left; reflexivity|]. split; [discriminate|]. split; [reflexivity | discriminate]. Qed.
