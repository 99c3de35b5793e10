(** Proofs about certificates whose names have any attributes, in any string types, several to a set. *)
From Coq Require Import String.
From Verif Require Import Base BaseP M_Base64 S_Hash M_Hash M_HKDF S_Bignum M_Bignum P_Bignum Prop_Bignum M_Mont P_Mont S_RSA M_RSA P_RSA S_X509 M_X509 P_X509 P_Date P_Name P_Cert.
Open Scope Z_scope.

(** RFC 5280 4.1.2.4: a relative distinguished name is a set of at least one attribute. *)
Definition atv (a : attr) : list Z := tlv 48 (tlv 6 (a_oid a) ++ tlv (a_tag a) (a_value a)).
Definition set_der (s : attr * list attr) : list Z := tlv 49 (atv (fst s) ++ concat (map atv (snd s))).
Definition sets_der (n : list (attr * list attr)) : list Z := concat (map set_der n).
(** The value of an attribute if it is a UTF8String or a PrintableString. *)
Definition shown (a : attr) : list Z := if (a_tag a =? 12) || (a_tag a =? 19) then a_value a else [].

Lemma set_part_none n oid s : ~ In oid (map fst labels) -> set_part n oid s = None.
Proof.
  intros H. destruct n. unfold set_part.
  repeat (match goal with |- (if list_eqb oid ?k then _ else _) = _ => destruct (list_eqb oid k) eqn:E; [exfalso; apply H; apply list_eqb_eq in E; rewrite E; unfold labels, oid_at, oid_email; cbn [map fst]; repeat (first [left; reflexivity | right])|clear E] end).
  reflexivity.
Qed.
Lemma parse_string_any pre tag v post rest : zlen v < 2 ^ 64 ->
  parse_string (cur pre (tlv tag v ++ post) rest) = Ok (if (tag =? 12) || (tag =? 19) then v else [], cur (pre ++ tlv tag v) post rest).
Proof.
  intros HL. unfold parse_string. rewrite read_tlv by exact HL. cbn [bind s_data]. unfold id_printablestring, id_utf8string. destruct (tag =? 12), (tag =? 19); reflexivity.
Qed.
Lemma read_set pre s post rest : zlen (set_der s) < 2 ^ 64 ->
  readOIDAndString (cur pre (set_der s ++ post) rest) = Ok (a_oid (fst s), shown (fst s), cur (pre ++ set_der s) post rest).
Proof.
  destruct s as [a more]. unfold set_der, atv, shown. cbn [fst snd]. intros HL.
  pose proof (tlv_length 49 (tlv 48 (tlv 6 (a_oid a) ++ tlv (a_tag a) (a_value a)) ++ concat (map (fun a => tlv 48 (tlv 6 (a_oid a) ++ tlv (a_tag a) (a_value a))) more))) as L1.
  unfold atv in HL. rewrite zlen_app in L1. pose proof (tlv_length 48 (tlv 6 (a_oid a) ++ tlv (a_tag a) (a_value a))) as L2. rewrite (zlen_app (tlv 6 (a_oid a))) in L2.
  pose proof (tlv_length 6 (a_oid a)) as L3. pose proof (tlv_length (a_tag a) (a_value a)) as L4. nn.
  unfold readOIDAndString. rewrite read_tlv by (rewrite zlen_app; lia). cbn [bind].
  change (negb (49 =? id_set)) with false. cbv iota. rewrite view_of_cur, read_tlv by (rewrite zlen_app; lia). cbn [bind]. change (negb (48 =? id_sequence)) with false. cbv iota.
  rewrite view_of_cur, read_tlv by lia. cbn [bind]. change (negb (6 =? id_object)) with false. cbv iota. cbn [app s_data].
  rewrite <- (app_nil_r (tlv (a_tag a) (a_value a))), parse_string_any by lia. cbn [bind fst]. rewrite app_nil_r. reflexivity.
Qed.
Fixpoint read_sets (rv : x509name) (l : list (attr * list attr)) : x509name :=
  match l with
  | [] => rv
  | s :: l' => match set_part rv (a_oid (fst s)) (shown (fst s)) with Some rv' => read_sets rv' l' | None => no_name end
  end.
Lemma name_loop_sets : forall l fuel rv pre rest, (List.length l <= fuel)%nat -> zlen (sets_der l) < 2 ^ 64 ->
  name_loop fuel rv (cur pre (sets_der l) rest) = Ok (read_sets rv l).
Proof.
  induction l as [|s l IH]; intros fuel rv pre rest HF HL.
  - unfold sets_der. cbn [map concat]. destruct fuel; cbn [name_loop]; rewrite empty_cur; reflexivity.
  - cbn [List.length] in HF. destruct fuel as [|fuel]; [lia|]. change (sets_der (s :: l)) with (set_der s ++ sets_der l) in *. cbn [name_loop]. rewrite empty_cur.
    destruct (set_der s ++ sets_der l) eqn:E; [unfold set_der, tlv in E; discriminate E|]. rewrite <- E in *. clear E.
    rewrite zlen_app in HL. pose proof (zlen_nonneg (sets_der l)). pose proof (zlen_nonneg (set_der s)).
    rewrite read_set by lia. cbn [bind read_sets]. destruct (set_part rv (a_oid (fst s)) (shown (fst s))); [apply IH; lia | reflexivity].
Qed.
Lemma sets_length l : (List.length l <= List.length (sets_der l))%nat.
Proof.
  induction l as [|s l IH]; [reflexivity|]. change (sets_der (s :: l)) with (set_der s ++ sets_der l). rewrite app_length. unfold set_der at 1, tlv at 1. cbn [List.length]. lia.
Qed.
Lemma parse_name_sets l rest : zlen (sets_der l) < 2 ^ 64 -> parse_name (view_of (Sp (sets_der l) rest)) = Ok (read_sets no_name l).
Proof. intros HL. unfold parse_name. rewrite view_of_cur. cbn [v_span cur s_data app]. pose proof (sets_length l). apply name_loop_sets; [lia | exact HL]. Qed.

(** What is kept of a name: the first attribute of each set, values of other string types as empty. *)
Definition kept_of (l : list (attr * list attr)) : list attr := map (fun s => Attr (a_oid (fst s)) 12 (shown (fst s))) l.
Definition types_known (l : list (attr * list attr)) : Prop := Forall (fun s => In (a_oid (fst s)) (map fst labels)) l.
Definition type_unknown (l : list (attr * list attr)) : Prop := Exists (fun s => ~ In (a_oid (fst s)) (map fst labels)) l.
Lemma read_sets_known : forall l rv, types_known l -> Forall (fun o => field (read_sets rv l) o = fold_left (upd_value o) (kept_of l) (field rv o)) (map fst labels).
Proof.
  induction l as [|s l IH]; intros rv K; [apply Forall_forall; reflexivity|]. apply Forall_cons_iff in K. destruct K as [KO K]. cbn [read_sets].
  destruct (set_part_ok rv (a_oid (fst s)) (shown (fst s)) KO) as (n' & -> & F'). specialize (IH n' K). rewrite Forall_forall in *. intros o Ho. rewrite (IH o Ho). cbn [kept_of map fold_left]. f_equal. rewrite (F' o Ho). reflexivity.
Qed.
Lemma read_sets_unknown : forall l rv, type_unknown l -> read_sets rv l = no_name.
Proof.
  intros l rv H. revert rv. induction H as [s l N|s l _ IH]; intros rv; cbn [read_sets].
  - rewrite set_part_none by exact N. reflexivity.
  - destruct (set_part rv (a_oid (fst s)) (shown (fst s))); [apply IH | reflexivity].
Qed.
Lemma read_known l : types_known l -> name_string (read_sets no_name l) = name_text (kept_of l) /\ common_name (read_sets no_name l) = last_value (kept_of l) [85; 4; 3].
Proof.
  intros K. assert (F : Forall (fun o => field (read_sets no_name l) o = last_value (kept_of l) o) (map fst labels)).
  { pose proof (read_sets_known l no_name K) as F. rewrite Forall_forall in *. intros o Ho. rewrite (F o Ho), field_none. reflexivity. }
  split; [apply name_text_ok; exact F | apply common_name_ok; exact F].
Qed.

(** A certificate whose names are any sets of attributes; the other fields are those of [t]. *)
Definition named (t : tbs) (i s : list (attr * list attr)) : list Z :=
  tlv 160 (integer 2) ++ integer (t_serial t) ++ tlv 48 (t_sigalg t) ++ tlv 48 (sets_der i)
  ++ tlv 48 (time_of (t_start t) ++ time_of (t_stop t)) ++ tlv 48 (sets_der s) ++ rsa_spki (t_n t) (t_e t)
  ++ concat (map (fun e => tlv (fst e) (snd e)) (t_tail t)).
Definition good_but_names (t : tbs) : Prop :=
  0 <= t_serial t /\ two_digit_fields (t_start t) /\ 1970 <= d_year (t_start t) <= 2099 /\ two_digit_fields (t_stop t) /\ 1970 <= d_year (t_stop t) <= 2099 /\
  0 <= t_n t < 2 ^ 4096 /\ Z.odd (t_n t) = true /\ 17 <= t_e t < 2 ^ 4096 /\ Forall tail_tag (t_tail t).
Theorem parse_der_named t i s after rest : good_but_names t -> zlen (tlv 48 (tlv 48 (named t i s) ++ after) ++ rest) < 2 ^ 64 ->
  let inp := tlv 48 (tlv 48 (named t i s) ++ after) ++ rest in
  exists ser pk, parse_der inp = Ok (Cert inp ser [common_name (read_sets no_name s)] (name_string (read_sets no_name s)) (name_string (read_sets no_name i)) (posix (t_start t)) (posix (t_stop t)) (Some pk)).
Proof.
  intros (G1 & G4 & G5 & G6 & G7 & G8 & G9 & G10 & G11) HL inp.
  pose proof (tlv_length 48 (tlv 48 (named t i s) ++ after)) as L1. rewrite zlen_app in HL, L1.
  pose proof (tlv_length 48 (named t i s)) as L2. pose proof (zlen_nonneg rest) as Z1. pose proof (zlen_nonneg after) as Z2.
  assert (LT : zlen (named t i s) < 2 ^ 64) by lia.
  unfold parse_der, inp. rewrite whole_cur, read_tlv by (rewrite zlen_app; lia). cbn [bind]. change (negb (48 =? id_sequence)) with false. cbv iota.
  rewrite view_of_cur, read_tlv by lia. cbn [bind]. change (negb (48 =? id_sequence)) with false. cbv iota. clear HL L1 L2 Z1 Z2.
  generalize (after ++ rest ++ []) as rest0; intros rest0. cbn [s_data]. rewrite view_of_cur.
  set (T := named t i s) in *. assert (TE : T = named t i s) by reflexivity. clearbody T. unfold named in TE. fold (tails (t_tail t)) in TE.
  set (e0 := tlv 160 (integer 2)) in TE. set (e1 := integer (t_serial t)) in TE. set (e2 := tlv 48 (t_sigalg t)) in TE.
  set (ci := sets_der i) in TE. set (cs := sets_der s) in TE. set (cv := time_of (t_start t) ++ time_of (t_stop t)) in TE.
  unfold rsa_spki in TE. fold (spki_content (t_n t) (t_e t)) in TE. set (ck := spki_content (t_n t) (t_e t)) in TE. set (ts := tails (t_tail t)) in TE.
  pose proof (f_equal zlen TE) as TL. rewrite !zlen_app in TL.
  pose proof (tlv_length 2 (int_content (t_serial t))) as M1. fold (integer (t_serial t)) in M1. fold e1 in M1. pose proof (tlv_length 48 (t_sigalg t)) as M2. fold e2 in M2.
  pose proof (tlv_length 48 ci) as M3. pose proof (tlv_length 48 cv) as M4. pose proof (tlv_length 48 cs) as M5. pose proof (tlv_length 48 ck) as M6. nn.
  assert (S1 : zlen (int_content (t_serial t)) < 2 ^ 64) by lia. assert (S2 : zlen (t_sigalg t) < 2 ^ 64) by lia. assert (S3 : zlen ci < 2 ^ 64) by lia.
  assert (S4 : zlen cv < 2 ^ 64) by lia. assert (S5 : zlen cs < 2 ^ 64) by lia. assert (S6 : zlen ck < 2 ^ 64) by lia. assert (S7 : zlen ts < 2 ^ 64) by lia.
  assert (TLN : (List.length ts <= List.length T)%nat) by (unfold zlen in TL; lia).
  repeat match goal with H : context [zlen _] |- _ => lazymatch H with LT => fail | S1 => fail | S2 => fail | S3 => fail | S4 => fail | S5 => fail | S6 => fail | S7 => fail | _ => clear H end end.
  assert (PK : peek (cur [] T rest0) = Ok 160) by (rewrite TE; apply peek_cur). rewrite PK. clear PK. cbn [bind]. change (160 =? id_array0) with true. cbv iota.
  match type of TE with _ = e0 ++ ?q => pose proof (read_tlv [] 160 (integer 2) q rest0 ltac:(reflexivity)) as R0 end. fold e0 in R0. rewrite <- TE in R0. rewrite R0. clear R0. cbn [bind app].
  rewrite parse_int_2. cbn [bind fst]. change (negb (2 + 1 =? 3)) with false. cbv iota.
  destruct (parse_bignum_ok 4 (t_serial t) e0 (e2 ++ tlv 48 ci ++ tlv 48 cv ++ tlv 48 cs ++ tlv 48 ck ++ ts) rest0 G1 S1) as (ser & ES & BS & VS). fold e1 in ES.
  change (bits_of 4) with 128 in ES. rewrite ES. cbn [bind]. clear ES.
  unfold e2 at 1. rewrite read_tlv by exact S2. cbn [bind]. fold e2. change (negb (48 =? id_sequence)) with false. cbv iota.
  rewrite read_tlv by exact S3. cbn [bind]. change (negb (48 =? id_sequence)) with false. cbv iota.
  unfold ci at 1. rewrite parse_name_sets by exact S3. cbn [bind].
  rewrite read_tlv by exact S4. cbn [bind]. change (negb (48 =? id_sequence)) with false. cbv iota.
  unfold cv at 1. rewrite view_of_cur, parse_time_fields by assumption. cbn [bind fst snd]. rewrite parse_time_last by assumption. cbn [bind].
  rewrite read_tlv by exact S5. cbn [bind]. change (negb (48 =? id_sequence)) with false. cbv iota.
  unfold cs at 1. rewrite parse_name_sets by exact S5. cbn [bind].
  rewrite read_tlv by exact S6. cbn [bind]. change (negb (48 =? id_sequence)) with false. cbv iota.
  pose proof (tails_length (t_tail t)) as TL. fold ts in TL.
  match goal with |- context [view_of (Sp ck ?r)] => destruct (parse_pubkey_ok (t_n t) (t_e t) r G8 G9 G10 S6) as (N & E & pk & K & _) end. fold ck in K. rewrite K. cbn [bind].
  unfold ts. rewrite tail_loop_ok by (assumption || lia). cbn [bind negb]. exists ser, pk. reflexivity.
Qed.
