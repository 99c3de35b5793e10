(** Proofs about distinguished names. *)
From Coq Require Import String.
From Verif Require Import Base BaseP M_Base64 S_RSA M_RSA P_RSA S_X509 M_X509 P_X509.
Open Scope Z_scope.

Lemma tlv_length id c : zlen c < zlen (tlv id c).
Proof. unfold tlv. rewrite zlen_cons, zlen_app. pose proof (zlen_nonneg (der_length (zlen c))). lia. Qed.
Lemma tlv_nonempty id c : exists x y, tlv id c = x :: y. Proof. unfold tlv; eauto. Qed.

Lemma parse_string_ok pre tag v post rest : tag = 12 \/ tag = 19 -> zlen v < 2 ^ 64 ->
  parse_string (cur pre (tlv tag v ++ post) rest) = Ok (v, cur (pre ++ tlv tag v) post rest).
Proof. intros HT HL. unfold parse_string. rewrite read_tlv by exact HL. cbn [bind s_data]. destruct HT as [-> | ->]; reflexivity. Qed.

Definition rdn (a : attr) : list Z := tlv 49 (tlv 48 (tlv 6 (a_oid a) ++ tlv (a_tag a) (a_value a))).
Lemma rdn_lengths a : zlen (tlv 48 (tlv 6 (a_oid a) ++ tlv (a_tag a) (a_value a))) < zlen (rdn a) /\
  zlen (tlv 6 (a_oid a) ++ tlv (a_tag a) (a_value a)) < zlen (rdn a) /\ zlen (a_oid a) < zlen (rdn a) /\ zlen (a_value a) < zlen (rdn a).
Proof.
  unfold rdn. set (s := tlv 6 (a_oid a) ++ tlv (a_tag a) (a_value a)). pose proof (tlv_length 49 (tlv 48 s)). pose proof (tlv_length 48 s).
  assert (zlen s = zlen (tlv 6 (a_oid a)) + zlen (tlv (a_tag a) (a_value a))) by apply zlen_app.
  pose proof (tlv_length 6 (a_oid a)). pose proof (tlv_length (a_tag a) (a_value a)). pose proof (zlen_nonneg (tlv 6 (a_oid a))). pose proof (zlen_nonneg (tlv (a_tag a) (a_value a))). lia.
Qed.
Lemma read_rdn pre a post rest : a_tag a = 12 \/ a_tag a = 19 -> zlen (rdn a) < 2 ^ 64 ->
  readOIDAndString (cur pre (rdn a ++ post) rest) = Ok (a_oid a, a_value a, cur (pre ++ rdn a) post rest).
Proof.
  intros HT HL. pose proof (rdn_lengths a) as (L1 & L2 & L3 & L4). unfold readOIDAndString, rdn. rewrite read_tlv by lia. cbn [bind].
  change (negb (49 =? id_set)) with false. cbv iota. rewrite view_of_cur, read_last by lia. cbn [bind]. change (negb (48 =? id_sequence)) with false. cbv iota.
  rewrite view_of_cur, read_tlv by lia. cbn [bind]. change (negb (6 =? id_object)) with false. cbv iota. cbn [app s_data].
  rewrite <- (app_nil_r (tlv (a_tag a) (a_value a))), parse_string_ok by (assumption || lia). cbn [bind fst]. rewrite app_nil_r. reflexivity.
Qed.

(** The fields of the record by attribute type. *)
Definition values (n : x509name) : list (list Z) :=
  [serialnumber n; country n; locality n; streetaddress n; state n; emailaddress n; givenname n; surname n; title n; organization n; organizationIdentifier n; organizationalunit n; common_name n].
Fixpoint assoc (ks vs : list (list Z)) (o : list Z) : list Z :=
  match ks, vs with k :: ks', v :: vs' => if list_eqb k o then v else assoc ks' vs' o | _, _ => [] end.
Definition field (n : x509name) (o : list Z) : list Z := assoc (map fst labels) (values n) o.
Lemma set_part_ok n oid s : In oid (map fst labels) -> exists n', set_part n oid s = Some n' /\
  Forall (fun o => field n' o = if list_eqb oid o then s else field n o) (map fst labels).
Proof.
  intros H. destruct n. cbn [map fst labels In] in H.
  repeat (destruct H as [<-|H]; [eexists; split; [reflexivity|]; unfold labels; cbn [map fst]; repeat constructor|]). destruct H.
Qed.
Lemma field_none o : field no_name o = [].
Proof. unfold field, labels. cbn [map fst values no_name serialnumber country locality streetaddress state emailaddress givenname surname title organization organizationIdentifier organizationalunit common_name assoc]. repeat destruct (list_eqb _ o); reflexivity. Qed.

Definition upd_value (o : list Z) (v : list Z) (a : attr) : list Z := if list_eqb (a_oid a) o then a_value a else v.
Lemma name_loop_ok : forall l fuel rv pre rest, (List.length l <= fuel)%nat -> Forall known_attr l -> zlen (concat (map rdn l)) < 2 ^ 64 ->
  exists n, name_loop fuel rv (cur pre (concat (map rdn l)) rest) = Ok n /\ Forall (fun o => field n o = fold_left (upd_value o) l (field rv o)) (map fst labels).
Proof.
  induction l as [|a l IH]; intros fuel rv pre rest HF HK HL.
  - cbn [map concat]. exists rv. split; [destruct fuel; cbn [name_loop]; rewrite empty_cur; reflexivity|]. apply Forall_forall. reflexivity.
  - cbn [List.length] in HF. destruct fuel as [|fuel]; [lia|]. cbn [map concat name_loop] in *. rewrite empty_cur.
    destruct (rdn a ++ concat (map rdn l)) eqn:E; [unfold rdn, tlv in E; discriminate E|]. rewrite <- E in *. clear E.
    apply Forall_cons_iff in HK. destruct HK as [[HO HT] HK]. rewrite zlen_app in HL. pose proof (zlen_nonneg (concat (map rdn l))). pose proof (zlen_nonneg (rdn a)).
    rewrite read_rdn by (assumption || lia). cbn [bind]. destruct (set_part_ok rv (a_oid a) (a_value a) HO) as (n' & -> & F').
    destruct (IH fuel n' (pre ++ rdn a) rest ltac:(lia) HK ltac:(lia)) as (n & E & F). exists n. split; [exact E|].
    rewrite Forall_forall in *. intros o Ho. rewrite (F o Ho). cbn [fold_left]. f_equal. unfold upd_value. apply F'; exact Ho.
Qed.
Lemma concat_length (l : list attr) : (List.length l <= List.length (concat (map rdn l)))%nat.
Proof.
  induction l as [|a l IH]; [reflexivity|]. cbn [map concat List.length]. rewrite app_length. destruct (tlv_nonempty 49 (tlv 48 (tlv 6 (a_oid a) ++ tlv (a_tag a) (a_value a)))) as (x & y & E).
  unfold rdn at 1. rewrite E. cbn [List.length]. lia.
Qed.
Lemma parse_name_ok l rest : Forall known_attr l -> zlen (concat (map rdn l)) < 2 ^ 64 ->
  exists n, parse_name (view_of (Sp (concat (map rdn l)) rest)) = Ok n /\ Forall (fun o => field n o = last_value l o) (map fst labels).
Proof.
  intros HK HL. unfold parse_name. rewrite view_of_cur. cbn [v_span cur s_data app]. pose proof (concat_length l).
  destruct (name_loop_ok l (S (List.length (concat (map rdn l)))) no_name [] rest ltac:(lia) HK HL) as (n & E & F). exists n. split; [exact E|].
  rewrite Forall_forall in *. intros o Ho. rewrite (F o Ho), field_none. reflexivity.
Qed.

(** The string form. *)
Definition enc (ls : list (list Z)) (vs : list (list Z)) : list Z :=
  concat (map2 (fun k v => match v with [] => [] | _ => k ++ [61] ++ v ++ [32] end) ls vs).
Lemma enc_cons k ls v vs : enc (k :: ls) (v :: vs) = match v with [] => [] | _ => k ++ [61] ++ v ++ [32] end ++ enc ls vs. Proof. reflexivity. Qed.
Lemma part_eq key v : part key v = match v with [] => [] | _ => str key ++ v ++ [32] end. Proof. reflexivity. Qed.
Lemma name_string_enc n : name_string n = removelast (enc (map snd labels) (values n)).
Proof.
  unfold name_string. f_equal. unfold enc, labels, values. cbn [map snd map2 concat]. rewrite app_nil_r.
  repeat (f_equal; [rewrite part_eq; match goal with |- match ?v with _ => _ end = _ => destruct v end; reflexivity|]).
  rewrite part_eq. destruct (common_name n); reflexivity.
Qed.
Lemma removelast_join (l : list (list Z)) : removelast (concat (map (fun x => x ++ [32]) l)) = join l.
Proof.
  induction l as [|x l IH]; [reflexivity|]. cbn [map concat]. destruct l as [|y l].
  - cbn [map concat join]. rewrite app_nil_r. apply removelast_last.
  - rewrite removelast_app by (cbn [map concat]; destruct y; discriminate). rewrite IH. cbn [join]. rewrite <- app_assoc. reflexivity.
Qed.
Lemma name_text_ok n l : Forall (fun o => field n o = last_value l o) (map fst labels) -> name_string n = name_text l.
Proof.
  intros F. rewrite name_string_enc. unfold name_text. rewrite <- removelast_join. f_equal.
  assert (V : values n = map (last_value l) (map fst labels)).
  { unfold labels in *. cbn [map fst] in *. repeat match goal with H : Forall _ (_ :: _) |- _ => apply Forall_cons_iff in H; let E := fresh "E" in destruct H as [E H] end.
    rewrite <- E, <- E0, <- E1, <- E2, <- E3, <- E4, <- E5, <- E6, <- E7, <- E8, <- E9, <- E10, <- E11. reflexivity. }
  rewrite V. unfold enc. generalize labels as ls. induction ls as [|[o k] ls IH]; [reflexivity|]. cbn [map fst snd map2 concat flat_map]. rewrite IH.
  destruct (last_value l o) as [|z w]; [reflexivity|]. cbn [app map concat]. repeat (rewrite <- !app_assoc; cbn [app]). reflexivity.
Qed.
Lemma common_name_ok n l : Forall (fun o => field n o = last_value l o) (map fst labels) -> common_name n = last_value l [85; 4; 3].
Proof. intros F. rewrite Forall_forall in F. rewrite <- (F [85; 4; 3]) by (unfold labels; cbn [map fst In]; tauto). reflexivity. Qed.

(** Injectivity of the string form for values without '='. *)
Definition no_eq (l : list Z) : Prop := ~ In 61 l.
Definition good_key (k : list Z) : Prop := ~ In 61 k /\ ~ In 32 k.
Lemma split_first (a b c d : list Z) x : ~ In x a -> ~ In x b -> a ++ x :: c = b ++ x :: d -> a = b /\ c = d.
Proof.
  revert b. induction a as [|y a IH]; intros [|z b] Ha Hb E; cbn [app] in E.
  - injection E as ->; auto.
  - injection E as -> _. exfalso; apply Hb; left; reflexivity.
  - injection E as <- _. exfalso; apply Ha; left; reflexivity.
  - injection E as -> E. destruct (IH b) as [-> ->]; auto; intros I; [apply Ha | apply Hb]; right; exact I.
Qed.
Lemma split_last (a b c d : list Z) x : ~ In x c -> ~ In x d -> a ++ x :: c = b ++ x :: d -> a = b /\ c = d.
Proof.
  intros Hc Hd E. apply (f_equal (@rev Z)) in E. rewrite !rev_app_distr in E. cbn [rev] in E. rewrite <- !app_assoc in E. cbn [app] in E.
  apply split_first in E; [|intros I; apply Hc; apply in_rev; exact I | intros I; apply Hd; apply in_rev; exact I].
  destruct E as [E1 E2]. apply (f_equal (@rev Z)) in E1, E2. rewrite !rev_involutive in *. auto.
Qed.
Lemma enc_head : forall ls vs, enc ls vs = [] \/ exists k v r, In k ls /\ enc ls vs = k ++ 61 :: v ++ r.
Proof.
  induction ls as [|k ls IH]; intros [|v vs]; try (left; reflexivity). rewrite enc_cons.
  destruct v as [|x v]; [cbn [app]; destruct (IH vs) as [-> |(k' & v' & r & H & ->)]; [left; reflexivity | right; exists k', v', r; split; [right; exact H | reflexivity]]|].
  right. exists k, (x :: v), ([32] ++ enc ls vs). split; [left; reflexivity|]. rewrite <- !app_assoc. reflexivity.
Qed.
Lemma enc_inj : forall ls, NoDup ls -> Forall good_key ls -> forall va vb, List.length va = List.length ls -> List.length vb = List.length ls ->
  Forall no_eq va -> Forall no_eq vb -> enc ls va = enc ls vb -> va = vb.
Proof.
  induction ls as [|k ls IH]; intros ND GK va vb La Lb Fa Fb E.
  { destruct va, vb; cbn in La, Lb; congruence. }
  destruct va as [|a va], vb as [|b vb]; try discriminate. apply NoDup_cons_iff in ND. destruct ND as [NI ND]. apply Forall_cons_iff in GK. destruct GK as [[K1 K2] GK].
  apply Forall_cons_iff in Fa, Fb. destruct Fa as [Na Fa], Fb as [Nb Fb]. injection La as La. injection Lb as Lb.
  assert (HD : forall x (v : list Z) vs, x :: v = x :: v -> enc (k :: ls) ((x :: v) :: vs) = k ++ 61 :: (x :: v) ++ 32 :: enc ls vs).
  { intros. rewrite enc_cons. repeat (rewrite <- !app_assoc; cbn [app]). reflexivity. }
  assert (NH : forall x (v : list Z) vs ws, enc (k :: ls) ([] :: ws) = enc (k :: ls) ((x :: v) :: vs) -> False).
  { intros x v vs ws Q. rewrite HD in Q by reflexivity. rewrite enc_cons in Q. cbn [app] in Q.
    destruct (enc_head ls ws) as [H|(k' & v' & r & H & H')]; [rewrite H in Q; destruct k; discriminate Q|]. rewrite H' in Q.
    rewrite Forall_forall in GK. destruct (GK k' H) as [G _]. apply split_first in Q; [|assumption..]. destruct Q as [-> _]. contradiction. }
  destruct a as [|x a], b as [|y b].
  - f_equal. apply IH; try assumption.
  - exfalso. exact (NH _ _ _ _ E).
  - exfalso. symmetry in E. exact (NH _ _ _ _ E).
  - rewrite !HD in E by reflexivity. apply app_inv_head in E. injection E. intros E' ->. clear E.
    assert (G : y :: a = y :: b /\ enc ls va = enc ls vb).
    { assert (Q : (y :: a) ++ 32 :: enc ls va = (y :: b) ++ 32 :: enc ls vb) by (cbn [app]; f_equal; exact E'). clear E'.
      set (A := y :: a) in *. set (B := y :: b) in *. clearbody A B.
      destruct (enc_head ls va) as [Ha|(k1 & v1 & r1 & I1 & Ha)], (enc_head ls vb) as [Hb|(k2 & v2 & r2 & I2 & Hb)]; rewrite Ha, Hb in *.
      - apply app_inj_tail in Q. destruct Q as [-> _]. auto.
      - exfalso. assert (I : In 61 (A ++ [32])) by (rewrite Q; apply in_or_app; right; right; apply in_or_app; right; left; reflexivity).
        apply in_app_or in I. destruct I as [I|[I|[]]]; [exact (Na I) | discriminate I].
      - exfalso. assert (I : In 61 (B ++ [32])) by (rewrite <- Q; apply in_or_app; right; right; apply in_or_app; right; left; reflexivity).
        apply in_app_or in I. destruct I as [I|[I|[]]]; [exact (Nb I) | discriminate I].
      - rewrite Forall_forall in GK. destruct (GK k1 I1) as [G1 G1'], (GK k2 I2) as [G2 G2'].
        change (A ++ 32 :: k1 ++ 61 :: v1 ++ r1) with (A ++ (32 :: k1) ++ 61 :: v1 ++ r1) in Q. change (B ++ 32 :: k2 ++ 61 :: v2 ++ r2) with (B ++ (32 :: k2) ++ 61 :: v2 ++ r2) in Q.
        rewrite !app_assoc in Q. rewrite <- !app_assoc in Q. rewrite (app_assoc A), (app_assoc B) in Q.
        apply split_first in Q.
        + destruct Q as [Q1 Q2]. apply split_last in Q1; [|assumption..]. destruct Q1 as [-> ->]. rewrite Q2. auto.
        + intros I. apply in_app_or in I. destruct I as [I|[I|I]]; [exact (Na I) | discriminate I | exact (G1 I)].
        + intros I. apply in_app_or in I. destruct I as [I|[I|I]]; [exact (Nb I) | discriminate I | exact (G2 I)]. }
    destruct G as [G1 G2]. rewrite G1. f_equal. apply IH; assumption.
Qed.
Lemma enc_last : forall ls vs, enc ls vs = [] \/ exists r, enc ls vs = r ++ [32] /\ r <> [].
Proof.
  induction ls as [|k ls IH]; intros [|v vs]; try (left; reflexivity). rewrite enc_cons.
  destruct v as [|x v]; [apply IH|]. right. destruct (IH vs) as [-> |(r & -> & _)].
  - exists (k ++ [61] ++ x :: v). rewrite app_nil_r, <- !app_assoc. split; [reflexivity | destruct k; discriminate].
  - exists (k ++ [61] ++ (x :: v) ++ [32] ++ r). rewrite <- !app_assoc. split; [reflexivity | destruct k; discriminate].
Qed.
Lemma keys_good : NoDup (map snd labels) /\ Forall good_key (map snd labels).
Proof.
  split.
  - unfold labels; cbn [map snd]. repeat (apply NoDup_cons; [intros H; cbv in H; repeat destruct H as [H|H]; try discriminate H; contradiction|]). apply NoDup_nil.
  - unfold labels; cbn [map snd]. repeat (apply Forall_cons; [split; intros H; cbv in H; repeat destruct H as [H|H]; try discriminate H; contradiction|]). apply Forall_nil.
Qed.
Lemma values_inj n m : values n = values m -> n = m.
Proof. destruct n, m. unfold values; cbn. intros H; injection H; intros; subst; reflexivity. Qed.
Lemma name_string_inj n m : Forall no_eq (values n) -> Forall no_eq (values m) -> name_string n = name_string m -> n = m.
Proof.
  intros Fn Fm E. rewrite !name_string_enc in E. apply values_inj. destruct keys_good as [ND GK].
  apply (enc_inj _ ND GK); [reflexivity | reflexivity | exact Fn | exact Fm|].
  destruct (enc_last (map snd labels) (values n)) as [Hn|(r & Hn & Rn)], (enc_last (map snd labels) (values m)) as [Hm|(s & Hm & Rm)]; rewrite Hn, Hm in *.
  - reflexivity.
  - exfalso. rewrite removelast_last in E. apply Rm. rewrite <- E. reflexivity.
  - exfalso. rewrite removelast_last in E. apply Rn. rewrite E. reflexivity.
  - rewrite !removelast_last in E. rewrite E; reflexivity.
Qed.
