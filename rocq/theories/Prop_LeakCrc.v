(** Property C132: what computing a checksum shows of the data. *)
From Verif Require Import Base BaseP S_CRC M_CRC P_CRC M_Leak M_LeakCrc.
Open Scope Z_scope.

Lemma table_get i : 0 <= i < 256 -> getz crcTable i = Ok (nth (Z.to_nat i) crcTable 0).
Proof.
  intros H. unfold getz. assert (L : zlen crcTable = 256) by reflexivity. rewrite ?L. destruct (Z.leb_spec 0 i); [|lia]. destruct (Z.ltb_spec i 256); [|lia]. cbn [andb].
  rewrite (nth_error_nth' crcTable 0) by (change (length crcTable) with (Z.to_nat 256); lia). reflexivity.
Qed.
Lemma index_range h b : 0 <= Z.land (Z.lxor h b) 0xFF < 256.
Proof. change 0xFF with (Z.ones 8). rewrite Z.land_ones by lia. apply Z.mod_pos_bound. lia. Qed.
Lemma step_value h b : getz crcTable (Z.land (Z.lxor h b) 0xFF) = Ok (nth (Z.to_nat (Z.land (Z.lxor h b) 0xFF)) crcTable 0).
Proof. apply table_get, index_range. Qed.
Lemma add_cons h b rest : crc_add_t h (b :: rest) = ([Loop true; At (Z.land (Z.lxor h b) 0xFF)] ++ fst (crc_add_t (crc_step h b) rest), snd (crc_add_t (crc_step h b) rest)).
Proof. cbn [crc_add_t]. unfold tbind at 1. cbn [emit fst snd]. unfold tbind, get_t. cbn [fst snd]. rewrite step_value. cbn [fst snd]. reflexivity. Qed.
Lemma add_value : forall data h, snd (crc_add_t h data) = Ok (crc_add h data).
Proof. induction data as [|b rest IH]; intros h; [reflexivity|]. rewrite add_cons. cbn [snd]. rewrite IH. reflexivity. Qed.
Lemma adds_cons h d rest : crc_adds_t h (d :: rest) = (fst (crc_add_t h d) ++ fst (crc_adds_t (crc_add h d) rest), snd (crc_adds_t (crc_add h d) rest)).
Proof. cbn [crc_adds_t]. unfold tbind. rewrite add_value. reflexivity. Qed.

(** ** The results are those of the other model, and are the checksum of all pieces together *)
Theorem C132_same_result : forall args h, snd (crc_adds_t h args) = Ok (crc_add h (concat args)).
Proof.
  induction args as [|d rest IH]; intros h; [reflexivity|]. rewrite adds_cons. cbn [snd concat]. rewrite IH. unfold crc_add. rewrite fold_left_app. reflexivity.
Qed.
Print Assumptions C132_same_result.

(** ** The record is the message: every byte, and how it was cut into pieces *)
Fixpoint read_pieces (h : Z) (l : list event) : list (list Z) :=
  match l with
  | [] => []
  | At i :: l' =>
      let b := Z.lxor i (Z.land h 0xFF) in
      match read_pieces (crc_step h b) l' with
      | [] => [[b]]
      | p :: ps => (b :: p) :: ps
      end
  | Loop false :: l' => [] :: read_pieces h l'
  | _ :: l' => read_pieces h l'
  end.
Lemma read_byte h b : 0 <= b < 256 -> Z.lxor (Z.land (Z.lxor h b) 0xFF) (Z.land h 0xFF) = b.
Proof.
  intros H. assert (E : Z.land b 0xFF = b) by (change 0xFF with (Z.ones 8); rewrite Z.land_ones by lia; apply Z.mod_small; exact H).
  rewrite <- E at 2. apply Z.bits_inj'. intros n Hn. rewrite Z.lxor_spec, !Z.land_spec, Z.lxor_spec. destruct (Z.testbit h n), (Z.testbit b n), (Z.testbit 255 n); reflexivity.
Qed.
Lemma read_add : forall data h r, bytes data -> read_pieces h (fst (crc_add_t h data) ++ r) = data :: read_pieces (crc_add h data) r.
Proof.
  induction data as [|b rest IH]; intros h r B; [reflexivity|]. rewrite add_cons. cbn [fst]. inversion B as [|? ? Hb Hr]; subst. rewrite <- app_assoc. cbn [app read_pieces]. cbv zeta. rewrite (read_byte h b Hb), IH by exact Hr. reflexivity.
Qed.
Theorem C132_message_refuted : exists look : list event -> list (list Z), forall args, Forall bytes args -> look (fst (crc_adds_t crc_init args)) = args.
Proof.
  exists (read_pieces crc_init). generalize crc_init. intros h args. revert h. induction args as [|d rest IH]; intros h B; [reflexivity|]. inversion B; subst. rewrite adds_cons. cbn [fst]. rewrite read_add by assumption. f_equal. apply IH. assumption.
Qed.
Print Assumptions C132_message_refuted.

(** ** An observer who tells only cache lines apart (64 bytes, so sixteen entries of the table) still sees the upper half of a byte after known data *)
Definition lines (l : list event) : list event := map (fun e => match e with At i => At (i / 16) | _ => e end) l.
Lemma line_half h b b' : 0 <= b < 256 -> 0 <= b' < 256 -> Z.land (Z.lxor h b) 0xFF / 16 = Z.land (Z.lxor h b') 0xFF / 16 -> b / 16 = b' / 16.
Proof.
  intros Hb Hb' H. change 16 with (2 ^ 4) in *. rewrite <- !Z.shiftr_div_pow2 in * by lia. rewrite <- (read_byte h b Hb), <- (read_byte h b' Hb'). rewrite !Z.shiftr_lxor, H. reflexivity.
Qed.
Lemma lines_add : forall pre h b b' s s', bytes (b :: s) -> bytes (b' :: s') -> lines (fst (crc_add_t h (pre ++ b :: s))) = lines (fst (crc_add_t h (pre ++ b' :: s'))) -> b / 16 = b' / 16.
Proof.
  induction pre as [|p pre IH]; intros h b b' s s' B B' H.
  - cbn [app] in H. rewrite !add_cons in H. cbn [fst app] in H. unfold lines in H. cbn [map] in H. injection H as H _. inversion B; inversion B'; subst. exact (line_half h b b' ltac:(assumption) ltac:(assumption) H).
  - cbn [app] in H. rewrite !add_cons in H. cbn [fst app] in H. unfold lines in H. cbn [map] in H. injection H as H. exact (IH _ _ _ _ _ B B' H).
Qed.
Theorem C132_lines : forall pre b b' s s', bytes (b :: s) -> bytes (b' :: s') ->
  lines (fst (crc_adds_t crc_init [pre ++ b :: s])) = lines (fst (crc_adds_t crc_init [pre ++ b' :: s'])) -> b / 16 = b' / 16.
Proof. intros pre b b' s s' B B' H. rewrite !adds_cons in H. cbn [fst crc_adds_t ret] in H. rewrite !app_nil_r in H. exact (lines_add pre crc_init b b' s s' B B' H). Qed.
Print Assumptions C132_lines.

(** "PIN " and "7", then "PIN " and "Q": the records differ, and the first is read back. *)
Example C132_case : read_pieces crc_init (fst (crc_adds_t crc_init [[80; 73; 78; 32]; [55]])) = [[80; 73; 78; 32]; [55]] /\
  Forall bytes [[80; 73; 78; 32]; [55]] /\ lines (fst (crc_adds_t crc_init [[80; 73; 78; 32; 55]])) <> lines (fst (crc_adds_t crc_init [[80; 73; 78; 32; 81]])).
Proof. split; [vm_compute; reflexivity|]. split; [repeat constructor; lia|]. intros H. vm_compute in H. discriminate H. Qed.
