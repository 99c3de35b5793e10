From Verif Require Import Base BaseP M_Base64 S_Base64.

Lemma list_ind3 {A} (P : list A -> Prop) :
  P [] -> (forall a, P [a]) -> (forall a b, P [a; b]) ->
  (forall a b c l, P l -> P (a :: b :: c :: l)) -> forall l, P l.
Proof.
  intros H0 H1 H2 H3; fix IH 1; intros [|a [|b [|c l]]];
  [exact H0 | apply H1 | apply H2 | apply H3, IH].
Qed.

Definition cs62 (c : charset) : Z := match c with MinusUnderscore => 45 | _ => 43 end.
Definition cs63 (c : charset) : Z := match c with PlusSlash => 47 | PlusComma => 44 | MinusUnderscore => 95 end.

Lemma in_seqZ i n : 0 <= i < Z.of_nat n -> In i (map Z.of_nat (seq 0 n)).
Proof. intros H; apply in_map_iff; exists (Z.to_nat i); split; [lia | apply in_seq; lia]. Qed.

Lemma look_alpha cs i : 0 <= i < 64 -> look (getLookupFor cs) i = alpha (cs62 cs) (cs63 cs) i.
Proof.
  intros H.
  assert (G : forallb (fun i => look (getLookupFor cs) i =? alpha (cs62 cs) (cs63 cs) i)
                (map Z.of_nat (seq 0 64)) = true) by (destruct cs; vm_compute; reflexivity).
  rewrite forallb_forall in G; apply Z.eqb_eq, G, in_seqZ; lia.
Qed.

Lemma valueOf_alpha cs i : 0 <= i < 64 ->
  nth (Z.to_nat (alpha (cs62 cs) (cs63 cs) i)) valueOf (-1) = i.
Proof.
  intros H.
  assert (G : forallb (fun i => nth (Z.to_nat (alpha (cs62 cs) (cs63 cs) i)) valueOf (-1) =? i)
                (map Z.of_nat (seq 0 64)) = true) by (destruct cs; vm_compute; reflexivity).
  rewrite forallb_forall in G; apply Z.eqb_eq, G, in_seqZ; lia.
Qed.

Lemma valueOf_sweep c : byte c ->
  let r := nth (Z.to_nat c) valueOf (-1) in
  (in_alphabet c = true /\ 0 <= r < 64) \/ (in_alphabet c = false /\ r = -1).
Proof.
  intros H.
  assert (G : forallb (fun c => let r := nth (Z.to_nat c) valueOf (-1) in
                (in_alphabet c && (0 <=? r) && (r <? 64)) || (negb (in_alphabet c) && (r =? -1)))
                (map Z.of_nat (seq 0 256)) = true) by (vm_compute; reflexivity).
  rewrite forallb_forall in G; assert (Hc : 0 <= c < Z.of_nat 256) by (unfold byte in H; lia); specialize (G c (in_seqZ c 256 Hc)).
  cbv zeta in *; destruct (in_alphabet c); cbn [andb orb negb] in G; [left|right]; lia.
Qed.

(** ** Encoder *)
Lemma shl_or8 v b : 0 <= v -> byte b -> w32 (Z.lor (Z.shiftl v 8) b) = (v * 256 + b) mod 2 ^ 32.
Proof.
  intros Hv Hb; rewrite Z.shiftl_mul_pow2 by lia.
  rewrite lor_disjoint_add by (unfold byte in Hb; lia); reflexivity.
Qed.

Lemma land63 x : Z.land x 63 = x mod 64.
Proof. exact (land_ones_mod x 6 ltac:(lia)). Qed.

Definition quad (tbl : Z -> Z) (a b c : Z) : list Z :=
  let v := a * 65536 + b * 256 + c in
  map tbl [v / 262144; v / 4096 mod 64; v / 64 mod 64; v mod 64].

Fixpoint full (tbl : Z -> Z) (nl pad : bool) (k : Z) (l : list Z) : list Z :=
  match l with
  | a :: b :: c :: t =>
      quad tbl a b c ++
      (if k + 1 =? 19 then (if nl then [10] else []) ++ full tbl nl pad 0 t
       else full tbl nl pad (k + 1) t)
  | [a; b] => let v := (a * 256 + b) * 4 in
              map tbl [v / 4096; v / 64 mod 64; v mod 64] ++ (if pad then [61] else [])
  | [a] => let v := a * 16 in map tbl [v / 64; v mod 64] ++ (if pad then [61; 61] else [])
  | [] => []
  end.

Definition finish (tbl : list Z) (omitEqs : bool) (s : estate) : list Z :=
  let value := e_value s in
  if e_count s =? 1 then
    e_out s ++ [ look tbl (Z.land (Z.shiftr value 2) 63);
                 look tbl (Z.land (w32 (Z.shiftl value 4)) 63) ]
            ++ (if omitEqs then [] else [61; 61])
  else if e_count s =? 2 then
    e_out s ++ [ look tbl (Z.land (Z.shiftr value 10) 63);
                 look tbl (Z.land (Z.shiftr value 4) 63);
                 look tbl (Z.land (w32 (Z.shiftl value 2)) 63) ]
            ++ (if omitEqs then [] else [61])
  else e_out s.

Lemma fold_enc cs nl omit l : bytes l -> forall out v k, 0 <= v ->
  finish (getLookupFor cs) omit (fold_left (enc_step (getLookupFor cs) nl) l (mkE out v 0 k))
  = out ++ full (alpha (cs62 cs) (cs63 cs)) nl (negb omit) k l.
Proof.
  set (tb := getLookupFor cs); set (al := alpha (cs62 cs) (cs63 cs)).
  assert (LA : forall i, 0 <= i < 64 -> look tb i = al i) by (apply look_alpha).
  induction l as [|a|a b|a b c l IH] using list_ind3; intros Hb out v k Hv.
  - cbn; rewrite app_nil_r; reflexivity.
  - apply bytes_cons in Hb; destruct Hb as [Ha _].
    cbn [fold_left enc_step e_value e_count e_out e_blocks Z.add Z.eqb Pos.eqb finish full map].
    change (0 + 1) with 1; cbn [Z.eqb Pos.eqb e_value e_count e_out e_blocks].
    unfold finish; cbn [e_value e_count e_out e_blocks]; change (1 =? 1) with true; cbv iota.
    rewrite shl_or8 by assumption; rewrite !land63, Z.shiftr_div_pow2, Z.shiftl_mul_pow2 by lia.
    unfold w32, byte in *.
    rewrite (LA (_ mod 64)) by (apply Z.mod_pos_bound; lia).
    rewrite (LA (_ mod 64)) by (apply Z.mod_pos_bound; lia).
    replace (negb omit) with (if omit then false else true) by (destruct omit; reflexivity).
    f_equal; cbn [map app]; f_equal; [f_equal; zdm | f_equal; [f_equal; zdm | destruct omit; reflexivity]].
  - apply bytes_cons in Hb; destruct Hb as [Ha Hb]; apply bytes_cons in Hb; destruct Hb as [Hb _].
    cbn [fold_left].
    unfold enc_step at 2; cbn [e_value e_count e_out e_blocks].
    change (0 + 1 =? 3) with false; cbv iota; change (0 + 1) with 1.
    unfold enc_step; cbn [e_value e_count e_out e_blocks].
    change (1 + 1 =? 3) with false; cbv iota; change (1 + 1) with 2.
    unfold finish; cbn [e_value e_count e_out e_blocks]; change (2 =? 1) with false; change (2 =? 2) with true; cbv iota.
    rewrite (shl_or8 v a) by assumption; rewrite shl_or8 by (try assumption; apply Z.mod_pos_bound; lia).
    rewrite !land63, !Z.shiftr_div_pow2, Z.shiftl_mul_pow2 by lia.
    unfold w32, byte in *.
    rewrite !(LA (_ mod 64)) by (apply Z.mod_pos_bound; lia).
    cbn [full map].
    replace (negb omit) with (if omit then false else true) by (destruct omit; reflexivity).
    f_equal; cbn [map app]; f_equal; [f_equal; zdm | f_equal; [f_equal; zdm | f_equal; [f_equal; zdm | destruct omit; reflexivity]]].
  - apply bytes_cons in Hb; destruct Hb as [Ha Hb]; apply bytes_cons in Hb; destruct Hb as [Hb Hc].
    apply bytes_cons in Hc; destruct Hc as [Hc Hl].
    cbn [fold_left].
    unfold enc_step at 4; cbn [e_value e_count e_out e_blocks].
    change (0 + 1 =? 3) with false; cbv iota; change (0 + 1) with 1.
    unfold enc_step at 3; cbn [e_value e_count e_out e_blocks].
    change (1 + 1 =? 3) with false; cbv iota; change (1 + 1) with 2.
    unfold enc_step at 2; cbn [e_value e_count e_out e_blocks].
    change (2 + 1 =? 3) with true; cbv iota.
    rewrite (shl_or8 v a) by assumption; rewrite (shl_or8 _ b) by (try assumption; apply Z.mod_pos_bound; lia).
    rewrite (shl_or8 _ c) by (try assumption; apply Z.mod_pos_bound; lia).
    set (x := (((v * 256 + a) mod 2 ^ 32 * 256 + b) mod 2 ^ 32 * 256 + c) mod 2 ^ 32).
    assert (Hx : 0 <= x) by (apply Z.mod_pos_bound; lia).
    assert (Hx24 : x mod 16777216 = a * 65536 + b * 256 + c) by (unfold x, byte in *; clear - Ha Hb Hc Hv; zdm).
    rewrite !land63, !Z.shiftr_div_pow2 by lia.
    rewrite !(LA (_ mod 64)) by (apply Z.mod_pos_bound; lia).
    assert (Q : [al (x / 2 ^ 18 mod 64); al (x / 2 ^ 12 mod 64); al (x / 2 ^ 6 mod 64); al (x / 2 ^ 0 mod 64)]
                = quad al a b c).
    { unfold quad; rewrite <- Hx24; cbn [map]; clearbody x; clear - Hx.
      f_equal; [f_equal; zdm | f_equal; [f_equal; zdm | f_equal; [f_equal; zdm | f_equal; f_equal; zdm]]]. }
    rewrite Q; cbn [full].
    destruct (k + 1 =? 19).
    + rewrite IH by assumption. destruct nl; cbn [app]; rewrite <- ?app_assoc; reflexivity.
    + rewrite IH by assumption. rewrite <- app_assoc; reflexivity.
Qed.

Lemma base64_full data nl omit cs : bytes data ->
  base64 data nl omit cs =
  full (alpha (cs62 cs) (cs63 cs)) nl (negb omit) 0 data ++ (if nl then [10] else []).
Proof.
  intros H; unfold base64; fold (finish (getLookupFor cs) omit
    (fold_left (enc_step (getLookupFor cs) nl) data (mkE [] 0 0 0))).
  rewrite fold_enc by (auto; lia); destruct nl; rewrite ?app_nil_r; reflexivity.
Qed.

Lemma digits_range l : bytes l -> Forall (fun d => 0 <= d < 64) (digits l).
Proof.
  induction l as [|a|a b|a b c l IH] using list_ind3; intros H; cbn [digits app].
  - constructor.
  - apply bytes_cons in H; destruct H as [Ha _]; unfold byte in Ha; repeat constructor; zdm.
  - apply bytes_cons in H; destruct H as [Ha H]; apply bytes_cons in H; destruct H as [Hb _];
    unfold byte in *; repeat constructor; zdm.
  - apply bytes_cons in H; destruct H as [Ha H]; apply bytes_cons in H; destruct H as [Hb H];
    apply bytes_cons in H; destruct H as [Hc H]; unfold byte in *.
    repeat (constructor; [zdm|]); apply IH, H.
Qed.

Lemma padding_3 a b c l : padding (a :: b :: c :: l) = padding l.
Proof.
  unfold padding; rewrite !zlen_cons; replace (1 + (1 + (1 + zlen l))) with (zlen l + 1 * 3) by lia.
  rewrite Z.mod_add by lia; reflexivity.
Qed.

Lemma full_nonl tb pad k l : full tb false pad k l =
  map tb (digits l) ++ (if pad then padding l else []).
Proof.
  revert k; induction l as [|a|a b|a b c l IH] using list_ind3; intros k; cbn [full digits map app].
  - destruct pad; reflexivity.
  - destruct pad; reflexivity.
  - destruct pad; reflexivity.
  - rewrite padding_3; unfold quad; cbn [map app]; do 4 f_equal.
    destruct (k + 1 =? 19); apply IH.
Qed.

Lemma full_strip tb pad k l : (forall i, 0 <= i < 64 -> tb i <> 10) -> bytes l ->
  strip_newlines (full tb true pad k l) = full tb false pad k l.
Proof.
  intros Ht; unfold strip_newlines; revert k; induction l as [|a|a b|a b c l IH] using list_ind3; intros k H; cbn [full].
  - reflexivity.
  - apply bytes_cons in H; destruct H as [Ha _]; unfold byte in *; cbn [map app filter].
    rewrite !(proj2 (Z.eqb_neq (tb _) 10)) by (apply Ht; zdm); cbn [negb].
    destruct pad; reflexivity.
  - apply bytes_cons in H; destruct H as [Ha H]; apply bytes_cons in H; destruct H as [Hb _]; unfold byte in *; cbn [map app filter].
    rewrite !(proj2 (Z.eqb_neq (tb _) 10)) by (apply Ht; zdm); cbn [negb].
    destruct pad; reflexivity.
  - apply bytes_cons in H; destruct H as [Ha H]; apply bytes_cons in H; destruct H as [Hb H];
    apply bytes_cons in H; destruct H as [Hc H]; unfold byte in *; unfold quad; cbn [map app filter].
    rewrite !(proj2 (Z.eqb_neq (tb _) 10)) by (apply Ht; zdm); cbn [negb]; do 4 f_equal.
    destruct (k + 1 =? 19); [cbn [app filter]; change (10 =? 10) with true; cbn [negb]|]; apply IH, H.
Qed.

Lemma alpha_not c62 c63 i x : 0 <= i < 64 -> (x < 43) -> 43 <= c62 -> 43 <= c63 -> alpha c62 c63 i <> x.
Proof. intros H Hx H2 H3; unfold alpha; destruct (i <? 26) eqn:?, (i <? 52) eqn:?, (i <? 62) eqn:?, (i =? 62) eqn:?; lia. Qed.

Lemma cs_ge cs : 43 <= cs62 cs /\ 43 <= cs63 cs.
Proof. destruct cs; cbn; lia. Qed.

Lemma alpha_no_nl cs i : 0 <= i < 64 -> alpha (cs62 cs) (cs63 cs) i <> 10.
Proof. intros; destruct (cs_ge cs); apply alpha_not; lia. Qed.

Lemma base64_plain data omit cs : bytes data ->
  base64 data false omit cs = rfc4648 (cs62 cs) (cs63 cs) (negb omit) data.
Proof. intros; rewrite base64_full, full_nonl, app_nil_r by assumption; reflexivity. Qed.

Lemma strip_app a b : strip_newlines (a ++ b) = strip_newlines a ++ strip_newlines b.
Proof. unfold strip_newlines; apply filter_app. Qed.

Lemma base64_nl data omit cs : bytes data ->
  strip_newlines (base64 data true omit cs) = rfc4648 (cs62 cs) (cs63 cs) (negb omit) data.
Proof.
  intros; rewrite base64_full by assumption.
  rewrite strip_app, full_strip, full_nonl by (auto using alpha_no_nl).
  cbn [strip_newlines filter Z.eqb Pos.eqb negb]; rewrite app_nil_r; reflexivity.
Qed.

(** ** Line lengths *)
Lemma lines_cons l : exists h r, lines l = h :: r.
Proof.
  induction l as [|c l IH]; cbn [lines]; [eauto|].
  destruct (c =? 10); [eauto|]; destruct IH as (h & r & ->); eauto.
Qed.
Definition headlen (l : list (list Z)) : Z := match l with h :: _ => zlen h | [] => 0 end.
Definition short (n : Z) (l : list (list Z)) : Prop :=
  match l with h :: r => zlen h <= n /\ Forall (fun x => zlen x <= 76) r | [] => True end.
Lemma lines_app_nonl x y n : Forall (fun c => c <> 10) x -> short n (lines y) -> short (zlen x + n) (lines (x ++ y)).
Proof.
  induction x as [|c x IH]; intros Hx Hy; cbn [app].
  - cbn [zlen length]; rewrite zlen_nil, Z.add_0_l; exact Hy.
  - inversion Hx as [|? ? Hc Hx']; subst; specialize (IH Hx' Hy); cbn [lines].
    rewrite (proj2 (Z.eqb_neq c 10) Hc).
    destruct (lines_cons (x ++ y)) as (h & r & E); rewrite E in *; cbn [short] in *.
    rewrite !zlen_cons; destruct IH; split; [lia | assumption].
Qed.
Lemma short_mono n m l : n <= m -> short n l -> short m l.
Proof. destruct l as [|h r]; cbn; [tauto|]; intros; lia || (split; [lia | tauto]). Qed.

Lemma full_lines tb pad l : (forall i, 0 <= i < 64 -> tb i <> 10) -> bytes l ->
  forall k, 0 <= k <= 18 -> short (76 - 4 * k) (lines (full tb true pad k l ++ [10])).
Proof.
  intros Ht; induction l as [|a|a b|a b c l IH] using list_ind3; intros H k Hk; cbn [full].
  - cbn [app lines]; change (10 =? 10) with true; cbv iota; cbn [short]; split; [rewrite zlen_nil; lia|].
    constructor; [rewrite zlen_nil; lia | constructor].
  - apply bytes_cons in H; destruct H as [Ha _]; unfold byte in *.
    apply (short_mono (zlen (map tb [a * 16 / 64; a * 16 mod 64] ++ (if pad then [61; 61] else [])) + 0));
    [rewrite zlen_app; destruct pad; unfold zlen; cbn [length map]; lia|].
    apply lines_app_nonl.
    + apply Forall_app; split; [cbn [map]; repeat constructor; apply Ht; zdm | destruct pad; repeat constructor; lia].
    + cbn; change (zlen (@nil Z)) with 0; split; [lia | repeat constructor; cbn; lia].
  - apply bytes_cons in H; destruct H as [Ha H]; apply bytes_cons in H; destruct H as [Hb _]; unfold byte in *.
    cbv zeta.
    match goal with |- short _ (lines (?x ++ [10])) => apply (short_mono (zlen x + 0)) end;
    [rewrite zlen_app; destruct pad; unfold zlen; cbn [length map]; lia|].
    apply lines_app_nonl.
    + apply Forall_app; split; [cbn [map]; repeat constructor; apply Ht; zdm | destruct pad; repeat constructor; lia].
    + cbn; change (zlen (@nil Z)) with 0; split; [lia | repeat constructor; cbn; lia].
  - apply bytes_cons in H; destruct H as [Ha H]; apply bytes_cons in H; destruct H as [Hb H];
    apply bytes_cons in H; destruct H as [Hc H]; unfold byte in *.
    rewrite <- app_assoc.
    assert (Hq : Forall (fun c => c <> 10) (quad tb a b c))
      by (unfold quad; cbn [map]; repeat constructor; apply Ht; zdm).
    destruct (Z.eqb_spec (k + 1) 19) as [E|E].
    + apply (short_mono (zlen (quad tb a b c) + 0)); [unfold quad, zlen; cbn [length map]; lia|].
      apply lines_app_nonl; [exact Hq|].
      cbn [app lines]; change (10 =? 10) with true; cbv iota; cbn [short]; split; [cbn; lia|].
      specialize (IH H 0 ltac:(lia)).
      destruct (lines_cons (full tb true pad 0 l ++ [10])) as (h & r & El); rewrite El in *.
      cbn [short] in IH; constructor; [lia | tauto].
    + apply (short_mono (zlen (quad tb a b c) + (76 - 4 * (k + 1)))); [unfold quad, zlen; cbn [length map]; lia|].
      apply lines_app_nonl; [exact Hq|]; apply IH; [exact H | lia].
Qed.

Lemma base64_line_length data omit cs : bytes data ->
  Forall (fun x => zlen x <= 76) (lines (base64 data true omit cs)).
Proof.
  intros H; rewrite base64_full by assumption.
  pose proof (full_lines (alpha (cs62 cs) (cs63 cs)) (negb omit) data (alpha_no_nl cs) H 0 ltac:(lia)) as G.
  destruct (lines_cons (full (alpha (cs62 cs) (cs63 cs)) true (negb omit) 0 data ++ [10])) as (h & r & E).
  rewrite E in *; cbn [short] in G; constructor; [lia | tauto].
Qed.

Lemma base64_no_newline data omit cs : bytes data -> ~ In 10 (base64 data false omit cs).
Proof.
  intros H; rewrite base64_plain by assumption; unfold rfc4648.
  intros [Hin|Hin]%in_app_or.
  - apply in_map_iff in Hin; destruct Hin as (d & Hd & Hin).
    pose proof (digits_range data H) as R; rewrite Forall_forall in R; specialize (R d Hin).
    apply (alpha_no_nl cs d) in R; contradiction.
  - destruct (negb omit); [|contradiction]; unfold padding in Hin.
    destruct (zlen data mod 3) as [|[| [|[]|] |]|]; cbn in Hin; intuition lia.
Qed.

(** ** Decoder *)
Definition dig (c : Z) : Z := nth (Z.to_nat c) valueOf (-1).
Definition digs (t : list Z) : list Z := filter (fun r => negb (r =? -1)) (map dig t).

(** Independent reading of a digit string: four digits give three bytes. *)
Fixpoint undigits (d : list Z) : list Z :=
  match d with
  | a :: b :: c :: e :: t =>
      let v := ((a * 64 + b) * 64 + c) * 64 + e in
      [v / 65536; v / 256 mod 256; v mod 256] ++ undigits t
  | [a; b; c] => let v := (a * 64 + b) * 64 + c in [v / 1024; v / 4 mod 256]
  | [a; b] => let v := a * 64 + b in [v / 16]
  | _ => []
  end.

Lemma list_ind4 {A} (P : list A -> Prop) :
  P [] -> (forall a, P [a]) -> (forall a b, P [a; b]) -> (forall a b c, P [a; b; c]) ->
  (forall a b c d l, P l -> P (a :: b :: c :: d :: l)) -> forall l, P l.
Proof.
  intros H0 H1 H2 H3 H4; fix IH 1; intros [|a [|b [|c [|d l]]]];
  [exact H0 | apply H1 | apply H2 | apply H3 | apply H4, IH].
Qed.

Definition dec_digit (s : dstate) (r : Z) : dstate :=
  let value := w32 (Z.lor (Z.shiftl (d_value s) 6) r) in
  let count := d_count s + 1 in
  if negb (count =? 4) then mkD (d_out s) value count else
  mkD (d_out s ++ [ Z.land (Z.shiftr value 16) 255;
                    Z.land (Z.shiftr value 8) 255;
                    Z.land (Z.shiftr value 0) 255 ]) value 0.

Lemma fold_dec_digits t s : bytes t -> fold_left dec_step t s = fold_left dec_digit (digs t) s.
Proof.
  revert s; induction t as [|c t IH]; intros s H; [reflexivity|].
  apply bytes_cons in H; destruct H as [Hc Ht].
  cbn [fold_left digs map filter]; unfold digs in *; cbn [map filter].
  pose proof (valueOf_sweep c Hc) as S; cbv zeta in S; fold (dig c) in S.
  unfold dec_step at 2; fold (dig c).
  destruct S as [[_ R]|[_ R]].
  - rewrite (proj2 (Z.eqb_neq (dig c) (-1))) by lia; cbn [negb fold_left].
    rewrite IH by assumption; f_equal.
    unfold dec_digit; replace (w8 (dig c)) with (dig c) by (unfold w8; rewrite Z.mod_small; lia).
    reflexivity.
  - rewrite R; cbn [Z.eqb Pos.eqb negb]; apply IH; assumption.
Qed.

Definition dfinish (s : dstate) : list Z :=
  let value := d_value s in
  if d_count s =? 2 then
    d_out s ++ [ Z.land (Z.shiftr value 4) 255 ]
  else if d_count s =? 3 then
    d_out s ++ [ Z.land (Z.shiftr value 10) 255; Z.land (Z.shiftr value 2) 255 ]
  else d_out s.

Lemma shl_or6 v b : 0 <= v -> 0 <= b < 64 -> w32 (Z.lor (Z.shiftl v 6) b) = (v * 64 + b) mod 2 ^ 32.
Proof.
  intros Hv Hb; rewrite Z.shiftl_mul_pow2 by lia.
  rewrite lor_disjoint_add by lia; reflexivity.
Qed.

Definition dr (d : Z) := 0 <= d < 64.
Lemma dec_digit_short out v n r : n + 1 <> 4 -> 0 <= v -> dr r ->
  dec_digit (mkD out v n) r = mkD out ((v * 64 + r) mod 2 ^ 32) (n + 1).
Proof.
  intros Hn Hv Hr; unfold dec_digit; cbn [d_out d_value d_count].
  rewrite (proj2 (Z.eqb_neq (n + 1) 4)) by assumption; cbn [negb]; rewrite shl_or6 by assumption; reflexivity.
Qed.

Lemma fold_dec d : Forall dr d -> forall out v, 0 <= v ->
  dfinish (fold_left dec_digit d (mkD out v 0)) = out ++ undigits d.
Proof.
  induction d as [|a|a b|a b c|a b c e l IH] using list_ind4; intros H out v Hv.
  - cbn; rewrite app_nil_r; reflexivity.
  - inversion H; subst; cbn [fold_left]; rewrite dec_digit_short by (auto; lia).
    cbn; rewrite app_nil_r; reflexivity.
  - inversion H as [|? ? Ha H']; inversion H' as [|? ? Hb _]; subst; cbn [fold_left].
    rewrite dec_digit_short by (auto; lia).
    rewrite dec_digit_short by (auto; try lia; apply Z.mod_pos_bound; lia).
    unfold dfinish; cbn [d_out d_value d_count]; change (0 + 1 + 1 =? 2) with true; cbv iota.
    rewrite land_0xff, Z.shiftr_div_pow2 by lia; cbn [undigits]; cbv zeta.
    unfold dr in *; f_equal; f_equal; zdm.
  - inversion H as [|? ? Ha H']; inversion H' as [|? ? Hb H'']; inversion H'' as [|? ? Hc _]; subst; cbn [fold_left].
    rewrite dec_digit_short by (auto; lia).
    rewrite dec_digit_short by (auto; try lia; apply Z.mod_pos_bound; lia).
    rewrite dec_digit_short by (auto; try lia; apply Z.mod_pos_bound; lia).
    unfold dfinish; cbn [d_out d_value d_count]; change (0 + 1 + 1 + 1 =? 2) with false;
    change (0 + 1 + 1 + 1 =? 3) with true; cbv iota.
    rewrite !land_0xff, !Z.shiftr_div_pow2 by lia; cbn [undigits]; cbv zeta.
    unfold dr in *; f_equal; f_equal; [zdm | f_equal; zdm].
  - inversion H as [|? ? Ha H']; inversion H' as [|? ? Hb H'']; inversion H'' as [|? ? Hc H''']; inversion H''' as [|? ? He Hl];
    subst; cbn [fold_left].
    rewrite dec_digit_short by (auto; lia).
    rewrite dec_digit_short by (auto; try lia; apply Z.mod_pos_bound; lia).
    rewrite dec_digit_short by (auto; try lia; apply Z.mod_pos_bound; lia).
    unfold dec_digit at 2; cbn [d_out d_value d_count]; change (negb (0 + 1 + 1 + 1 + 1 =? 4)) with false; cbv iota zeta.
    rewrite shl_or6 by (auto; try lia; apply Z.mod_pos_bound; lia).
    set (x := (_ * 64 + e) mod 2 ^ 32).
    assert (Hx : 0 <= x) by (apply Z.mod_pos_bound; lia).
    assert (Hx24 : x mod 16777216 = ((a * 64 + b) * 64 + c) * 64 + e)
      by (unfold x, dr in *; clear - Ha Hb Hc He Hv; zdm).
    rewrite IH by assumption; rewrite !land_0xff, !Z.shiftr_div_pow2 by lia.
    cbn [undigits]; cbv zeta; rewrite <- Hx24, <- app_assoc; f_equal.
    clearbody x; clear - Hx; cbn [app]; f_equal; [zdm | f_equal; [zdm | f_equal; zdm]].
Qed.

Lemma digs_range t : bytes t -> Forall dr (digs t).
Proof.
  intros H; induction t as [|c t IH]; [constructor|].
  apply bytes_cons in H; destruct H as [Hc Ht]; unfold digs in *; cbn [map filter].
  destruct (valueOf_sweep c Hc) as [[_ R]|[_ R]]; fold (dig c) in R.
  - rewrite (proj2 (Z.eqb_neq (dig c) (-1))) by lia; constructor; auto.
  - rewrite R; cbn; auto.
Qed.

Lemma base64d_undigits t : bytes t -> base64d t = undigits (digs t).
Proof.
  intros H; unfold base64d; rewrite fold_dec_digits by assumption.
  fold (dfinish (fold_left dec_digit (digs t) (mkD [] 0 0))).
  rewrite fold_dec by (auto using digs_range; lia); reflexivity.
Qed.

Lemma undigits_digits l : bytes l -> undigits (digits l) = l.
Proof.
  induction l as [|a|a b|a b c l IH] using list_ind3; intros H.
  - reflexivity.
  - apply bytes_cons in H; destruct H as [Ha _]; unfold byte in *; cbn [digits undigits]; f_equal; zdm.
  - apply bytes_cons in H; destruct H as [Ha H]; apply bytes_cons in H; destruct H as [Hb _]; unfold byte in *;
    cbn [digits undigits]; f_equal; [zdm | f_equal; zdm].
  - apply bytes_cons in H; destruct H as [Ha H]; apply bytes_cons in H; destruct H as [Hb H];
    apply bytes_cons in H; destruct H as [Hc H]; unfold byte in *; cbn [digits app undigits].
    rewrite IH by assumption; f_equal; [zdm | f_equal; [zdm | f_equal; zdm]].
Qed.

Lemma digs_app a b : digs (a ++ b) = digs a ++ digs b.
Proof. unfold digs; rewrite map_app, filter_app; reflexivity. Qed.

Lemma digs_map_alpha cs d : Forall dr d -> digs (map (alpha (cs62 cs) (cs63 cs)) d) = d.
Proof.
  induction d as [|x d IH]; intros H; [reflexivity|].
  inversion H as [|? ? Hx Hd]; subst; unfold digs in *; cbn [map filter].
  unfold dig at 1; unfold dig at 1; rewrite valueOf_alpha by exact Hx.
  rewrite (proj2 (Z.eqb_neq x (-1))) by (unfold dr in Hx; lia); cbn [negb]; f_equal; apply IH, Hd.
Qed.

Lemma digs_strip t : digs (strip_newlines t) = digs t.
Proof.
  induction t as [|c t IH]; [reflexivity|]; unfold strip_newlines, digs in *; cbn [filter map].
  destruct (Z.eqb_spec c 10) as [->|E]; cbn [negb map filter].
  - rewrite IH; reflexivity.
  - rewrite IH; reflexivity.
Qed.

Lemma digs_padding l : digs (padding l) = [].
Proof. unfold padding; destruct (zlen l mod 3) as [|[| [|[]|] |]|]; reflexivity. Qed.

Lemma digs_rfc cs pad l : bytes l -> digs (rfc4648 (cs62 cs) (cs63 cs) pad l) = digits l.
Proof.
  intros H; unfold rfc4648; rewrite digs_app, digs_map_alpha by (apply digits_range, H).
  destruct pad; [rewrite digs_padding|]; cbn; rewrite app_nil_r; reflexivity.
Qed.

Lemma digs_base64 l nl omit cs : bytes l -> digs (base64 l nl omit cs) = digits l.
Proof.
  intros H; destruct nl.
  - rewrite <- digs_strip, base64_nl, digs_rfc by assumption; reflexivity.
  - rewrite base64_plain, digs_rfc by assumption; reflexivity.
Qed.

Lemma alpha_byte cs i : 0 <= i < 64 -> byte (alpha (cs62 cs) (cs63 cs) i).
Proof.
  intros H; unfold alpha, byte; destruct (i <? 26) eqn:?, (i <? 52) eqn:?, (i <? 62) eqn:?, (i =? 62) eqn:?; try lia;
  destruct cs; cbn; lia.
Qed.

Lemma full_bytes cs nl pad k l : bytes l -> bytes (full (alpha (cs62 cs) (cs63 cs)) nl pad k l).
Proof.
  revert k; induction l as [|a|a b|a b c l IH] using list_ind3; intros k H; cbn [full].
  - constructor.
  - apply bytes_cons in H; destruct H as [Ha _]; unfold byte in Ha.
    apply bytes_app; split; [cbn [map]; repeat constructor; apply alpha_byte; zdm | destruct pad; repeat constructor; lia].
  - apply bytes_cons in H; destruct H as [Ha H]; apply bytes_cons in H; destruct H as [Hb _]; unfold byte in Ha, Hb.
    apply bytes_app; split; [cbn [map]; repeat constructor; apply alpha_byte; zdm | destruct pad; repeat constructor; lia].
  - apply bytes_cons in H; destruct H as [Ha H]; apply bytes_cons in H; destruct H as [Hb H];
    apply bytes_cons in H; destruct H as [Hc H]; unfold byte in Ha, Hb, Hc.
    apply bytes_app; split; [unfold quad; cbn [map]; repeat constructor; apply alpha_byte; zdm|].
    destruct (k + 1 =? 19); [apply bytes_app; split; [destruct nl; repeat constructor; lia|]|]; apply IH, H.
Qed.

Lemma base64_bytes l nl omit cs : bytes l -> bytes (base64 l nl omit cs).
Proof.
  intros H; rewrite base64_full by assumption; apply bytes_app; split; [apply full_bytes, H|].
  destruct nl; repeat constructor; lia.
Qed.

Lemma base64_round_trip data nl omit cs : bytes data -> base64d (base64 data nl omit cs) = data.
Proof.
  intros H; rewrite base64d_undigits by (apply base64_bytes, H).
  rewrite digs_base64 by assumption; apply undigits_digits, H.
Qed.

Lemma dig_alphabet c : byte c -> (dig c =? -1) = negb (in_alphabet c).
Proof. intros H; destruct (valueOf_sweep c H) as [[-> R]|[-> R]]; fold (dig c) in R; cbn [negb]; lia. Qed.

Lemma digs_filter t : bytes t -> digs (filter in_alphabet t) = digs t.
Proof.
  induction t as [|c t IH]; intros H; [reflexivity|].
  apply bytes_cons in H; destruct H as [Hc Ht]; unfold digs in *; cbn [filter map].
  rewrite (dig_alphabet c Hc); destruct (in_alphabet c) eqn:E; cbn [negb map filter].
  - rewrite (dig_alphabet c Hc), E; cbn [negb]; f_equal; apply IH, Ht.
  - apply IH, Ht.
Qed.

Lemma bytes_filter f t : bytes t -> bytes (filter f t).
Proof.
  unfold bytes; rewrite !Forall_forall; intros H x Hx; apply filter_In in Hx; apply H, Hx.
Qed.

Lemma base64d_filter t : bytes t -> base64d (filter in_alphabet t) = base64d t.
Proof.
  intros H; rewrite !base64d_undigits by auto using bytes_filter; rewrite digs_filter by assumption; reflexivity.
Qed.

Lemma digs_length t : bytes t -> zlen (digs t) = zlen (filter in_alphabet t).
Proof.
  induction t as [|c t IH]; intros H; [reflexivity|].
  apply bytes_cons in H; destruct H as [Hc Ht]; unfold digs in *; cbn [map filter].
  rewrite (dig_alphabet c Hc); destruct (in_alphabet c); cbn [negb]; rewrite ?zlen_cons; auto using f_equal.
Qed.

Lemma undigits_length d : zlen (undigits d) = 6 * zlen d / 8.
Proof.
  induction d as [|a|a b|a b c|a b c e l IH] using list_ind4; try reflexivity.
  cbn [undigits app]; cbv zeta; rewrite !zlen_cons, IH.
  replace (6 * (1 + (1 + (1 + (1 + zlen l))))) with (6 * zlen l + 3 * 8) by lia.
  rewrite Z.div_add by lia; lia.
Qed.

Lemma undigits_bytes d : Forall dr d -> bytes (undigits d).
Proof.
  induction d as [|a|a b|a b c|a b c e l IH] using list_ind4; intros H; cbn [undigits app]; try (repeat constructor; fail);
  repeat match goal with H : Forall dr (_ :: _) |- _ => inversion H; clear H; subst end;
  unfold dr in *; cbv zeta; unfold bytes in *; repeat (constructor; [unfold byte; zdm|]); auto; constructor.
Qed.

Lemma base64d_length t : bytes t -> zlen (base64d t) = 6 * zlen (filter in_alphabet t) / 8.
Proof. intros H; rewrite base64d_undigits, undigits_length, digs_length by assumption; reflexivity. Qed.
Lemma base64d_bytes t : bytes t -> bytes (base64d t).
Proof. intros H; rewrite base64d_undigits by assumption; apply undigits_bytes, digs_range, H. Qed.

Lemma digits_app3 l m : zlen l mod 3 = 0 -> digits (l ++ m) = digits l ++ digits m.
Proof.
  induction l as [|a|a b|a b c l IH] using list_ind3; intros H; try discriminate; [reflexivity|].
  cbn [digits app]; rewrite IH; [reflexivity|].
  rewrite !zlen_cons in H; clear IH; zdm.
Qed.

Lemma base64d_concat a b nl omit cs nl' omit' cs' : bytes a -> bytes b -> zlen a mod 3 = 0 ->
  base64d (base64 a nl omit cs ++ base64 b nl' omit' cs') = a ++ b.
Proof.
  intros Ha Hb H; rewrite base64d_undigits by (apply bytes_app; auto using base64_bytes).
  rewrite digs_app, !digs_base64, <- digits_app3 by assumption.
  apply undigits_digits, bytes_app; auto.
Qed.
