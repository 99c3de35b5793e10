(** Property theorems for base64 (C01-C04).  Statements only; proofs in P_Base64. *)
From Verif Require Import Base BaseP M_Base64 S_Base64 P_Base64.
From Coq Require Import String.

(** C01: decoding inverts encoding, for every option combination. *)
Theorem C01_base64_round_trip : forall (data : list Z) (withNewlines omitEqs : bool) (cs : charset),
  bytes data -> base64d (base64 data withNewlines omitEqs cs) = data.
Proof. exact base64_round_trip. Qed.
Print Assumptions C01_base64_round_trip.

Example C01_case : bytes (str "foobar!") /\
  base64 (str "foobar!") false false PlusSlash = str "Zm9vYmFyIQ==" /\
  base64d (str "Zm9vYmFyIQ==") = str "foobar!".
Proof. split; [apply bytesb_iff; reflexivity | split; reflexivity]. Qed.

(** C02: the output is the RFC 4648 encoding for the alphabet; newlines only wrap it. *)
Theorem C02_base64_is_rfc4648 : forall (data : list Z) (omitEqs : bool), bytes data ->
  base64 data false omitEqs PlusSlash = rfc4648 43 47 (negb omitEqs) data /\
  base64 data false omitEqs PlusComma = rfc4648 43 44 (negb omitEqs) data /\
  base64 data false omitEqs MinusUnderscore = rfc4648 45 95 (negb omitEqs) data.
Proof.
  intros data omitEqs H; split; [|split].
  - exact (base64_plain data omitEqs PlusSlash H).
  - exact (base64_plain data omitEqs PlusComma H).
  - exact (base64_plain data omitEqs MinusUnderscore H).
Qed.
Print Assumptions C02_base64_is_rfc4648.

Theorem C02_newlines_only_wrap : forall (data : list Z) (omitEqs : bool) (cs : charset), bytes data ->
  strip_newlines (base64 data true omitEqs cs) = base64 data false omitEqs cs /\
  ~ In 10 (base64 data false omitEqs cs) /\
  Forall (fun line => zlen line <= 76) (lines (base64 data true omitEqs cs)).
Proof.
  intros data omitEqs cs H; split; [|split].
  - rewrite base64_nl, base64_plain by exact H; reflexivity.
  - exact (base64_no_newline data omitEqs cs H).
  - exact (base64_line_length data omitEqs cs H).
Qed.
Print Assumptions C02_newlines_only_wrap.

Example C02_case :
  map (fun line => zlen line) (lines (base64 (repeat 65 100) true false PlusSlash)) = [76; 60; 0].
Proof. vm_compute; reflexivity. Qed.

(** Finding: data whose length is a multiple of 57 gets an extra empty line. *)
Theorem C02_trailing_blank_line_refuted : exists data : list Z, bytes data /\ data <> [] /\
  In [] (removelast (lines (base64 data true false PlusSlash))).
Proof.
  exists (repeat 65 57); split; [apply bytes_repeat; unfold byte; lia | split; [discriminate|]].
  vm_compute; tauto.
Qed.
Print Assumptions C02_trailing_blank_line_refuted.

(** C03: characters outside the alphabet are ignored; length of the result. *)
Theorem C03_decoder_ignores_foreign_characters : forall (text1 text2 : list Z),
  bytes text1 -> bytes text2 ->
  filter in_alphabet text1 = filter in_alphabet text2 -> base64d text1 = base64d text2.
Proof.
  intros t1 t2 H1 H2 E; rewrite <- (base64d_filter t1 H1), <- (base64d_filter t2 H2), E; reflexivity.
Qed.
Print Assumptions C03_decoder_ignores_foreign_characters.

Theorem C03_decoder_length : forall (text : list Z), bytes text ->
  bytes (base64d text) /\ zlen (base64d text) = 6 * zlen (filter in_alphabet text) / 8.
Proof. intros t H; split; [exact (base64d_bytes t H) | exact (base64d_length t H)]. Qed.
Print Assumptions C03_decoder_length.

Example C03_case : base64d (str "Zm 9v*Ym(Fy!!") = base64d (str "Zm9vYmFy") /\
  filter in_alphabet (str "Zm 9v*Ym(Fy!!") = str "Zm9vYmFy".
Proof. split; vm_compute; reflexivity. Qed.

(** C04: concatenation of encodings.  Holds when the first part has no partial group. *)
Theorem C04_concat_partial : forall (a b : list Z) nl omit cs nl' omit' cs', bytes a -> bytes b ->
  zlen a mod 3 = 0 ->
  base64d (base64 a nl omit cs ++ base64 b nl' omit' cs') = a ++ b.
Proof. intros; apply base64d_concat; assumption. Qed.
Print Assumptions C04_concat_partial.

Example C04_case : base64d (base64 (str "abc") true false PlusSlash ++ base64 (str "d") true false PlusSlash)
  = str "abcd".
Proof. vm_compute; reflexivity. Qed.

Theorem C04_concat_refuted : exists a b : list Z, bytes a /\ bytes b /\
  base64d (base64 a false false PlusSlash ++ base64 b false false PlusSlash) <> a ++ b.
Proof.
  exists [97], [98]; split; [apply bytesb_iff; reflexivity | split; [apply bytesb_iff; reflexivity|]].
  vm_compute; discriminate.
Qed.
Print Assumptions C04_concat_refuted.
