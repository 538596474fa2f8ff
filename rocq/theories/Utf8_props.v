(** * C04-C06: UTF-8 *)
From Verif Require Import Base Utf8_model Utf8_spec Utf8_proofs.

(** C04.  Encoding any scalar value and decoding the result, whatever bytes
    follow, gives the value back and consumes exactly the encoded bytes. *)
Theorem C04_encode_decode : forall cp rest,
  scalar cp ->
  utf8_iterate (codepoint_to_utf8 cp ++ rest) 0 (zlen (codepoint_to_utf8 cp ++ rest))
  = Ret (zlen (codepoint_to_utf8 cp), cp).
Proof. exact encode_decode. Qed.
Print Assumptions C04_encode_decode.

(** C04.  The encoder's output is the well-formed sequence of the standard. *)
Theorem C04_encoder_standard : forall cp,
  scalar cp -> wf_char (codepoint_to_utf8 cp) cp.
Proof. exact encode_wf. Qed.
Print Assumptions C04_encoder_standard.

(** C04.  Outside the code space nothing is produced ... *)
Theorem C04_encoder_rejects : forall cp,
  cp < 0 \/ 0x10FFFF < cp -> codepoint_to_utf8 cp = [].
Proof. exact encode_none. Qed.
Print Assumptions C04_encoder_rejects.

(** ... and surrogates, which the encoder does accept, are never accepted back. *)
Theorem C04_surrogates_not_decoded : forall cp rest,
  0xD800 <= cp <= 0xDFFF -> Forall in_u8 rest ->
  zlen (codepoint_to_utf8 cp) = 3 /\
  utf8_iterate (codepoint_to_utf8 cp ++ rest) 0 (zlen (codepoint_to_utf8 cp ++ rest))
  = Ret (-3, -1).
Proof. exact surrogate_rejected. Qed.
Print Assumptions C04_surrogates_not_decoded.

Example C04_example :
  scalar 0x3042 /\ codepoint_to_utf8 0x3042 = [0xE3; 0x81; 0x82] /\
  utf8_iterate ([0xE3; 0x81; 0x82] ++ [0xFF]) 0 4 = Ret (3, 0x3042).
Proof. split; [unfold scalar; lia | split; vm_compute; reflexivity]. Qed.

(** C05.  On any bytes, with [n > 0] bytes available from [p], the decoder
    returns the length and code point of the well-formed sequence the bytes
    start with if there is one, and the error otherwise. *)
Theorem C05_decoder_exact : forall mem p n,
  Forall in_u8 mem -> 0 <= p -> 0 < n -> p + n <= zlen mem ->
  (forall s cp t, zsub mem p n = s ++ t -> wf_char s cp ->
     utf8_iterate mem p n = Ret (zlen s, cp)) /\
  ((~ exists s cp t, zsub mem p n = s ++ t /\ wf_char s cp) ->
     utf8_iterate mem p n = Ret (-3, -1)).
Proof. exact iterate_exact. Qed.
Print Assumptions C05_decoder_exact.

(** C05.  The validity test on code points is exactly "scalar value". *)
Theorem C05_scalar_test : forall cp,
  is_unicode_scalar_value cp = true <-> scalar cp.
Proof. exact is_scalar_spec. Qed.
Print Assumptions C05_scalar_test.

Example C05_example :
  utf8_iterate [0xE0; 0x80; 0x80] 0 3 = Ret (-3, -1) (* overlong *) /\
  utf8_iterate [0xED; 0xA0; 0x80] 0 3 = Ret (-3, -1) (* surrogate *) /\
  utf8_iterate [0xF4; 0x90; 0x80; 0x80] 0 4 = Ret (-3, -1) (* above 10FFFF *) /\
  utf8_iterate [0xF4; 0x8F; 0xBF; 0xBF] 0 4 = Ret (4, 0x10FFFF).
Proof. repeat split; vm_compute; reflexivity. Qed.

(** C06.  Reading the code point at any offset of any string: the result only
    depends on the characters from that offset on (never on anything after
    the terminating NUL, a read of which would be [UB]). *)
Theorem C06_get_code_point : forall s off,
  Forall in_u8 s -> 0 <= off < zlen s ->
  (forall c cp t, zdrop off s = c ++ t -> wf_char c cp ->
     get_code_point (Some s) off = Ret (off + zlen c, cp)) /\
  ((~ exists c cp t, zdrop off s = c ++ t /\ wf_char c cp) ->
     get_code_point (Some s) off = Die "An invalid UTF-8 is gotten.").
Proof. exact get_code_point_spec. Qed.
Print Assumptions C06_get_code_point.

Example C06_example :
  (* truncated 3-byte sequence at the very end of the string *)
  get_code_point (Some [0x41; 0xE3; 0x81]) 1 = Die "An invalid UTF-8 is gotten." /\
  get_code_point (Some [0x41; 0xE3; 0x81; 0x82]) 1 = Ret (4, 0x3042).
Proof. split; vm_compute; reflexivity. Qed.
