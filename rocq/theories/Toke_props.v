(** * C49: literals *)
From Verif Require Import Base CLib CStrto FnMem_model Utf8_spec Utf8_model FnNum_spec FnNum_proofs Toke_model Toke_spec TokeNum_proofs TokeStr_proofs TokeExp_proofs.

(** ** Integers *)

(** A literal with the number [v] gives the documented value of type int, or long
    with the suffix L, and the tokenizer goes on behind it; it is rejected if and
    only if there is no such value. The case excluded is [C49_minimum_refuted]. *)
Theorem C49_integer : forall F D strtof strtod (fneg : F -> F) (dneg : D -> D) text base ds v minus suffix c rest,
  integer_text text base ds -> number base ds v ->
  (suffix = [] /\ ends base c /\ ~ suffix_letter c) \/ suffix = [108] \/ suffix = [76] ->
  let bits := match suffix with [] => 32 | _ => 64 end in
  (minus = true -> base <> 10 -> v <> 2 ^ (bits - 1)) ->
  match numeric_literal F D strtof strtod fneg dneg minus (text ++ suffix ++ c :: rest) with
  | Ret (k, q) => q = c :: rest /\
      exists w, k = match suffix with [] => CInt w | _ => CLong w end /\ integer_value bits base minus v w
  | Die _ => forall w, ~ integer_value bits base minus v w
  | UB | Fuel => False
  end.
Proof. intros. apply (integer_literal_ok F D strtof strtod fneg dneg text base ds v minus suffix c rest); auto. Qed.

Example C49_integer_ex :
  integer_text (bytes "0xFFFF_FFFF") 16 (bytes "FFFFFFFF") /\ number 16 (bytes "FFFFFFFF") 4294967295 /\ ends 16 59 /\ ~ suffix_letter 59 /\
  integer_value 32 16 false 4294967295 (-1).
Proof.
  assert (D : digit 16 70 15) by (unfold digit; lia).
  split; [| split; [| split; [| split]]].
  - apply I_hex; [auto | | discriminate]. do 4 (apply (Sep_digit 16 70 15); [exact D |]). apply Sep_underscore. do 4 (apply (Sep_digit 16 70 15); [exact D |]). constructor.
  - apply number_value; [lia |]. split; [discriminate |]. split; [repeat constructor | reflexivity].
  - unfold ends. change (16 =? 16) with true. split; [unfold digit; intros v; lia |]. lia.
  - unfold suffix_letter. cbn. lia.
  - unfold integer_value. change (16 =? 10) with false. split; [reflexivity |]. exists (-1). vm_compute. intuition discriminate.
Qed.

(** A literal accepted as int or long is one of these texts, with its documented
    value. Two sorts of texts are accepted too though they are none, and remain as
    cases of the conclusion: see [C49_no_digits_refuted], [C49_hex_refuted]. *)
Theorem C49_integer_sound_partial : forall F D strtof strtod (fneg : F -> F) (dneg : D -> D) minus p k q w,
  starts (fun c => exists v, digit 10 c v) p ->
  numeric_literal F D strtof strtod fneg dneg minus p = Ret (k, q) -> k = CInt w \/ k = CLong w ->
  exists text suffix, p = text ++ suffix ++ q /\
    let bits := match suffix with [] => 32 | _ => 64 end in
    (suffix = [] /\ k = CInt w \/ (suffix = [108] \/ suffix = [76]) /\ k = CLong w) /\
    ((exists base ds v, integer_text text base ds /\ number base ds v /\ integer_value bits base minus v w) \/
     ((exists u, Forall (eq 95) u /\ (text = 48 :: u \/ exists x, In x (bytes "xXbB") /\ text = 48 :: x :: u)) /\ w = 0) \/
     (exists x c t, (x = 120 \/ x = 88) /\ text = 48 :: x :: c :: t /\ c <> 95 /\ ~ hexadecimal c)).
Proof.
  intros F D strtof strtod fneg dneg minus p k q w ST E K.
  destruct (integer_literal_inv F D strtof strtod fneg dneg minus p k q w ST E K) as (text & suffix & EP & KE & SF & CS).
  exists text, suffix. split; auto. split; [| exact CS]. destruct SF as [-> | [-> | ->]]; auto.
Qed.
Example C49_integer_sound_ex :
  let lit := numeric_literal unit unit (fun _ => (tt, 0)) (fun _ => (tt, 0)) (fun x => x) (fun x => x) in
  lit true (source "9223372036854775808L;") = Ret (CLong (-9223372036854775808), source ";") /\
  lit false (source "089;") = Die range_error /\ lit false (source "0b12;") = Die range_error.
Proof. repeat split; reflexivity. Qed.

(** ** String literals *)

(** A double-quoted literal gives the documented bytes. *)
Theorem C49_string : forall fuel t bs rest,
  body t bs (34 :: rest) -> 4 * zlen t <= INT32_MAX -> (length t < fuel)%nat ->
  string_literal fuel (t ++ 34 :: rest) = Ret (bs, rest, None).
Proof. intros. apply string_literal_ok; auto. Qed.
(** ... up to a variable, behind which the literal goes on. *)
Theorem C49_expansion : forall fuel t bs var rest,
  body t bs (36 :: var ++ rest) -> expansion var rest -> 4 * zlen t <= INT32_MAX -> (length t + length var + 1 < fuel)%nat ->
  string_literal fuel (t ++ 36 :: var ++ rest) = Ret (bs, 36 :: var ++ rest, Some rest).
Proof. intros. apply string_expansion_ok; auto. Qed.
(** Only these literals are accepted. *)
Theorem C49_string_sound : forall fuel p bs q x, string_literal fuel p = Ret (bs, q, x) ->
  match x with
  | None => exists t, p = t ++ 34 :: q /\ body t bs (34 :: q)
  | Some _ => exists t, p = t ++ q /\ body t bs q /\ starts (eq 36) q
  end.
Proof. apply string_literal_inv. Qed.

Example C49_string_ex : body (bytes "a\x41\N{U+E9}\d") [97; 65; 195; 169; 92; 100] (source """;").
Proof.
  apply (Body_cons [97] [97]); [apply P_plain; lia |].
  apply (Body_cons (bytes "\x41") [65]).
  { apply (P_byte (bytes "x41")). apply (E_hex (bytes "41")). split; [| split; [vm_compute; discriminate | left; reflexivity]].
    apply number_value; [lia |]. split; [discriminate |]. split; [repeat constructor | reflexivity]. }
  apply (Body_cons (bytes "\N{U+E9}") [195; 169]).
  { apply (P_unicode (bytes "E9") 233); [| vm_compute; discriminate | apply (wf_2 195 169); unfold byte_in, tail_byte, byte_in; lia].
    apply number_value; [lia |]. split; [discriminate |]. split; [repeat constructor | reflexivity]. }
  apply (Body_cons (bytes "\d") [92; 100] [] []); [| constructor]. apply P_raw; [cbn; tauto | lia].
Qed.
Example C49_expansion_ex : expansion (bytes "foo::bar->{x}[3]->[1]") (source " b""").
Proof.
  assert (W : forall n, Forall word n -> var_name n) by (induction 1; constructor; auto).
  assert (B : forall n, forallb wordb n = true -> Forall word n) by (intros n H; apply Forall_forall; intros x I; rewrite forallb_forall in H; apply word_iff; auto).
  apply (X_var (bytes "foo::bar") (bytes "->{x}[3]->[1]")); [| discriminate | |].
  - do 3 (apply Name_char; [apply word_iff; reflexivity |]). apply Name_colons. apply W, B. reflexivity.
  - apply (Accs_arrow false (bytes "{x}") (bytes "[3]->[1]")); [apply (Acc_field [120]); apply B; reflexivity |].
    apply (Accs_plain (bytes "[3]") (bytes "->[1]")); [apply (Acc_element [51]); apply B; reflexivity |].
    apply (Accs_arrow true (bytes "[1]") []); [apply (Acc_element [49]); apply B; reflexivity | constructor].
  - unfold after_var, word. cbn. intuition (try discriminate; try lia).
Qed.

(** ** Character literals and single-quoted literals *)
Theorem C49_character : forall t v rest, char_text t v (39 :: rest) -> 0 <= v <= 255 ->
  exists w, character_literal (t ++ 39 :: rest) = Ret (w, rest) /\ as_byte v w.
Proof. apply character_ok. Qed.
Theorem C49_character_sound : forall p w q, Forall (fun c => 0 <= c <= 255) p -> character_literal p = Ret (w, q) ->
  exists t v, p = t ++ 39 :: q /\ char_text t v (39 :: q) /\ as_byte v w.
Proof. intros p w q F E. apply character_inv; auto. Qed.
Theorem C49_single : forall fuel t bs rest, single t bs -> (length t < fuel)%nat -> single_quoted fuel (t ++ 39 :: rest) = Ret (bs, rest).
Proof. intros. apply single_quoted_ok; auto. Qed.
Theorem C49_single_sound : forall fuel p bs q, single_quoted fuel p = Ret (bs, q) -> exists t, p = t ++ 39 :: q /\ single t bs.
Proof. apply single_quoted_inv. Qed.
Example C49_character_ex : char_text (bytes "\377") 255 (source "';") /\ as_byte 255 (-1) /\ single (bytes "a\\b\'$x") (bytes "a\b'$x").
Proof.
  split; [| split; [unfold as_byte; split; [lia | reflexivity] |]].
  - apply (Ch_escape (bytes "377")). apply E_octal; [| lia]. split; [| split; [vm_compute; discriminate | left; reflexivity]].
    apply number_value; [lia |]. split; [discriminate |]. split; [repeat constructor | reflexivity].
  - cbv. repeat first [apply S_nil | apply S_escape; [auto |] | apply S_plain; [discriminate | discriminate | discriminate |]].
Qed.

(** ** What is not so *)

(** "}" behind a variable in a string literal: the compiler never ends. *)
Theorem C49_hang_refuted : forall fuel n rest, Forall word n -> n <> [] -> string_literal fuel (36 :: n ++ 125 :: rest) = Fuel.
Proof.
  intros fuel n rest F NE. unfold string_literal. cbn [deref obind]. change (36 =? 34) with false. cbn iota.
  replace (find_end fuel (36 :: n ++ 125 :: rest)) with (@Fuel (list Z * option (list Z))); [reflexivity |].
  destruct fuel; [reflexivity |]. cbn [find_end deref obind next tl]. change (36 =? 34) with false. change (36 =? 36) with true. cbn iota.
  pose proof (fun fuel => skip_name_hang' n fuel rest F) as H. destruct F as [| c n W F]; [congruence |]. cbn [app] in *. cbn [deref obind]. unfold word in W.
  destruct (Z.eqb_spec c 34); [lia |]. cbn [negb]. unfold skip_expansion. cbn [deref obind]. destruct (Z.eqb_spec c 36); [lia |]. cbn [deref obind].
  destruct (Z.eqb_spec c 123); [lia |]. cbn [deref obind]. destruct (Z.eqb_spec c 64); [lia |]. rewrite H. reflexivity.
Qed.

Section Refuted.
  Variables F D : Type.
  Variable strtof : list Z -> F * Z.
  Variable strtod : list Z -> D * Z.
  Variable fneg : F -> F.
  Variable dneg : D -> D.
  Local Notation lit := (numeric_literal F D strtof strtod fneg dneg).

  (** The minus of the smallest number in another notation overflows. *)
  Theorem C49_minimum_refuted :
    lit true (source "0x80000000;") = UB /\ lit true (source "0x8000000000000000L;") = UB.
  Proof. split; reflexivity. Qed.
  (** The source is read beyond its end. *)
  Theorem C49_end_refuted :
    lit false (source "0x") = UB /\ character_literal (source "") = UB /\
    forall fuel, string_literal (3 + fuel) (source "\") = UB.
  Proof. repeat split; reflexivity. Qed.
  (** A prefix without digits is the number 0. *)
  Theorem C49_no_digits_refuted :
    lit false (source "0b;") = Ret (CInt 0, source ";") /\ lit false (source "0_;") = Ret (CInt 0, source ";").
  Proof. split; reflexivity. Qed.
  (** The character right behind 0x is not checked: a sign or a space is accepted. *)
  Theorem C49_hex_refuted :
    lit false (source "0x-5L;") = Ret (CLong (-5), source ";") /\ lit false (source "0x 5;") = Ret (CInt 5, source ";").
  Proof. split; reflexivity. Qed.
  (** A sum without spaces is one literal, and invalid. *)
  Theorem C49_sum_refuted : snd (strtod (bytes "1.5+2")) = 3 -> lit false (source "1.5+2;") = Die "Invalid double literal.".
  Proof.
    intros E. change (lit false (source "1.5+2;")) with
      (let (d, used) := strtod (bytes "1.5+2") in if used =? 5 then Ret (CDouble d, source ";") else Die "Invalid double literal." : outcome (constant F D * list Z)).
    destruct (strtod (bytes "1.5+2")) as [d u]. cbn [snd] in E. subst u. reflexivity.
  Qed.
  (** A separator behind a hexadecimal exponent: the last digit is dropped. *)
  Theorem C49_exponent_refuted : forall d, strtod (bytes "0x1p") = (d, 4) -> lit false (source "0x1p3_;") = Ret (CDouble d, source "_;").
  Proof.
    intros d E. change (lit false (source "0x1p3_;")) with
      (let (d, used) := strtod (bytes "0x1p") in if used =? 4 then Ret (CDouble d, source "_;") else Die "Invalid double literal." : outcome (constant F D * list Z)).
    rewrite E. reflexivity.
  Qed.
End Refuted.

(** An arrow behind the accesses is lost. *)
Theorem C49_arrow_refuted : forall fuel, string_literal (20 + fuel) (source "$x->{a}->b""") = Ret ([], source "$x->{a}->b""", Some (source "b""")).
Proof. reflexivity. Qed.
(** A Unicode escape with leading zeros is rejected. *)
Theorem C49_unicode_refuted : forall fuel, string_literal (20 + fuel) (source "\N{U+000000041}""") = Die "Too large Unicode escape character.".
Proof. reflexivity. Qed.

Print Assumptions C49_integer.
Print Assumptions C49_integer_sound_partial.
Print Assumptions C49_string.
Print Assumptions C49_expansion.
Print Assumptions C49_string_sound.
Print Assumptions C49_character.
Print Assumptions C49_character_sound.
Print Assumptions C49_single.
Print Assumptions C49_single_sound.
Print Assumptions C49_hang_refuted.
Print Assumptions C49_minimum_refuted.
Print Assumptions C49_end_refuted.
Print Assumptions C49_no_digits_refuted.
Print Assumptions C49_hex_refuted.
Print Assumptions C49_sum_refuted.
Print Assumptions C49_exponent_refuted.
Print Assumptions C49_arrow_refuted.
Print Assumptions C49_unicode_refuted.
