(** * C03: the native text buffer holds exactly what was added, terminated. *)

From Verif Require Import Base CLib Dec NSbuf_model NSbuf_spec NSbuf_proofs.

(** For every initial capacity and every history allowed by the abstract text
    (about 1 GB in total), the buffer gives the same answers, stays inside
    its block and is NUL terminated. *)
Theorem C03_text_buffer_is_concatenation :
  forall (capacity : Z) (ops : list nb_op) (outs : list nb_out),
    0 <= capacity <= INT32_MAX ->
    text_run [] ops outs ->
    nb_history capacity ops = Ret outs.
Proof. exact history_spec. Qed.

(** The decimal text of a number, read back digit by digit, is that number;
    there is no leading zero and no other character than digits and a minus. *)
Theorem C03_decimal_text :
  forall n : Z, 0 <= n ->
    digits_value (print_dec n) = n /\ Forall is_digit (print_dec n) /\
    print_dec n <> [] /\ (0 < n -> hd 0 (print_dec n) <> 48) /\
    (0 < n -> print_dec (- n) = 45 :: print_dec n).
Proof.
  intros n N. unfold print_dec. replace (n <? 0) with false by lia.
  destruct (udec_spec n N) as (D & V & Ne & Hd & Z0). repeat split; auto.
  intros P. replace (- n <? 0) with true by lia. rewrite Z.opp_involutive. reflexivity.
Qed.

Example C03_example :
  let ops := [BAdd (bytes "ab" ++ [0; 99]); BInt (-5); BText; BLong 7; BHex (-1);
              BContains 1 (bytes "7LL"); BContains 5 (bytes "b"); BText] in
  let outs := [OInt 0; OInt 2; OText (bytes "ab-5"); OInt 4; OInt 7; OInt 1; OInt 0;
               OText (bytes "ab-57LL\xFF")] in
  text_run [] ops outs /\ nb_history 1 ops = Ret outs.
Proof.
  assert (R : text_run []
   [BAdd (bytes "ab" ++ [0; 99]); BInt (-5); BText; BLong 7; BHex (-1);
              BContains 1 (bytes "7LL"); BContains 5 (bytes "b"); BText]
   [OInt 0; OInt 2; OText (bytes "ab-5"); OInt 4; OInt 7; OInt 1; OInt 0;
               OText (bytes "ab-57LL\xFF")]).
  { econstructor. { apply ts_add; [reflexivity | vm_compute; discriminate]. }
    econstructor. { apply ts_add; [reflexivity | vm_compute; discriminate]. }
    econstructor. { apply ts_text. }
    econstructor. { apply ts_add; [reflexivity | vm_compute; discriminate]. }
    econstructor. { apply ts_add; [reflexivity | vm_compute; discriminate]. }
    econstructor. { apply ts_contains_yes; [vm_compute; split; discriminate |].
      exists (bytes "b-5"), (bytes "\xFF"). reflexivity. }
    econstructor. { apply ts_contains_no; [vm_compute; split; discriminate |].
      intros C. apply strstr_spec in C. vm_compute in C. discriminate. }
    econstructor. { apply ts_text. }
    constructor. }
  split; [exact R | vm_compute; reflexivity].
Qed.

Print Assumptions C03_text_buffer_is_concatenation.
Print Assumptions C03_decimal_text.
