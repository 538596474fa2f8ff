(** * C32: StringBuffer is a growable byte string *)
From Verif Require Import Base StM CLib Array_model FnMem_model FnMem_spec FnMem_proofs FnRev_proofs
  FnStr_model FnStr_spec FnStr_proofs StrCmp_model StrCmp_spec StrBuf_model StrBuf_spec StrBuf_proofs.

(** Every history of operations on a new buffer gives the outcomes of the same
    history on a byte string: exceptions exactly for wrong arguments, with no
    change.  What is missing from the claim (see [allowed]): set with undef
    empties the buffer, and lengthening with set_length after a shortening
    replace may expose removed bytes. *)
Theorem C32_byte_string_partial :
  forall str capacity ops,
    string_arg str -> capacity <= max_capacity -> Forall op_args_ok ops ->
    exists s, sb_new str capacity = Ret s /\
      allowed_run (mk_bytestr (given str) false (Z.max 0 capacity)) ops (sb_run s ops).
Proof.
  intros str capacity ops SA C A. destruct (new_ok str capacity SA C) as (s & E & I).
  exists s. split; auto. apply run_ok; auto.
Qed.

(** new_len makes a buffer of NUL bytes and throws for a negative length. *)
Theorem C32_new_len :
  forall length capacity ops,
    length <= max_capacity -> capacity <= max_capacity -> Forall op_args_ok ops ->
    match sb_new_len length capacity with
    | Ret s => 0 <= length /\ allowed_run (mk_bytestr (zrep length 0) false (Z.max 0 capacity)) ops (sb_run s ops)
    | Die _ => length < 0
    | _ => False
    end.
Proof.
  intros length capacity ops L C A. destruct (Z.leb_spec 0 length).
  - destruct (new_len_ok length capacity) as (s & -> & I & _); auto. split; auto. apply run_ok; auto.
  - unfold sb_new_len. destruct (Z.geb_spec length 0); [lia |]. auto.
Qed.

Lemma history_inv a s : history a s -> Inv a s.
Proof.
  induction 1 as [str capacity s SA C E | a s op s' o l' H IH A F E T].
  - destruct (new_ok str capacity SA C) as (s2 & E2 & I). assert (s2 = s) by congruence. subst. auto.
  - destruct (op_ok a s op IH A F) as (s2 & o2 & l2 & E2 & V & I2). rewrite E in E2. injection E2 as <- <-.
    cbn [sb_op] in T. unfold bind in T. rewrite (to_string_ok _ _ I2) in T. cbn in T.
    assert (L : bs (next a op l2 o) = l2) by (destruct op; reflexivity). rewrite L in T.
    unfold ret in T. injection T as <-. auto.
Qed.

(** Every operation of every history is allowed, and the history goes on. *)
Theorem C32_every_operation_partial :
  forall a s op,
    history a s -> op_args_ok op -> fits a op ->
    exists l', allowed a op l' (snd (sb_op op s)) /\ history (next a op l' (snd (sb_op op s))) (fst (sb_op op s)).
Proof.
  intros a s op H A F. destruct (op_ok a s op (history_inv _ _ H) A F) as (s' & o & l' & E & V & I).
  exists l'. rewrite E. split; [exact V |]. cbn [fst snd]. apply (HOp a s op s' o l' H A F E).
  cbn [sb_op]. unfold bind. rewrite (to_string_ok _ _ I).
  assert (L : bs (next a op l' o) = l') by (destruct op; reflexivity). rewrite L. reflexivity.
Qed.

(** clone gives a buffer with the same bytes and a history of its own. *)
Theorem C32_clone :
  forall a s, history a s ->
    exists c, sb_clone s = Ret c /\ history (mk_bytestr (bs a) false 0) c.
Proof.
  intros a s H. pose proof (history_inv _ _ H) as I. pose proof (to_string_ok _ _ I) as T.
  apply (f_equal snd) in T. unfold sb_to_string in T. cbn [snd] in T. unfold sb_clone. rewrite T, obind_ret.
  assert (SA : string_arg (Some (bs a))).
  { split.
    - rewrite (i_bs _ _ I). pose proof (Forall_zsub is_byte (sb_string s) 0 (sb_length s) (i_bytes _ _ I)) as F.
      rewrite zsub_0 in F by auto. exact F.
    - rewrite (inv_zlen _ _ I). pose proof (i_len _ _ I). pose proof (i_max _ _ I) as MX. unfold max_capacity in MX. lia. }
  destruct (new_ok (Some (bs a)) (-1) SA ltac:(unfold max_capacity; lia)) as (c & E & _).
  exists c. split; auto. apply (HNew (Some (bs a)) (-1) c); auto. unfold max_capacity. lia.
Qed.

(** cmp and eq compare the bytes as the string operators cmp and eq do. *)
Theorem C32_cmp :
  forall a s b t, history a s -> history b t ->
    sb_cmp (Some s) (Some t) = Ret (string_cmp (Some (bs a)) (Some (bs b))) /\
    sb_eq (Some s) (Some t) = Ret (string_comparison EQ (Some (bs a)) (Some (bs b))).
Proof.
  intros a s b t H1 H2. pose proof (history_inv _ _ H1) as I1. pose proof (history_inv _ _ H2) as I2.
  pose proof (inv_zlen _ _ I1) as Z1. pose proof (inv_zlen _ _ I2) as Z2.
  assert (C : sb_cmp (Some s) (Some t) = Ret (string_cmp (Some (bs a)) (Some (bs b)))).
  { unfold sb_cmp, string_cmp. rewrite Z1, Z2.
    set (n := if sb_length s <? sb_length t then sb_length s else sb_length t).
    pose proof (i_len _ _ I1) as L1. pose proof (i_len _ _ I2) as L2.
    pose proof (i_max _ _ I1) as M1. pose proof (i_max _ _ I2) as M2. unfold max_capacity in *.
    pose proof (i_cap _ _ I1) as C1. pose proof (i_cap _ _ I2) as C2.
    assert (N : 0 <= n /\ n <= sb_length s /\ n <= sb_length t).
    { unfold n. destruct (Z.ltb_spec (sb_length s) (sb_length t)); lia. }
    clearbody n.
    assert (M : fn_memcmp [string_blob (sb_string s); string_blob (sb_string t)] (Some 0) 0 (Some 1) 0 n =
                Ret (memcmp (bs a) (bs b) n)).
    { set (h := [string_blob (sb_string s); string_blob (sb_string t)]).
      assert (G1 : forall e1 e2, get_raw h (Some 0) e1 e2 = Ret (0, string_blob (sb_string s))) by reflexivity.
      assert (G2 : forall e1 e2, get_raw h (Some 1) e1 e2 = Ret (1, string_blob (sb_string t))) by reflexivity.
      unfold fn_memcmp. rewrite G1, obind_ret, G2, obind_ret.
      destruct (Z.geb_spec n 0); [| lia]. unfold byte_length, c_mul. cbn [string_blob b_elem_size b_length b_data].
      replace ((INT32_MIN <=? 1 * zlen (sb_string s)) && (1 * zlen (sb_string s) <=? INT32_MAX)) with true by lia.
      replace ((INT32_MIN <=? 1 * zlen (sb_string t)) && (1 * zlen (sb_string t) <=? INT32_MAX)) with true by lia.
      rewrite !obind_ret. rewrite c_add_range, obind_ret by (unfold in_i32; lia).
      destruct (Z.leb_spec (0 + n) (1 * zlen (sb_string s))); [| lia].
      rewrite obind_ret.
      destruct (Z.leb_spec (0 + n) (1 * zlen (sb_string t))); [| lia].
      replace ((0 <=? 0) && (0 + n <=? zlen (sb_string s)) && (0 <=? 0) && (0 + n <=? zlen (sb_string t))) with true by lia.
      rewrite !zdrop_0 by lia. unfold memcmp. do 2 f_equal.
      - rewrite (i_bs _ _ I1). apply znth_ext. intros i Ii. rewrite !znth_take.
        destruct (Z.ltb_spec i n); auto. destruct (Z.ltb_spec i (sb_length s)); [reflexivity | lia].
      - rewrite (i_bs _ _ I2). apply znth_ext. intros i Ii. rewrite !znth_take.
        destruct (Z.ltb_spec i n); auto. destruct (Z.ltb_spec i (sb_length t)); [reflexivity | lia]. }
    rewrite M, obind_ret. reflexivity. }
  split; auto. unfold sb_eq. rewrite C, obind_ret. reflexivity.
Qed.
Theorem C32_cmp_undef :
  forall s, sb_cmp None None = Ret 0 /\ sb_cmp (Some s) None = Ret 1 /\ sb_cmp None (Some s) = Ret (-1) /\
    sb_eq None None = Ret 1 /\ sb_eq (Some s) None = Ret 0 /\ sb_eq None (Some s) = Ret 0.
Proof. repeat split. Qed.

(** An exception that changes the buffer: set with undef. *)
Theorem C32_set_undef_refuted :
  forall a s, history a s ->
    exists s' e, sb_op (BSet None) s = (s', Die e) /\ sb_op BToString s' = (s', Ret (BRString [])).
Proof.
  intros a s H. pose proof (history_inv _ _ H) as I.
  assert (F : fits a (BSet None)) by (split; auto; intros l1 E; discriminate).
  destruct (set_ok a s None I Logic.I F) as (s' & o & E & [e ->] & I').
  exists s', e. cbn [sb_op]. unfold bind. rewrite E, (to_string_ok _ _ I'). auto.
Qed.

Definition ex_run (str : option (list Z)) (capacity : Z) (ops : list bop) : list (outcome bres) :=
  match sb_new str capacity with Ret s => sb_run s ops | _ => [] end.

(** Removed bytes reappear: "abcd", remove the last two, set_length(4). *)
Theorem C32_set_length_refuted :
  ex_run (Some [97; 98; 99; 100]) (-1) [BReplace 2 2 None; BToString; BSetLength 4; BToString] =
  [Ret BRUnit; Ret (BRString [97; 98]); Ret BRUnit; Ret (BRString [97; 98; 99; 100])].
Proof. vm_compute. reflexivity. Qed.

(** A sum above the largest int passes the check and reaches C code that
    overflows. *)
Theorem C32_push_overflow_refuted :
  ex_run (Some [97]) (-1) [BPush (Some [98]) 1 INT32_MAX] = [UB].
Proof. vm_compute. reflexivity. Qed.

Example C32_nonvacuous :
  ex_run (Some [97; 98]) 3
    [BPush (Some [99; 100; 101]) 1 (-1); BToString; BPushChar 353; BReplace 1 2 (Some [0; 255; 1; 2]); BToString;
     BReplace 0 7 None; BSetLength (-1); BPush (Some [1]) 1 1; BPush None 0 (-1); BPush (Some [1; 2]) 3 (-1);
     BPush (Some [1; 2]) 0 (-2);
     BSetLength 2; BLength; BSetLength 4; BToString; BReserve 20; BCapacity; BSet (Some [7; 8]); BToString] =
  [Ret BRUnit; Ret (BRString [97; 98; 100; 101]); Ret BRUnit; Ret BRUnit; Ret (BRString [97; 0; 255; 1; 2; 101; 97]);
   Ret BRUnit; Die "The length $length must be greater than or equal to 0.";
   Die "The offset $offset + the length $length must be less than or equal to the length of the string.";
   Die "The string $string must be defined."; Die e_length; Die e_length;
   Ret BRUnit; Ret (BRInt 2); Ret BRUnit; Ret (BRString [97; 0; 0; 0]); Ret BRUnit; Ret (BRInt 20); Ret BRUnit;
   Ret (BRString [7; 8])].
Proof. vm_compute. reflexivity. Qed.

Example C32_hypotheses_met :
  string_arg (Some [97; 98]) /\
  Forall op_args_ok [BPush (Some [99; 100; 101]) 1 (-1); BReplace 1 2 (Some [0; 255]); BSetLength 4] /\
  fits (mk_bytestr [97; 98] true 3) (BReplace 1 1 (Some [0; 255])) /\
  exists s, history (mk_bytestr [97; 98; 99] false 3) s.
Proof.
  assert (S2 : string_arg (Some [97; 98])) by (split; [repeat constructor; lia | reflexivity]).
  split; [exact S2 |]. split; [| split].
  - repeat apply Forall_cons; try apply Forall_nil; cbn; unfold in_i32, is_string; repeat split;
      try lia; try reflexivity; repeat constructor; lia.
  - split; [| cbn; lia]. intros l1 E. vm_compute in E. injection E as <-. left. vm_compute. discriminate.
  - eexists. apply (HOp (mk_bytestr [97; 98] false 3) (mk_sbuf 3 2 [97; 98; 0]) (BPushChar 99) _ (Ret BRUnit) [97; 98; 99]).
    + apply (HNew (Some [97; 98]) 3); [exact S2 | unfold max_capacity; lia | reflexivity].
    + cbn. unfold in_i32. lia.
    + split; [| exact I]. intros l1 E. injection E as <-. left. vm_compute. discriminate.
    + vm_compute. reflexivity.
    + vm_compute. reflexivity.
Qed.

Print Assumptions C32_byte_string_partial.
Print Assumptions C32_new_len.
Print Assumptions C32_every_operation_partial.
Print Assumptions C32_clone.
Print Assumptions C32_cmp.
Print Assumptions C32_cmp_undef.
Print Assumptions C32_set_undef_refuted.
Print Assumptions C32_set_length_refuted.
Print Assumptions C32_push_overflow_refuted.
