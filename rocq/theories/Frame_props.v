(** * Frame layout and register allocation: C23, C51 *)

From Verif Require Import Base Frame_model.

(** ** Specification *)

(** Size of one register of a region, which is also its alignment. *)
Definition slot_size (r : region) : Z :=
  match r with
  | RBank BByte => 1
  | RBank BShort => 2
  | RBank BInt | RBank BFloat | RMortal => 4
  | RBank BLong | RBank BDouble | RBank BObject | RBank BRef => 8
  end.

(** Number of registers of a region. *)
Definition slots (w : widths) (r : region) : Z :=
  match r with RBank b => w_of w b | RMortal => w_mortal w end.

(** The bytes of a frame, all regions together (exactly; the address area
    starts at the next multiple of 8). *)
Definition needed (w : widths) : Z :=
  8 * (w_of w BLong + w_of w BDouble + w_of w BObject + w_of w BRef) +
  4 * (w_of w BInt + w_of w BFloat + w_mortal w) + 2 * w_of w BShort + w_of w BByte + 8.

Definition nonneg (w : widths) : Prop :=
  (forall b, 0 <= w_of w b) /\ 0 <= w_mortal w.

(** Two half-open byte ranges do not overlap. *)
Definition apart (a la b lb : Z) : Prop := a + la <= b \/ b + lb <= a.

Lemma c32_ok x : 0 <= x <= INT32_MAX -> c32 x = Ret x.
Proof.
  intros H. unfold c32. rewrite (proj2 (Z.leb_le _ _)), (proj2 (Z.leb_le _ _)) by lia. reflexivity.
Qed.

Lemma layout_ok w : nonneg w -> needed w <= INT32_MAX ->
  exists n, layout w = Ret (n + 8 * w_of w BObject + 8 * w_of w BRef + 1, fun r =>
    match r with
    | RBank BDouble => 0
    | RBank BLong => 0 + w_of w BDouble * 8
    | RBank BFloat => 0 + w_of w BDouble * 8 + w_of w BLong * 8
    | RBank BInt => 0 + w_of w BDouble * 8 + w_of w BLong * 8 + w_of w BFloat * 4
    | RMortal => 0 + w_of w BDouble * 8 + w_of w BLong * 8 + w_of w BFloat * 4 + w_of w BInt * 4
    | RBank BShort => 0 + w_of w BDouble * 8 + w_of w BLong * 8 + w_of w BFloat * 4 + w_of w BInt * 4 + w_mortal w * 4
    | RBank BByte => 0 + w_of w BDouble * 8 + w_of w BLong * 8 + w_of w BFloat * 4 + w_of w BInt * 4 + w_mortal w * 4 + w_of w BShort * 2
    | RBank BObject => n
    | RBank BRef => n + w_of w BObject * 8
    end) /\
    w_of w BDouble * 8 + w_of w BLong * 8 + w_of w BFloat * 4 + w_of w BInt * 4 + w_mortal w * 4 + w_of w BShort * 2 + w_of w BByte <= n /\
    n mod 8 = 0.
Proof.
  intros (N & NM) H. unfold needed in H.
  pose proof (N BByte). pose proof (N BShort). pose proof (N BInt). pose proof (N BLong).
  pose proof (N BFloat). pose proof (N BDouble). pose proof (N BObject). pose proof (N BRef).
  clear N. unfold layout, numeric_size, PTR.
  repeat (rewrite c32_ok by lia; cbn [obind]).
  set (t := w_of w BLong * 8 + w_of w BDouble * 8 + w_of w BInt * 4 + w_of w BFloat * 4 +
            w_mortal w * 4 + w_of w BShort * 2 + w_of w BByte * 1).
  rewrite Z.rem_mod_nonneg by (unfold t; lia).
  pose proof (Z.mod_pos_bound t 8 ltac:(lia)). pose proof (Z_div_mod_eq_full t 8).
  assert (E : exists n, (if negb (t mod 8 =? 0) then c32 (t + (8 - t mod 8)) else Ret t) = Ret n /\
     t <= n <= t + 7 /\ n mod 8 = 0).
  { destruct (Z.eqb_spec (t mod 8) 0) as [Z0 | Z0]; cbn [negb].
    - exists t. repeat split; auto; lia.
    - rewrite c32_ok by (unfold t in *; lia). eexists. split; [reflexivity |]. split; [lia |].
      replace (t + (8 - t mod 8)) with ((t / 8 + 1) * 8) by lia. apply Z.mod_mul. lia. }
  destruct E as (n & -> & B & M). cbn [obind]. exists n.
  assert (W1 : wrap32 (w_of w BObject * 8) = w_of w BObject * 8) by (apply wrap32_id; unfold in_i32; lia).
  rewrite W1, wrap32_id by (unfold in_i32; lia).
  rewrite !c32_ok by (unfold t in *; lia). cbn [obind].
  rewrite c32_ok by (unfold t in *; lia). cbn [obind].
  split; [| unfold t in *; lia].
  f_equal. f_equal. lia.
Qed.

(** ** C23

    For all register counts whose frame fits in an int32_t, the frame is laid
    out so that every region is aligned for its registers (relative to the
    8-aligned block), lies inside the block, and shares no byte with any other
    region. *)
Theorem C23_frame_layout : forall w, nonneg w -> needed w <= INT32_MAX ->
  exists size offset, layout w = Ret (size, offset) /\
  (forall r, 0 <= offset r /\ offset r + slots w r * slot_size r <= size) /\
  (forall r, offset r mod slot_size r = 0) /\
  (forall r r', r <> r' -> apart (offset r) (slots w r * slot_size r) (offset r') (slots w r' * slot_size r')).
Proof.
  intros w N H. destruct (layout_ok w N H) as (n & E & B & M). rewrite E.
  eexists; eexists. split; [reflexivity |]. destruct N as (N & NM).
  pose proof (N BByte). pose proof (N BShort). pose proof (N BInt). pose proof (N BLong).
  pose proof (N BFloat). pose proof (N BDouble). pose proof (N BObject). pose proof (N BRef).
  clear N E H.
  split; [| split].
  - intros [[] |]; cbn [slots slot_size]; lia.
  - intros [[] |]; cbn [slot_size]; rewrite ?Z.mod_1_r; auto.
    + replace (0 + w_of w BDouble * 8 + w_of w BLong * 8 + w_of w BFloat * 4 + w_of w BInt * 4 + w_mortal w * 4)
        with ((w_of w BDouble * 4 + w_of w BLong * 4 + w_of w BFloat * 2 + w_of w BInt * 2 + w_mortal w * 2) * 2) by lia.
      apply Z.mod_mul; lia.
    + replace (0 + w_of w BDouble * 8 + w_of w BLong * 8 + w_of w BFloat * 4)
        with ((w_of w BDouble * 2 + w_of w BLong * 2 + w_of w BFloat) * 4) by lia.
      apply Z.mod_mul; lia.
    + apply Z.mod_mul; lia.
    + replace (0 + w_of w BDouble * 8 + w_of w BLong * 8)
        with ((w_of w BDouble * 2 + w_of w BLong * 2) * 4) by lia.
      apply Z.mod_mul; lia.
    + rewrite Z.mod_add by lia. auto.
    + replace (0 + w_of w BDouble * 8 + w_of w BLong * 8 + w_of w BFloat * 4 + w_of w BInt * 4)
        with ((w_of w BDouble * 2 + w_of w BLong * 2 + w_of w BFloat + w_of w BInt) * 4) by lia.
      apply Z.mod_mul; lia.
  - intros r r' D. unfold apart.
    destruct r as [[] |], r' as [[] |]; try congruence; cbn [slots slot_size]; lia.
Qed.

(** A frame whose size does not fit in an int32_t is undefined behaviour; so
    the bound cannot be dropped. *)
Theorem C23_bound_needed_refuted : exists w, nonneg w /\ layout w = UB.
Proof.
  exists {| w_of := fun b => match b with BLong => 268435456 | _ => 0 end; w_mortal := 0 |}.
  split; [split; [intros [] |]; cbn; lia | vm_compute; reflexivity].
Qed.

(** ** Register allocation *)

Lemma range_used_true n : forall vars k,
  (0 < n)%nat -> 0 <= k -> k + Z.of_nat n <= zlen vars ->
  Forall (fun x => 0 <= x) vars -> range_used n vars k = Ret true.
Proof.
  destruct n as [| n]; intros vars k N K B F; [lia |]. cbn [range_used].
  destruct (znth_lt vars k ltac:(lia)) as (x & E). rewrite E.
  rewrite Forall_forall in F. pose proof (F x (znth_In _ _ _ E)).
  rewrite (proj2 (Z.leb_le 0 x)) by lia. reflexivity.
Qed.

Lemma search_free_none f : forall vars width k,
  1 <= width -> 0 <= k -> (Z.to_nat (zlen vars - k) < f)%nat ->
  Forall (fun x => 0 <= x) vars -> search_free f vars width k = Ret None.
Proof.
  induction f as [| f IH]; intros vars width k W K F P; [lia |]. cbn [search_free].
  destruct (Z.ltb_spec k (zlen vars)); [| reflexivity].
  destruct (Z.leb_spec (k + width) (zlen vars)); [| apply IH; auto; lia].
  rewrite range_used_true by (auto; lia). cbn [obind]. apply IH; auto; lia.
Qed.

Lemma get_index_ok vars width id :
  1 <= width -> Forall (fun x => 0 <= x) vars ->
  get_typed_var_index vars width id = Ret (zlen vars, vars ++ zrep width id).
Proof.
  intros W F. unfold get_typed_var_index.
  rewrite search_free_none; auto; try lia. unfold zlen. lia.
Qed.

Lemma bank_eqb_spec a b : reflect (a = b) (bank_eqb a b).
Proof. destruct a, b; cbn; constructor; congruence. Qed.

Lemma Forall_zrep {A} (P : A -> Prop) n x : P x -> Forall P (zrep n x).
Proof.
  intros H. unfold zrep. apply Forall_forall. intros y Hy. apply repeat_spec in Hy. subst; auto.
Qed.

Lemma assign_ok vs : forall id banks,
  0 <= id -> Forall (fun v => 1 <= v_width v) vs -> (forall b, Forall (fun x => 0 <= x) (banks b)) ->
  exists ks banks', assign_indexes vs id banks = Ret (ks, banks') /\ zlen ks = zlen vs /\
    (forall b, zlen (banks b) <= zlen (banks' b)) /\
    (forall i v k, znth vs i = Some v -> znth ks i = Some k ->
       zlen (banks (v_bank v)) <= k /\ k + v_width v <= zlen (banks' (v_bank v))) /\
    (forall i j v v' k k', i < j -> znth vs i = Some v -> znth ks i = Some k ->
       znth vs j = Some v' -> znth ks j = Some k' -> v_bank v = v_bank v' -> k + v_width v <= k').
Proof.
  induction vs as [| v vs IH]; intros id banks I W F.
  - exists [], banks. cbn. repeat split; auto; try lia; intros; rewrite znth_nil in *; discriminate.
  - inversion W as [| ? ? Wv W']; subst. cbn [assign_indexes].
    rewrite get_index_ok by auto. cbn [obind].
    set (banks1 := fun b => if bank_eqb b (v_bank v) then banks (v_bank v) ++ zrep (v_width v) id else banks b).
    destruct (IH (id + 1) banks1) as (ks & banks' & E & L & G & R & D); auto; try lia.
    { intros b. unfold banks1. destruct (bank_eqb_spec b (v_bank v)); auto.
      apply Forall_app. split; auto. apply Forall_zrep. auto. }
    rewrite E. cbn [obind]. exists (zlen (banks (v_bank v)) :: ks), banks'.
    assert (B1 : zlen (banks1 (v_bank v)) = zlen (banks (v_bank v)) + v_width v).
    { unfold banks1. destruct (bank_eqb_spec (v_bank v) (v_bank v)); [| congruence].
      rewrite zlen_app, zlen_rep. lia. }
    assert (B2 : forall b, zlen (banks b) <= zlen (banks1 b)).
    { intros b. unfold banks1. destruct (bank_eqb_spec b (v_bank v)); [subst b | lia].
      rewrite zlen_app, zlen_rep. lia. }
    split; [reflexivity |]. split; [rewrite !zlen_cons; lia |]. split; [| split].
    + intros b. specialize (G b). specialize (B2 b). lia.
    + intros i v0 k Hv Hk. rewrite znth_cons in Hv. rewrite znth_cons in Hk. destruct (Z.eqb_spec i 0).
      * injection Hv as <-. injection Hk as <-. specialize (G (v_bank v)). lia.
      * destruct (R _ _ _ Hv Hk). specialize (B2 (v_bank v0)). lia.
    + intros i j v0 v' k k' Hij Hv Hk Hv' Hk' Eb.
      rewrite znth_cons in Hv. rewrite znth_cons in Hk. rewrite znth_cons in Hv'. rewrite znth_cons in Hk'.
      destruct (Z.eqb_spec i 0), (Z.eqb_spec j 0); try lia.
      * injection Hv as <-. injection Hk as <-. destruct (R _ _ _ Hv' Hk'). rewrite <- Eb in *. lia.
      * subst j. injection Hv' as <-. apply znth_Some in Hv. lia.
      * eapply (D (i - 1) (j - 1)); eauto. lia.
Qed.

(** ** C51

    The compiler gives every declared variable of a method its own registers:
    inside the register count of its kind, and disjoint from those of every
    other variable of that kind. *)
Theorem C51_registers_disjoint : forall vs,
  Forall (fun v => 1 <= v_width v) vs ->
  exists ks width, allocate vs = Ret (ks, width) /\ zlen ks = zlen vs /\
  (forall i v k, znth vs i = Some v -> znth ks i = Some k ->
     0 <= k /\ k + v_width v <= width (v_bank v)) /\
  (forall i j v v' k k', i <> j -> znth vs i = Some v -> znth ks i = Some k ->
     znth vs j = Some v' -> znth ks j = Some k' -> v_bank v = v_bank v' ->
     apart k (v_width v) k' (v_width v')).
Proof.
  intros vs W. unfold allocate.
  destruct (assign_ok vs 0 (fun _ => [])) as (ks & banks & E & L & G & R & D); auto; try lia.
  rewrite E. cbn [obind]. eexists; eexists. split; [reflexivity |]. split; [auto |]. split.
  - intros i v k Hv Hk. destruct (R _ _ _ Hv Hk) as (A & B). change (zlen (@nil Z)) with 0 in A. lia.
  - intros i j v v' k k' N Hv Hk Hv' Hk' Eb. unfold apart.
    assert (i < j \/ j < i) as [O | O] by lia; [left; eapply (D i j) | right; eapply (D j i)]; eauto.
Qed.

(** Together: two different variables of a method never share a byte of its
    frame, at any moment. *)
Theorem C51_variables_apart : forall vs mortal ks width,
  Forall (fun v => 1 <= v_width v) vs -> 0 <= mortal ->
  allocate vs = Ret (ks, width) ->
  let w := {| w_of := width; w_mortal := mortal |} in
  needed w <= INT32_MAX ->
  exists size offset, layout w = Ret (size, offset) /\
  let start v k := offset (RBank (v_bank v)) + k * slot_size (RBank (v_bank v)) in
  let len v := v_width v * slot_size (RBank (v_bank v)) in
  (forall i v k, znth vs i = Some v -> znth ks i = Some k ->
     0 <= start v k /\ start v k + len v <= size) /\
  (forall i j v v' k k', i <> j -> znth vs i = Some v -> znth ks i = Some k ->
     znth vs j = Some v' -> znth ks j = Some k' -> apart (start v k) (len v) (start v' k') (len v')).
Proof.
  intros vs mortal ks width W M E w H.
  destruct (C51_registers_disjoint vs W) as (ks0 & width0 & E0 & L & R & D).
  assert (ks0 = ks) by congruence. assert (width0 = width) by congruence. subst ks0 width0. clear E0.
  assert (N : nonneg w).
  { split; [| exact M]. intros b. unfold w; cbn. unfold allocate in E.
    destruct (assign_indexes vs 0 (fun _ => [])) as [(? & bks) | | |]; try discriminate.
    cbn in E. injection E as _ <-. apply zlen_nonneg. }
  destruct (C23_frame_layout w N H) as (size & offset & EL & IN & AL & AP).
  exists size, offset. split; [exact EL |]. cbv zeta. split.
  - intros i v k Hv Hk. destruct (R _ _ _ Hv Hk) as (K0 & K1).
    destruct (IN (RBank (v_bank v))) as (I0 & I1). cbn [slots] in I1. change (w_of w) with width in I1.
    assert (1 <= slot_size (RBank (v_bank v))) by (destruct (v_bank v); cbn; lia). nia.
  - intros i j v v' k k' Nij Hv Hk Hv' Hk'.
    destruct (R _ _ _ Hv Hk) as (K0 & K1). destruct (R _ _ _ Hv' Hk') as (K0' & K1').
    destruct (bank_eqb_spec (v_bank v) (v_bank v')) as [Eb | Nb].
    + pose proof (D i j v v' k k' Nij Hv Hk Hv' Hk' Eb) as A. rewrite <- Eb. unfold apart in *.
      assert (1 <= slot_size (RBank (v_bank v))) by (destruct (v_bank v); cbn; lia). nia.
    + assert (A : apart (offset (RBank (v_bank v))) (slots w (RBank (v_bank v)) * slot_size (RBank (v_bank v)))
                        (offset (RBank (v_bank v'))) (slots w (RBank (v_bank v')) * slot_size (RBank (v_bank v'))))
        by (apply AP; congruence).
      cbn [slots] in A. change (w_of w) with width in A. unfold apart in *.
      assert (1 <= slot_size (RBank (v_bank v))) by (destruct (v_bank v); cbn; lia).
      assert (1 <= slot_size (RBank (v_bank v'))) by (destruct (v_bank v'); cbn; lia).
      destruct A; [left | right]; nia.
Qed.

Example C23_C51_example :
  let vs := [ {| v_bank := BInt; v_width := 1 |}; {| v_bank := BDouble; v_width := 3 |};
              {| v_bank := BByte; v_width := 1 |}; {| v_bank := BInt; v_width := 1 |};
              {| v_bank := BObject; v_width := 1 |} ] in
  exists width, allocate vs = Ret ([0; 0; 0; 1; 0], width) /\
  exists offset, layout {| w_of := width; w_mortal := 1 |} = Ret (49, offset) /\
    offset (RBank BInt) = 24 /\ offset RMortal = 32 /\ offset (RBank BByte) = 36 /\ offset (RBank BObject) = 40.
Proof.
  cbv zeta. eexists. split; [lazy; reflexivity |]. eexists. split; [lazy; reflexivity |].
  repeat split.
Qed.

Print Assumptions C23_frame_layout.
Print Assumptions C23_bound_needed_refuted.
Print Assumptions C51_registers_disjoint.
Print Assumptions C51_variables_apart.
