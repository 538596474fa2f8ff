(** * Numbers as bytes in memory

    The object representation of the numeric types on a little-endian machine
    with two's complement integers. float and double values are represented by
    their 32/64-bit patterns: the model moves them around and never computes
    with them. Memory blocks are lists of bytes; an access outside a block is
    undefined behaviour. *)

From Verif Require Import Base.

Fixpoint le_bytes (n : nat) (z : Z) : list Z :=
  match n with
  | O => []
  | S k => z mod 256 :: le_bytes k (z / 256)
  end.

Fixpoint le_value (l : list Z) : Z :=
  match l with
  | [] => 0
  | b :: r => b + 256 * le_value r
  end.

Definition is_byte (b : Z) : Prop := 0 <= b <= 255.

Lemma le_bytes_length n : forall z, length (le_bytes n z) = n.
Proof. induction n; intros; cbn; auto. Qed.

Lemma zlen_le_bytes n z : zlen (le_bytes n z) = Z.of_nat n.
Proof. unfold zlen. rewrite le_bytes_length. reflexivity. Qed.

Lemma le_bytes_bytes n : forall z, Forall is_byte (le_bytes n z).
Proof.
  induction n; intros z; cbn; constructor; auto.
  unfold is_byte. pose proof (Z.mod_pos_bound z 256); lia.
Qed.

Lemma pow256_S n : 256 ^ Z.of_nat (S n) = 256 * 256 ^ Z.of_nat n.
Proof. rewrite Nat2Z.inj_succ, Z.pow_succ_r by lia. reflexivity. Qed.

Lemma le_value_bytes n : forall z, le_value (le_bytes n z) = z mod 256 ^ Z.of_nat n.
Proof.
  induction n; intros z.
  - cbn. rewrite Z.mod_1_r. reflexivity.
  - cbn [le_bytes le_value]. rewrite IHn, pow256_S.
    assert (0 < 256 ^ Z.of_nat n) by (apply Z.pow_pos_nonneg; lia).
    rewrite Z.rem_mul_r by lia. reflexivity.
Qed.

Lemma le_value_range l : Forall is_byte l -> 0 <= le_value l < 256 ^ zlen l.
Proof.
  induction l as [| b l IH]; intros F.
  - change (0 <= 0 < 1). lia.
  - inversion F; subst. specialize (IH H2). rewrite zlen_cons.
    pose proof (zlen_nonneg l). rewrite Z.pow_add_r by lia.
    change (256 ^ 1) with 256. unfold is_byte in *. cbn [le_value]. lia.
Qed.

Lemma le_bytes_value l : Forall is_byte l -> le_bytes (length l) (le_value l) = l.
Proof.
  induction l as [| b l IH]; intros F; [reflexivity |].
  inversion F; subst. cbn [length le_bytes le_value].
  unfold is_byte in *.
  replace (b + 256 * le_value l) with (b + le_value l * 256) by lia.
  rewrite Z.mod_add, Z.mod_small by lia.
  rewrite Z.div_add, Z.div_small by lia. cbn [Z.add]. f_equal. auto.
Qed.

(** ** The numeric types *)

Inductive nkind := KByte | KShort | KInt | KLong | KFloat | KDouble.

Definition ksize (k : nkind) : Z :=
  match k with KByte => 1 | KShort => 2 | KInt | KFloat => 4 | KLong | KDouble => 8 end.

(** The values of each type (bit patterns for float and double). *)
Definition kvalue (k : nkind) (v : Z) : Prop :=
  match k with
  | KByte => in_i8 v
  | KShort => in_i16 v
  | KInt => in_i32 v
  | KLong => in_i64 v
  | KFloat => 0 <= v < 2 ^ 32
  | KDouble => 0 <= v < 2 ^ 64
  end.

Definition encode (k : nkind) (v : Z) : list Z := le_bytes (Z.to_nat (ksize k)) v.

Definition decode (k : nkind) (b : list Z) : Z :=
  match k with
  | KByte => wrap8 (le_value b)
  | KShort => wrap16 (le_value b)
  | KInt => wrap32 (le_value b)
  | KLong => wrap64 (le_value b)
  | KFloat | KDouble => le_value b
  end.

Lemma ksize_pos k : 1 <= ksize k <= 8.
Proof. destruct k; cbn; lia. Qed.

Lemma zlen_encode k v : zlen (encode k v) = ksize k.
Proof. unfold encode. rewrite zlen_le_bytes. destruct k; reflexivity. Qed.

Lemma wrap_mod half v : 0 < half -> - half <= v < half -> wrap half (v mod (2 * half)) = v.
Proof.
  intros H B. unfold wrap. rewrite Zplus_mod_idemp_l, Z.mod_small; lia.
Qed.

Lemma decode_encode k v : kvalue k v -> decode k (encode k v) = v.
Proof.
  intros V. unfold encode, decode. rewrite le_value_bytes.
  destruct k; cbn [ksize kvalue] in *.
  - apply (wrap_mod 128); unfold in_i8 in V; lia.
  - apply (wrap_mod 32768); unfold in_i16 in V; lia.
  - apply (wrap_mod 2147483648); unfold in_i32 in V; lia.
  - apply (wrap_mod 9223372036854775808); unfold in_i64 in V; lia.
  - apply Z.mod_small. exact V.
  - apply Z.mod_small. exact V.
Qed.

Lemma encode_bytes k v : Forall is_byte (encode k v).
Proof. apply le_bytes_bytes. Qed.

(** ** Blocks *)

Definition load_at (mem : list Z) (off n : Z) : outcome (list Z) :=
  if (0 <=? off) && (off + n <=? zlen mem) then Ret (zsub mem off n) else UB.

Definition store_at (mem : list Z) (off : Z) (bs : list Z) : outcome (list Z) :=
  if (0 <=? off) && (off + zlen bs <=? zlen mem) then Ret (zblit mem off bs) else UB.

Lemma load_at_ok mem off n : 0 <= off -> off + n <= zlen mem -> load_at mem off n = Ret (zsub mem off n).
Proof.
  intros. unfold load_at. destruct (Z.leb_spec 0 off); [| lia].
  destruct (Z.leb_spec (off + n) (zlen mem)); [| lia]. reflexivity.
Qed.
Lemma store_at_ok mem off bs : 0 <= off -> off + zlen bs <= zlen mem -> store_at mem off bs = Ret (zblit mem off bs).
Proof.
  intros. unfold store_at. destruct (Z.leb_spec 0 off); [| lia].
  destruct (Z.leb_spec (off + zlen bs) (zlen mem)); [| lia]. reflexivity.
Qed.

Lemma zsub_zblit_same {A} (mem : list A) off bs : 0 <= off -> off + zlen bs <= zlen mem ->
  zsub (zblit mem off bs) off (zlen bs) = bs.
Proof.
  intros O B. pose proof (zlen_nonneg bs). apply znth_ext. intros i I.
  rewrite znth_sub, znth_blit, (Z.max_r 0 off) by lia.
  destruct (Z.ltb_spec i (zlen bs)).
  - destruct (Z.leb_spec off (off + i)); [| lia]. destruct (Z.ltb_spec (off + i) (off + zlen bs)); [| lia].
    destruct (Z.leb_spec 0 i); [| lia]. cbn [andb]. f_equal. lia.
  - rewrite (znth_ge bs i) by lia. destruct (Z.leb_spec 0 i); reflexivity.
Qed.

Lemma zsub_zblit_other {A} (mem : list A) off bs o n : 0 <= off -> off + zlen bs <= zlen mem ->
  0 <= o -> 0 <= n -> o + n <= off \/ off + zlen bs <= o ->
  zsub (zblit mem off bs) o n = zsub mem o n.
Proof.
  intros O B Oo N D. apply znth_ext. intros i I.
  pose proof (zlen_nonneg bs). rewrite !znth_sub, znth_blit, (Z.max_r 0 o) by lia.
  destruct (Z.ltb_spec i n), (Z.leb_spec 0 i); cbn [andb]; try reflexivity.
  destruct (Z.leb_spec off (o + i)), (Z.ltb_spec (o + i) (off + zlen bs)); cbn [andb]; try reflexivity; lia.
Qed.
