(** * Shared vocabulary of the model

    Fixed-width integers, outcomes of methods, and lists indexed by [Z].
    Nothing in this file models a particular piece of /repo; the comments say
    which language-level convention each definition stands for. *)

From Coq Require Export String.
From Coq Require Export ZArith List Lia Bool.
From Coq Require Export ZifyBool.
Export ListNotations.
Open Scope Z_scope.

(** ** Fixed-width integers *)

(** Wrap-around to an n-bit signed integer; half = 2^(n-1). *)
Definition wrap (half z : Z) : Z := (z + half) mod (2 * half) - half.

Definition wrap8 (z : Z) : Z := wrap 128 z.
Definition wrap16 (z : Z) : Z := wrap 32768 z.
Definition wrap32 (z : Z) : Z := wrap 2147483648 z.
Definition wrap64 (z : Z) : Z := wrap 9223372036854775808 z.

(** Unsigned readings. *)
Definition u8 (z : Z) : Z := z mod 256.
Definition u16 (z : Z) : Z := z mod 65536.
Definition u32 (z : Z) : Z := z mod 4294967296.
Definition u64 (z : Z) : Z := z mod 18446744073709551616.

Definition in_i8 (z : Z) : Prop := -128 <= z <= 127.
Definition in_i16 (z : Z) : Prop := -32768 <= z <= 32767.
Definition in_i32 (z : Z) : Prop := -2147483648 <= z <= 2147483647.
Definition in_i64 (z : Z) : Prop := -9223372036854775808 <= z <= 9223372036854775807.
Definition in_u8 (z : Z) : Prop := 0 <= z <= 255.

Notation INT32_MAX := 2147483647.
Notation INT32_MIN := (-2147483648).

Lemma wrap_range half z : 0 < half -> - half <= wrap half z < half.
Proof.
  intros H; unfold wrap.
  pose proof (Z.mod_pos_bound (z + half) (2 * half) ltac:(lia)); lia.
Qed.

Lemma wrap_id half z : - half <= z < half -> wrap half z = z.
Proof.
  intros H; unfold wrap. rewrite Z.mod_small; lia.
Qed.

Lemma wrap_eqmod half z : 0 < half -> exists k, wrap half z = z + k * (2 * half).
Proof.
  intros H; unfold wrap.
  exists (- ((z + half) / (2 * half))).
  pose proof (Z_div_mod_eq_full (z + half) (2 * half)); lia.
Qed.

Lemma wrap32_id z : in_i32 z -> wrap32 z = z.
Proof. unfold in_i32; intros; apply wrap_id; lia. Qed.
Lemma wrap64_id z : in_i64 z -> wrap64 z = z.
Proof. unfold in_i64; intros; apply wrap_id; lia. Qed.
Lemma wrap8_id z : in_i8 z -> wrap8 z = z.
Proof. unfold in_i8; intros; apply wrap_id; lia. Qed.
Lemma wrap16_id z : in_i16 z -> wrap16 z = z.
Proof. unfold in_i16; intros; apply wrap_id; lia. Qed.

Lemma wrap32_range z : in_i32 (wrap32 z).
Proof. unfold in_i32, wrap32. pose proof (wrap_range 2147483648 z); lia. Qed.
Lemma wrap64_range z : in_i64 (wrap64 z).
Proof. unfold in_i64, wrap64. pose proof (wrap_range 9223372036854775808 z); lia. Qed.
Lemma wrap8_range z : in_i8 (wrap8 z).
Proof. unfold in_i8, wrap8. pose proof (wrap_range 128 z); lia. Qed.
Lemma wrap16_range z : in_i16 (wrap16 z).
Proof. unfold in_i16, wrap16. pose proof (wrap_range 32768 z); lia. Qed.

(** A sum of two non-negative ints either fits or wraps to a negative int. *)
Lemma wrap32_add_nonneg a b :
  0 <= a <= INT32_MAX -> 0 <= b <= INT32_MAX ->
  (a + b <= INT32_MAX /\ wrap32 (a + b) = a + b) \/
  (a + b > INT32_MAX /\ wrap32 (a + b) = a + b - 4294967296 /\ wrap32 (a + b) < 0).
Proof.
  intros Ha Hb.
  destruct (Z_le_gt_dec (a + b) INT32_MAX) as [H | H].
  - left. split; [lia |]. apply wrap32_id; unfold in_i32; lia.
  - right. split; [lia |].
    assert (E : wrap32 (a + b) = a + b - 4294967296).
    { unfold wrap32, wrap.
      replace (a + b + 2147483648) with ((a + b - 2147483648) + 1 * 4294967296) by lia.
      change (2 * 2147483648) with 4294967296.
      rewrite Z.mod_add by lia. rewrite Z.mod_small; lia. }
    lia.
Qed.

(** ** Outcomes

    [Ret]  normal return;
    [Die]  an exception was thrown, with its message;
    [UB]   undefined behaviour of the C code (access outside a block, ...);
    [Fuel] the model ran out of fuel (theorems show it does not happen). *)
Inductive outcome (A : Type) : Type :=
| Ret (a : A)
| Die (msg : string)
| UB
| Fuel.
Arguments Ret {A} a.
Arguments Die {A} msg.
Arguments UB {A}.
Arguments Fuel {A}.

Definition obind {A B} (m : outcome A) (f : A -> outcome B) : outcome B :=
  match m with
  | Ret a => f a
  | Die e => Die e
  | UB => UB
  | Fuel => Fuel
  end.

Declare Scope out_scope.
Delimit Scope out_scope with out.
Notation "'let!' x := m 'in' k" := (obind m (fun x => k))
  (at level 200, x pattern, m at level 100, k at level 200) : out_scope.
Notation "'check!' b 'else' e 'in' k" := (if (b : bool) then k else Die e)
  (at level 200, b at level 100, e at level 100, k at level 200) : out_scope.
Open Scope out_scope.

Definition is_ret {A} (m : outcome A) : bool :=
  match m with Ret _ => true | _ => false end.
Definition is_die {A} (m : outcome A) : bool :=
  match m with Die _ => true | _ => false end.

Lemma obind_ret {A B} (a : A) (f : A -> outcome B) : obind (Ret a) f = f a.
Proof. reflexivity. Qed.

Lemma obind_assoc {A B C} (m : outcome A) (f : A -> outcome B) (g : B -> outcome C) :
  obind (obind m f) g = obind m (fun a => obind (f a) g).
Proof. destruct m; reflexivity. Qed.

(** ** Lists indexed by Z *)

Definition zlen {A} (l : list A) : Z := Z.of_nat (length l).

(** Element [i]; [None] outside [0 .. length-1]. *)
Definition znth {A} (l : list A) (i : Z) : option A :=
  if i <? 0 then None else nth_error l (Z.to_nat i).

(** First [n] elements / all but the first [n] elements. *)
Definition ztake {A} (n : Z) (l : list A) : list A := firstn (Z.to_nat n) l.
Definition zdrop {A} (n : Z) (l : list A) : list A := skipn (Z.to_nat n) l.

(** The [len] elements from offset [off]. *)
Definition zsub {A} (l : list A) (off len : Z) : list A := ztake len (zdrop off l).

(** [n] copies of [x]. *)
Definition zrep {A} (n : Z) (x : A) : list A := repeat x (Z.to_nat n).

(** Replace element [i] (no effect outside the list). *)
Definition zupd {A} (l : list A) (i : Z) (x : A) : list A :=
  if (0 <=? i) && (i <? zlen l) then ztake i l ++ x :: zdrop (i + 1) l else l.

(** Overwrite [zlen src] elements of [dst] from offset [off]. *)
Definition zblit {A} (dst : list A) (off : Z) (src : list A) : list A :=
  ztake off dst ++ src ++ zdrop (off + zlen src) dst.

Lemma zlen_nonneg {A} (l : list A) : 0 <= zlen l.
Proof. unfold zlen; lia. Qed.
Global Hint Resolve zlen_nonneg : core.

Lemma zlen_nil {A} : zlen (@nil A) = 0.
Proof. reflexivity. Qed.
Lemma zlen_cons {A} (x : A) l : zlen (x :: l) = 1 + zlen l.
Proof. unfold zlen; cbn [List.length]; lia. Qed.
Lemma zlen_app {A} (l l' : list A) : zlen (l ++ l') = zlen l + zlen l'.
Proof. unfold zlen; rewrite app_length; lia. Qed.
Lemma zlen_take {A} n (l : list A) : zlen (ztake n l) = Z.min (Z.max 0 n) (zlen l).
Proof. unfold zlen, ztake; rewrite firstn_length; lia. Qed.
Lemma zlen_drop {A} n (l : list A) : zlen (zdrop n l) = Z.max 0 (zlen l - Z.max 0 n).
Proof. unfold zlen, zdrop; rewrite skipn_length; lia. Qed.
Lemma zlen_rep {A} n (x : A) : zlen (zrep n x) = Z.max 0 n.
Proof. unfold zlen, zrep; rewrite repeat_length; lia. Qed.
Lemma zlen_sub {A} (l : list A) off len :
  zlen (zsub l off len) = Z.min (Z.max 0 len) (Z.max 0 (zlen l - Z.max 0 off)).
Proof. unfold zsub. rewrite zlen_take, zlen_drop; lia. Qed.
Lemma zlen_upd {A} (l : list A) i x : zlen (zupd l i x) = zlen l.
Proof.
  unfold zupd. destruct (Z.leb_spec 0 i); destruct (Z.ltb_spec i (zlen l)); cbn [andb]; auto.
  rewrite zlen_app, zlen_cons, zlen_take, zlen_drop. lia.
Qed.
Lemma zlen_blit {A} (dst : list A) off src :
  0 <= off -> off + zlen src <= zlen dst -> zlen (zblit dst off src) = zlen dst.
Proof.
  intros. unfold zblit. rewrite !zlen_app, zlen_take, zlen_drop.
  pose proof (zlen_nonneg src). lia.
Qed.
Lemma zlen_map {A B} (f : A -> B) l : zlen (map f l) = zlen l.
Proof. unfold zlen; rewrite map_length; lia. Qed.
Lemma zlen_rev {A} (l : list A) : zlen (rev l) = zlen l.
Proof. unfold zlen; rewrite rev_length; lia. Qed.
Lemma zlen_0_nil {A} (l : list A) : zlen l = 0 -> l = [].
Proof. destruct l; auto. unfold zlen; cbn [List.length]; lia. Qed.

Lemma znth_neg {A} (l : list A) i : i < 0 -> znth l i = None.
Proof. intros; unfold znth. destruct (Z.ltb_spec i 0); auto; lia. Qed.
Lemma znth_ge {A} (l : list A) i : zlen l <= i -> znth l i = None.
Proof.
  intros; unfold znth, zlen in *. destruct (Z.ltb_spec i 0); auto.
  apply nth_error_None; lia.
Qed.
Lemma znth_lt {A} (l : list A) i : 0 <= i < zlen l -> exists x, znth l i = Some x.
Proof.
  intros; unfold znth, zlen in *. destruct (Z.ltb_spec i 0); try lia.
  destruct (nth_error l (Z.to_nat i)) eqn:E; eauto.
  apply nth_error_None in E; lia.
Qed.
Lemma znth_Some {A} (l : list A) i x : znth l i = Some x -> 0 <= i < zlen l.
Proof.
  unfold znth, zlen. destruct (Z.ltb_spec i 0); [discriminate |].
  intros E. assert (nth_error l (Z.to_nat i) <> None) by congruence.
  apply nth_error_Some in H0; lia.
Qed.
Lemma znth_None {A} (l : list A) i : znth l i = None -> i < 0 \/ zlen l <= i.
Proof.
  intros. destruct (Z.ltb_spec i 0); auto. destruct (Z.leb_spec (zlen l) i); auto.
  destruct (znth_lt l i); [lia | congruence].
Qed.
Lemma znth_In {A} (l : list A) i x : znth l i = Some x -> In x l.
Proof. unfold znth. destruct (i <? 0); [discriminate |]. apply nth_error_In. Qed.
Lemma In_znth {A} (l : list A) x : In x l -> exists i, 0 <= i < zlen l /\ znth l i = Some x.
Proof.
  intros H. apply In_nth_error in H. destruct H as [n Hn].
  exists (Z.of_nat n). unfold znth. destruct (Z.ltb_spec (Z.of_nat n) 0); try lia.
  rewrite Nat2Z.id. split; auto.
  assert (nth_error l n <> None) by congruence. apply nth_error_Some in H0.
  unfold zlen; lia.
Qed.

Lemma znth_nil {A} i : znth (@nil A) i = None.
Proof. unfold znth. destruct (i <? 0); auto. destruct (Z.to_nat i); auto. Qed.
Lemma znth_cons {A} (x : A) l i : znth (x :: l) i = if i =? 0 then Some x else znth l (i - 1).
Proof.
  unfold znth. destruct (Z.eqb_spec i 0).
  - subst; reflexivity.
  - destruct (Z.ltb_spec i 0); destruct (Z.ltb_spec (i - 1) 0); try lia; auto.
    replace (Z.to_nat i) with (S (Z.to_nat (i - 1))) by lia. reflexivity.
Qed.
Lemma znth_app {A} (l l' : list A) i :
  znth (l ++ l') i = if i <? zlen l then znth l i else znth l' (i - zlen l).
Proof.
  destruct (Z.ltb_spec i (zlen l)); unfold znth, zlen in *.
  - destruct (Z.ltb_spec i 0); auto. rewrite nth_error_app1; auto; lia.
  - destruct (Z.ltb_spec i 0); destruct (Z.ltb_spec (i - Z.of_nat (length l)) 0); try lia.
    rewrite nth_error_app2 by lia. f_equal; lia.
Qed.
Lemma nth_error_firstn {A} k m (l : list A) :
  nth_error (firstn m l) k = if (k <? m)%nat then nth_error l k else None.
Proof.
  revert m l; induction k as [| k IH]; intros m l; destruct m as [| m]; destruct l as [| x l];
    cbn [firstn nth_error]; auto.
  - destruct (Nat.ltb_spec (S k) (S m)); auto.
  - rewrite IH. reflexivity.
Qed.
Lemma nth_error_skipn {A} k m (l : list A) : nth_error (skipn m l) k = nth_error l (m + k).
Proof.
  revert l; induction m; destruct l; cbn; auto.
  destruct k; auto.
Qed.

Lemma znth_take {A} n (l : list A) i :
  znth (ztake n l) i = if i <? n then znth l i else None.
Proof.
  unfold znth, ztake. destruct (Z.ltb_spec i 0).
  - destruct (i <? n); auto.
  - rewrite nth_error_firstn.
    destruct (Nat.ltb_spec (Z.to_nat i) (Z.to_nat n)); destruct (Z.ltb_spec i n); try lia; auto.
Qed.
Lemma znth_drop {A} n (l : list A) i :
  znth (zdrop n l) i = if i <? 0 then None else znth l (Z.max 0 n + i).
Proof.
  unfold znth, zdrop. destruct (Z.ltb_spec i 0); auto.
  destruct (Z.ltb_spec (Z.max 0 n + i) 0); try lia.
  rewrite nth_error_skipn. f_equal; lia.
Qed.
Lemma znth_rep {A} n (x : A) i :
  znth (zrep n x) i = if (0 <=? i) && (i <? n) then Some x else None.
Proof.
  unfold znth, zrep. destruct (Z.ltb_spec i 0); destruct (Z.leb_spec 0 i); try lia; auto.
  cbn [andb]. destruct (Z.ltb_spec i n).
  - rewrite nth_error_repeat; auto; lia.
  - apply nth_error_None. rewrite repeat_length; lia.
Qed.
Lemma znth_sub {A} (l : list A) off len i :
  znth (zsub l off len) i =
  if (0 <=? i) && (i <? len) then znth l (Z.max 0 off + i) else None.
Proof.
  unfold zsub. rewrite znth_take, znth_drop.
  destruct (Z.ltb_spec i len); destruct (Z.leb_spec 0 i); destruct (Z.ltb_spec i 0); cbn; try lia; auto.
Qed.
Lemma znth_upd {A} (l : list A) i x j :
  znth (zupd l i x) j =
  if (j =? i) && (0 <=? i) && (i <? zlen l) then Some x else znth l j.
Proof.
  unfold zupd.
  destruct (Z.leb_spec 0 i); destruct (Z.ltb_spec i (zlen l)); cbn [andb];
    try (destruct (j =? i); reflexivity).
  rewrite znth_app, znth_cons, zlen_take, znth_take, znth_drop.
  destruct (Z.eqb_spec j i).
  - subst. destruct (Z.ltb_spec i (Z.min (Z.max 0 i) (zlen l))); try lia.
    destruct (Z.eqb_spec (i - Z.min (Z.max 0 i) (zlen l)) 0); try lia; auto.
  - cbn [andb]. destruct (Z.ltb_spec j (Z.min (Z.max 0 i) (zlen l))).
    + destruct (Z.ltb_spec j i); auto; lia.
    + destruct (Z.eqb_spec (j - Z.min (Z.max 0 i) (zlen l)) 0); try lia.
      destruct (Z.ltb_spec (j - Z.min (Z.max 0 i) (zlen l) - 1) 0); try lia.
      f_equal; lia.
Qed.
Lemma znth_blit {A} (dst : list A) off src j :
  0 <= off -> off <= zlen dst ->
  znth (zblit dst off src) j =
  if (off <=? j) && (j <? off + zlen src) then znth src (j - off) else znth dst j.
Proof.
  intros. unfold zblit. pose proof (zlen_nonneg src).
  rewrite !znth_app, zlen_take, znth_take, znth_drop.
  replace (Z.min (Z.max 0 off) (zlen dst)) with off by lia.
  destruct (Z.leb_spec off j); destruct (Z.ltb_spec j off); try lia; cbn [andb]; auto.
  destruct (Z.ltb_spec (j - off) (zlen src)); destruct (Z.ltb_spec j (off + zlen src)); try lia; auto.
  destruct (Z.ltb_spec (j - off - zlen src) 0); try lia. f_equal; lia.
Qed.
Lemma znth_map {A B} (f : A -> B) l i : znth (map f l) i = option_map f (znth l i).
Proof.
  unfold znth. destruct (i <? 0); auto. apply nth_error_map.
Qed.

(** Extensionality. *)
Lemma znth_ext {A} (l l' : list A) : (forall i, 0 <= i -> znth l i = znth l' i) -> l = l'.
Proof.
  revert l'; induction l; destruct l'; intros H; auto.
  - specialize (H 0 ltac:(lia)). discriminate.
  - specialize (H 0 ltac:(lia)). discriminate.
  - f_equal.
    + specialize (H 0 ltac:(lia)). cbn in H. congruence.
    + apply IHl. intros. specialize (H (i + 1) ltac:(lia)).
      rewrite !znth_cons in H. destruct (Z.eqb_spec (i + 1) 0); try lia.
      replace (i + 1 - 1) with i in H by lia. exact H.
Qed.

#[export] Hint Rewrite @zlen_nil @zlen_cons @zlen_app @zlen_take @zlen_drop @zlen_rep
  @zlen_sub @zlen_upd @zlen_map @zlen_rev : zlen.
#[export] Hint Rewrite @znth_nil @znth_cons @znth_app @znth_take @znth_drop @znth_rep
  @znth_sub @znth_upd @znth_map : znth.

(** Solve equalities between list expressions by looking at every index. *)
Ltac zlen_nils :=
  repeat match goal with
  | |- context [zlen (@nil ?A)] => change (zlen (@nil A)) with 0
  | H : context [zlen (@nil ?A)] |- _ => change (zlen (@nil A)) with 0 in H
  end.

Ltac zlen_facts :=
  zlen_nils;
  repeat match goal with
  | |- context [zlen ?l] =>
      lazymatch goal with
      | H : 0 <= zlen l |- _ => fail
      | _ => pose proof (zlen_nonneg l)
      end
  | H : context [zlen ?l] |- _ =>
      lazymatch goal with
      | H' : 0 <= zlen l |- _ => fail
      | _ => pose proof (zlen_nonneg l)
      end
  end.

Ltac zcase :=
  repeat match goal with
  | |- context [if ?a <? ?b then _ else _] => destruct (Z.ltb_spec a b); try lia
  | |- context [if ?a <=? ?b then _ else _] => destruct (Z.leb_spec a b); try lia
  | |- context [if ?a =? ?b then _ else _] => destruct (Z.eqb_spec a b); try lia
  | |- context [(?a <? ?b) && _] => destruct (Z.ltb_spec a b); try lia; cbn [andb]
  | |- context [(?a <=? ?b) && _] => destruct (Z.leb_spec a b); try lia; cbn [andb]
  | |- context [(?a =? ?b) && _] => destruct (Z.eqb_spec a b); try lia; cbn [andb]
  | |- context [if ?a && ?b then _ else _] =>
      let E := fresh "E" in destruct (a && b) eqn:E; try lia
  end.

Ltac znorm := unfold zblit; autorewrite with znth zlen; zlen_nils.

Ltac zfin :=
  first [ reflexivity
        | congruence
        | (f_equal; lia)
        | (rewrite znth_ge by (autorewrite with zlen; lia);
           first [reflexivity | rewrite znth_ge by (autorewrite with zlen; lia); reflexivity])
        | (symmetry; rewrite znth_ge by (autorewrite with zlen; lia); reflexivity) ].

Ltac zlens := autorewrite with zlen in *; zlen_nils.

Ltac zext :=
  let i := fresh "i" in let Hi := fresh "Hi" in
  apply znth_ext; intros i Hi; znorm; zlen_facts; zcase; try zfin.

Lemma ztake_all {A} n (l : list A) : zlen l <= n -> ztake n l = l.
Proof. intros. zext. Qed.
Lemma ztake_0 {A} n (l : list A) : n <= 0 -> ztake n l = [].
Proof. intros. zext. Qed.
Lemma zdrop_0 {A} n (l : list A) : n <= 0 -> zdrop n l = l.
Proof. intros. zext. Qed.
Lemma zdrop_all {A} n (l : list A) : zlen l <= n -> zdrop n l = [].
Proof. intros. zext. Qed.
Lemma ztake_zdrop {A} n (l : list A) : ztake n l ++ zdrop n l = l.
Proof. apply firstn_skipn. Qed.
Lemma ztake_app_l {A} n (l l' : list A) : n <= zlen l -> ztake n (l ++ l') = ztake n l.
Proof. intros. zext. Qed.
Lemma ztake_app_r {A} n (l l' : list A) :
  zlen l <= n -> ztake n (l ++ l') = l ++ ztake (n - zlen l) l'.
Proof. intros. zext. Qed.
Lemma zdrop_app_r {A} n (l l' : list A) :
  zlen l <= n -> zdrop n (l ++ l') = zdrop (n - zlen l) l'.
Proof. intros. zext. Qed.
Lemma zdrop_app_l {A} n (l l' : list A) :
  n <= zlen l -> zdrop n (l ++ l') = zdrop n l ++ l'.
Proof. intros. zext. Qed.
Lemma zdrop_zdrop {A} n m (l : list A) :
  zdrop n (zdrop m l) = zdrop (Z.max 0 n + Z.max 0 m) l.
Proof. zext. Qed.
Lemma ztake_snoc {A} (l : list A) i x :
  znth l i = Some x -> ztake (i + 1) l = ztake i l ++ [x].
Proof.
  intros H. pose proof (znth_Some _ _ _ H). zext.
  replace i0 with i by lia. congruence.
Qed.
Lemma zdrop_cons {A} (l : list A) i x :
  znth l i = Some x -> zdrop i l = x :: zdrop (i + 1) l.
Proof.
  intros H. pose proof (znth_Some _ _ _ H). zext.
  replace (Z.max 0 i + i0) with i by lia. congruence.
Qed.

(** [cbn] must not look inside these. *)
Global Arguments zlen : simpl never.
Global Arguments znth : simpl never.
Global Arguments ztake : simpl never.
Global Arguments zdrop : simpl never.
Global Arguments zsub : simpl never.
Global Arguments zrep : simpl never.
Global Arguments zupd : simpl never.
Global Arguments zblit : simpl never.
Global Arguments wrap : simpl never.
Global Arguments wrap8 : simpl never.
Global Arguments wrap16 : simpl never.
Global Arguments wrap32 : simpl never.
Global Arguments wrap64 : simpl never.
Global Arguments Z.add : simpl never.
Global Arguments Z.sub : simpl never.
Global Arguments Z.mul : simpl never.
Global Arguments Z.opp : simpl never.
Global Arguments Z.div : simpl never.
Global Arguments Z.modulo : simpl never.
Global Arguments Z.quot : simpl never.
Global Arguments Z.rem : simpl never.
Global Arguments Z.pow : simpl never.

(** Two adjacent writes are one write. *)
Lemma zblit_blit {A} (d : list A) off a b :
  0 <= off -> off + zlen a + zlen b <= zlen d ->
  zblit (zblit d off a) (off + zlen a) b = zblit d off (a ++ b).
Proof.
  intros O L. pose proof (zlen_nonneg a). pose proof (zlen_nonneg b).
  apply znth_ext. intros i Hi.
  rewrite !znth_blit by (rewrite ?zlen_blit; lia). rewrite zlen_app, znth_app.
  zcase; auto; try (f_equal; lia).
Qed.
Lemma zsub_0 {A} (l : list A) off n : off = 0 -> zsub l off n = ztake n l.
Proof. intros ->. reflexivity. Qed.
