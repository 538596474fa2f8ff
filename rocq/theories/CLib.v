(** * The few C library functions the model needs

    [memcmp], on byte lists (0..255), as specified by ISO C 7.24.4.1: the sign of the
    difference of the first pair of differing bytes, read as unsigned char.
    The value is normalised to -1/0/1; the code under study only uses its
    sign. *)

From Verif Require Import Base.

Fixpoint bytes_cmp (a b : list Z) : Z :=
  match a, b with
  | x :: a', y :: b' => if x <? y then -1 else if y <? x then 1 else bytes_cmp a' b'
  | _, _ => 0
  end.

Definition memcmp (a b : list Z) (n : Z) : Z := bytes_cmp (ztake n a) (ztake n b).

Lemma bytes_cmp_eq a b : length a = length b -> (bytes_cmp a b = 0 <-> a = b).
Proof.
  revert b; induction a as [| x a IH]; destruct b as [| y b]; cbn [length bytes_cmp]; intros L;
    try lia; try tauto.
  destruct (Z.ltb_spec x y); [| destruct (Z.ltb_spec y x)].
  - split; [lia | intros E; inversion E; lia].
  - split; [lia | intros E; inversion E; lia].
  - rewrite IH by lia. split; intros E; [f_equal; auto; lia | inversion E; auto].
Qed.

Lemma memcmp_eq a b n : zlen a = n -> zlen b = n -> (memcmp a b n = 0 <-> a = b).
Proof.
  intros A B. unfold memcmp. rewrite !ztake_all by lia. apply bytes_cmp_eq.
  unfold zlen in *; lia.
Qed.

(** The bytes of a string literal. *)
Fixpoint bytes (s : string) : list Z :=
  match s with
  | EmptyString => []
  | String c r => Z.of_nat (Ascii.nat_of_ascii c) :: bytes r
  end.

(** The C string held at the start of a byte list: everything before the
    first NUL. *)
Fixpoint c_str (l : list Z) : list Z :=
  match l with
  | [] => []
  | c :: l' => if c =? 0 then [] else c :: c_str l'
  end.

(** Reading a C string inside a block from offset [off]; running off the end
    of the block is [UB]. *)
Fixpoint c_str_scan (l : list Z) : outcome (list Z) :=
  match l with
  | [] => UB
  | c :: l' => if c =? 0 then Ret [] else let! r := c_str_scan l' in Ret (c :: r)
  end.
Definition c_str_at (block : list Z) (off : Z) : outcome (list Z) :=
  if (0 <=? off) && (off <=? zlen block) then c_str_scan (zdrop off block) else UB.

Lemma c_str_scan_nul l r : c_str_scan (l ++ 0 :: r) = Ret (c_str l).
Proof.
  induction l as [| c l IH]; [reflexivity |].
  cbn [app c_str_scan c_str]. destruct (c =? 0); auto. rewrite IH. reflexivity.
Qed.

Lemma zlen_c_str l : zlen (c_str l) <= zlen l.
Proof.
  induction l as [| c l IH]; cbn [c_str]; [reflexivity |].
  destruct (c =? 0); autorewrite with zlen; pose proof (zlen_nonneg l); lia.
Qed.

(** memcpy of [n] bytes between two blocks. *)
Definition block_copy {A} (dst : list A) (doff : Z) (src : list A) (soff n : Z) : outcome (list A) :=
  if (0 <=? n) && (0 <=? doff) && (doff + n <=? zlen dst) && (0 <=? soff) && (soff + n <=? zlen src)
  then Ret (zblit dst doff (zsub src soff n)) else UB.

(** strstr: does the C string [n] occur in the C string [h]? *)
Fixpoint is_prefix (n h : list Z) : bool :=
  match n, h with
  | [], _ => true
  | x :: n', y :: h' => (x =? y) && is_prefix n' h'
  | _, [] => false
  end.
Fixpoint strstr (h n : list Z) : bool :=
  if is_prefix n h then true
  else match h with [] => false | _ :: h' => strstr h' n end.

Lemma is_prefix_spec n h : is_prefix n h = true <-> exists post, h = n ++ post.
Proof.
  revert h; induction n as [| x n IH]; intros h; cbn.
  - split; eauto.
  - destruct h as [| y h]; cbn; [split; [discriminate | intros [? ?]; discriminate] |].
    rewrite andb_true_iff, IH, Z.eqb_eq. split.
    + intros [-> [post ->]]. eauto.
    + intros [post E]. inversion E; subst; eauto.
Qed.

Lemma strstr_spec h n : strstr h n = true <-> exists pre post, h = pre ++ n ++ post.
Proof.
  induction h as [| y h IH].
  - cbn. destruct (is_prefix n []) eqn:P.
    + split; auto. intros _. apply is_prefix_spec in P. destruct P as [post ->]. exists [], post; auto.
    + split; [discriminate |]. intros (pre & post & E). destruct pre; [| discriminate].
      assert (is_prefix n [] = true) by (apply is_prefix_spec; eauto). congruence.
  - cbn [strstr]. destruct (is_prefix n (y :: h)) eqn:P.
    + split; auto. intros _. apply is_prefix_spec in P. destruct P as [post ->]. exists [], post; auto.
    + rewrite IH. split.
      * intros (pre & post & ->). exists (y :: pre), post; auto.
      * intros (pre & post & E). destruct pre as [| z pre].
        -- assert (is_prefix n (y :: h) = true) by (apply is_prefix_spec; eauto). congruence.
        -- inversion E; subst; eauto.
Qed.
