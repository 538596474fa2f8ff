(** * C62: grep, map, map_expand, sorts and options; C43: the remaining copies *)
From Coq Require Import Permutation.
From Verif Require Import Base CLib StM Array_model Array_spec List_model List_spec Buckets Val Hash_model Hash_spec
  Hash_proofs Sort_model Sort_spec Sort_proofs Sort_props Array_proofs Array_props List_ring
  FnMem_model FnMem_spec FnMem_proofs FnRev_proofs FnMem_props FnHof_model FnHof_spec
  FnHof_proofs FnCopy_proofs.

(** ** Callbacks *)

(** Whatever the callback does (change the program state, change the array,
    throw), there is a well-defined sequence of calls. *)
Theorem C62_calls_exist :
  forall (S A R : Type) (arr : S -> list A) (cb : S -> A -> S * outcome R) (s : S),
    proper cb -> (forall s x, zlen (arr (fst (cb s x))) = zlen (arr s)) ->
    exists l s' o, calls arr cb 0 (zlen (arr s)) s l s' o.
Proof.
  intros S A R arr cb s P K. pose proof (zlen_nonneg (arr s)).
  apply (calls_total arr cb P K (Z.to_nat (zlen (arr s))) 0 s); lia.
Qed.

(** grep calls the callback once per index, in order, and returns exactly the
    elements for which it answered true, in order; its exception is passed on. *)
Theorem C62_grep :
  forall (S A : Type) (arr : S -> list A) (undef : A) (accepts : A -> bool)
         (cb : S -> A -> S * outcome Z) (s s' : S) (l : list (A * Z)) (o : option string),
    accepts undef = true -> Forall (fun x => accepts x = true) (arr s) ->
    zlen (arr s) <= 536870912 -> keeps_array arr accepts cb ->
    calls arr cb 0 (zlen (arr s)) s l s' o ->
    fn_grep arr undef accepts true true cb s =
      (s', match o with None => Ret (chosen l) | Some e => Die e end).
Proof. intros. eapply grep_ok; eauto. Qed.

(** map returns the answers in order.  An answer that cannot be stored in an
    array of the type of the argument makes the method throw. *)
Theorem C62_map :
  forall (S A : Type) (arr : S -> list A) (undef : A) (accepts : A -> bool)
         (cb : S -> A -> S * outcome A) (s s' : S) (l : list (A * A)) (o : option string),
    accepts undef = true -> Forall (fun x => accepts x = true) (arr s) ->
    zlen (arr s) <= 536870912 -> keeps_array arr accepts cb ->
    calls arr (only accepts (fun _ => e_elem) cb) 0 (zlen (arr s)) s l s' o ->
    fn_map arr undef accepts true true cb s =
      (s', match o with None => Ret (answers l) | Some e => Die e end).
Proof. intros. eapply map_ok; eauto. Qed.

(** map_expand returns all elements of all answers in order. *)
Theorem C62_map_expand :
  forall (S A : Type) (arr : S -> list A) (undef : A) (accepts : A -> bool)
         (cb : S -> A -> S * outcome (option (list A))) (most : Z)
         (s s' : S) (l : list (A * option (list A))) (o : option string),
    accepts undef = true -> Forall (fun x => accepts x = true) (arr s) ->
    0 <= most -> zlen (arr s) * most <= 536870912 ->
    (forall s0 x s1 ys, cb s0 x = (s1, Ret (Some ys)) -> zlen ys <= most) ->
    keeps_array arr accepts cb ->
    calls arr (only (all_accepted accepts) expand_msg cb) 0 (zlen (arr s)) s l s' o ->
    fn_map_expand arr undef accepts true true cb s =
      (s', match o with None => Ret (expanded l) | Some e => Die e end).
Proof. intros. eapply map_expand_ok; eauto. Qed.

(** The familiar equations for callbacks without side effects. *)
Lemma calls_pure {A R} (a : list A) (h : A -> R) (cb : list A -> A -> list A * outcome R) :
  (forall x, cb a x = (a, Ret (h x))) ->
  forall b pre, a = pre ++ b -> calls (fun a => a) cb (zlen pre) (zlen a) a (map (fun x => (x, h x)) b) a None.
Proof.
  intros Hcb b. induction b as [| x b IH]; intros pre E.
  - rewrite app_nil_r in E. subst. constructor.
  - cbn [map]. pose proof (zlen_nonneg b). eapply calls_next with (s1 := a).
    + rewrite E, zlen_app, zlen_cons. lia.
    + rewrite E at 1. rewrite znth_app. rewrite Z.ltb_irrefl, Z.sub_diag. reflexivity.
    + apply Hcb.
    + replace (zlen pre + 1) with (zlen (pre ++ [x])) by (rewrite zlen_app; reflexivity).
      apply IH. rewrite <- app_assoc. exact E.
Qed.

Theorem C62_pure_callbacks :
  forall (A : Type) (undef : A) (accepts : A -> bool) (a : list A)
         (test : A -> Z) (f : A -> A) (g : A -> list A) (most : Z),
    accepts undef = true -> Forall (fun x => accepts x = true) a -> zlen a <= 536870912 ->
    (forall x, accepts (f x) = true) -> (forall x, Forall (fun y => accepts y = true) (g x)) ->
    0 <= most -> (forall x, zlen (g x) <= most) -> zlen a * most <= 536870912 ->
    fn_grep (fun a => a) undef accepts true true (fun s x => (s, Ret (test x))) a =
      (a, Ret (filter (fun x => negb (test x =? 0)) a)) /\
    fn_map (fun a => a) undef accepts true true (fun s x => (s, Ret (f x))) a = (a, Ret (map f a)) /\
    fn_map_expand (fun a => a) undef accepts true true (fun s x => (s, Ret (Some (g x)))) a =
      (a, Ret (flat_map g a)).
Proof.
  intros A undef accepts a test f g most Hu Ok La Hf Hg M0 Hm Lm.
  split; [| split].
  - rewrite (C62_grep _ _ _ undef accepts _ a a (map (fun x => (x, test x)) a) None); auto.
    + f_equal. f_equal. unfold chosen. clear. induction a as [| x a IH]; auto.
      cbn [map filter fst snd]. destruct (negb (test x =? 0)); cbn [map fst]; congruence.
    + split; auto.
    + apply (calls_pure a test _ (fun _ => eq_refl) a []). auto.
  - rewrite (C62_map _ _ _ undef accepts _ a a (map (fun x => (x, f x)) a) None); auto.
    + unfold answers. rewrite map_map. reflexivity.
    + split; auto.
    + apply (calls_pure a f (only accepts (fun _ => e_elem) (fun s x => (s, Ret (f x))))) with (pre := []); auto.
      intros x. unfold only. rewrite Hf. reflexivity.
  - rewrite (C62_map_expand _ _ _ undef accepts _ most a a (map (fun x => (x, Some (g x))) a) None); auto.
    + unfold expanded. rewrite map_map. cbn [snd]. rewrite flat_map_concat_map. reflexivity.
    + intros s0 x s1 ys E. inversion E; subst. auto.
    + split; auto.
    + apply (calls_pure a (fun x => Some (g x))
               (only (all_accepted accepts) expand_msg (fun s x => (s, Ret (Some (g x)))))) with (pre := []); auto.
      intros x. unfold only, all_accepted. replace (forallb accepts (g x)) with true; auto.
      symmetry. apply forallb_forall. specialize (Hg x). rewrite Forall_forall in Hg. auto.
Qed.

(** An undefined array or an undefined callback is rejected before any call. *)
Theorem C62_undefined_arguments :
  forall (S A : Type) (arr : S -> list A) (undef : A) (accepts : A -> bool) (has_array has_callback : bool)
         (cg : S -> A -> S * outcome Z) (cm : S -> A -> S * outcome A) (ce : S -> A -> S * outcome (option (list A))) (s : S),
    has_array = false \/ has_callback = false ->
    exists e,
      fn_grep arr undef accepts has_array has_callback cg s = (s, Die e) /\
      fn_map arr undef accepts has_array has_callback cm s = (s, Die e) /\
      fn_map_expand arr undef accepts has_array has_callback ce s = (s, Die e).
Proof.
  intros. unfold fn_grep, fn_map, fn_map_expand, collect.
  destruct has_array, has_callback; cbn; eauto; destruct H; discriminate.
Qed.

(** map cannot change the type: the documented use "numbers to strings" throws
    although the callback returns.  The elements are tagged by type; the array
    accepts undef (0) and tag 1. *)
Theorem C62_map_type_refuted :
  exists (undef : Z) (accepts : Z -> bool) (f : Z -> Z) (a : list Z) (e : string),
    accepts undef = true /\ Forall (fun x => accepts x = true) a /\
    fn_map (fun a => a) undef accepts true true (fun s x => (s, Ret (f x))) a = (a, Die e).
Proof.
  exists 0, (fun x => x <=? 1), (fun x => x + 1), [1; 1], e_elem.
  split; [reflexivity |]. split; [repeat constructor |]. vm_compute. reflexivity.
Qed.

(** ** Sorts *)

(** sort is documented to return a sorted copy.  It sorts its argument instead
    and returns the elements in their old order. *)
Theorem C62_sort_returns_the_old_order :
  forall (A S : Type) (cmp : S -> A -> A -> S * outcome Z) (undef : A) (accepts : A -> bool) (fuel : nat)
         (s : S) (a : list A) (c : A -> A -> Z),
    (30 < fuel)%nat -> zlen a <= 1073741824 -> Forall (fun x => accepts x = true) a ->
    (forall s x y, snd (cmp s x y) = Ret (c x y)) -> total_preorder c ->
    exists s' a', fn_sort cmp undef accepts fuel s (Some a) true = (s', Some a', Ret a) /\
      permutes_range a a' 0 (zlen a) /\ in_order c (zsub a' 0 (zlen a)).
Proof.
  intros A S cmp undef accepts fuel s a c F La Ok Pc Tc. pose proof (zlen_nonneg a).
  destruct (C34_sorted_and_stable A S cmp undef fuel s a 0 (-1) 0 (zlen a - 0) c F Pc Tc) as (s' & a' & E & P & O & _);
    try lia; [reflexivity |].
  rewrite Z.sub_0_r in *. exists s', a'. rewrite fn_sort_ok by (auto; lia). rewrite E. auto.
Qed.

Theorem C62_sort_refuted :
  exists (a r : list Z),
    snd (fn_sort (fun (s : unit) x y => (s, Ret (int_cmp x y))) 0 (fun _ => true) 31 tt (Some a) true) = Ret r /\
    ~ in_order int_cmp r.
Proof.
  exists [2; 1], [2; 1]. split; [vm_compute; reflexivity |].
  intros I. specialize (I 0 1 2 1 ltac:(lia) eq_refl eq_refl). vm_compute in I. congruence.
Qed.

(** sort_asc and sort_desc of int arrays (and of all integral types, which the
    model does not distinguish) return a sorted permutation. *)
Theorem C62_sort_asc_desc :
  forall (fuel : nat) (elem_size : Z) (a : list Z),
    (30 < fuel)%nat -> 1 <= elem_size -> elem_size * zlen a <= INT32_MAX -> zlen a <= 1073741824 ->
    exists up down,
      fn_sort_num asc_cmp 0 fuel elem_size (Some a) = Ret up /\
      fn_sort_num desc_cmp 0 fuel elem_size (Some a) = Ret down /\
      Permutation a up /\ Permutation a down /\
      (forall i j x y, i < j -> znth up i = Some x -> znth up j = Some y -> x <= y) /\
      (forall i j x y, i < j -> znth down i = Some x -> znth down j = Some y -> y <= x).
Proof.
  intros fuel elem_size a F E1 Es La.
  destruct (C34_int_asc_desc fuel a F La) as (up & down & U & D & R).
  exists up, down. unfold fn_sort_num. rewrite Z.gtb_ltb. destruct (Z.ltb_spec INT32_MAX (elem_size * zlen a)); [lia |].
  rewrite U, D. auto.
Qed.

(** ** Options *)

(** merge_options gives the options of both, the second ones last; undefined
    options count as none; an odd number of elements is rejected. *)
Theorem C62_merge_options :
  forall (o1 o2 : option (list val)),
    let l1 := match o1 with Some l => l | None => [] end in
    let l2 := match o2 with Some l => l | None => [] end in
    zlen l1 + zlen l2 <= INT32_MAX ->
    (Z.even (zlen l1) = true -> Z.even (zlen l2) = true -> merge_options o1 o2 = Ret (l1 ++ l2)) /\
    (Z.even (zlen l1) = false \/ Z.even (zlen l2) = false -> exists e, merge_options o1 o2 = Die e).
Proof.
  intros o1 o2 l1 l2 B. unfold merge_options. fold l1 l2. pose proof (zlen_nonneg l1). pose proof (zlen_nonneg l2).
  assert (P : forall n, 0 <= n -> (Z.rem n 2 =? 0) = Z.even n).
  { intros n Hn. rewrite Z.rem_mod_nonneg by lia. rewrite Zmod_even. destruct (Z.even n); reflexivity. }
  rewrite !P by auto. split.
  - intros -> ->. apply C43_merge. auto.
  - intros [-> | E]; eauto. rewrite E. destruct (Z.even (zlen l1)); eauto.
Qed.

(** check_option_names returns exactly when all option names are available and
    otherwise reports the first one that is not. *)
Theorem C62_check_option_names :
  forall (sip : key -> Z) (options : list val) (names : list key),
    zlen names <= 536870912 ->
    let available v := exists n, v = VString n /\ In n names in
    match check_option_names sip (Some options) (Some (map Some names)) with
    | inl (Ret tt) => Forall available (names_of options)
    | inr (NotAvailable n) =>
        exists before after, names_of options = before ++ VString n :: after /\
          Forall available before /\ ~ In n names
    | inr (OtherError _) =>
        exists before v after, names_of options = before ++ v :: after /\
          Forall available before /\ forall n, v <> VString n
    | _ => False
    end.
Proof.
  intros sip options names B. cbv zeta. unfold check_option_names.
  destruct (store_names_ok sip names hash_empty 0 (empty_inv sip) empty_sized B) as (h & E & I & Ab).
  rewrite E. cbn [obind].
  pose proof (check_names_ok sip names h I) as C. specialize (C ltac:(intros k; rewrite Ab; reflexivity)).
  specialize (C (length options) options (le_n _)). unfold available in C.
  destruct (check_names sip h options) as [[[n | e] |] | e | |]; auto; contradiction.
Qed.

(** ** C43: copies of arrays of objects and of strings, and of any numbers *)

(** copy_object with a cloner: the answers of the cloner for the addressed
    elements, called once each in order. *)
Theorem C43_copy_object :
  forall (S A : Type) (arr : S -> list A) (undef : A) (accepts : A -> bool)
         (cloner : S -> A -> S * outcome A) (s s' : S) (offset length len : Z) l o,
    keeps_array arr accepts cloner ->
    in_i32 offset -> in_i32 length -> zlen (arr s) <= INT32_MAX ->
    range_length (zlen (arr s)) offset length = len ->
    0 <= offset -> 0 <= len -> offset + len <= zlen (arr s) ->
    calls arr (only accepts (fun _ => e_elem) cloner) offset (offset + len) s l s' o ->
    copy_object arr undef accepts true (Some cloner) offset length s =
      (s', match o with None => Ret (answers l) | Some e => Die e end).
Proof. intros. eapply copy_object_clone; eauto. Qed.

(** Without a cloner, and copy_object_address: the same objects. *)
Theorem C43_copy_object_address :
  forall (S A : Type) (arr : S -> list A) (undef : A) (accepts : A -> bool) (s : S) (offset length len : Z),
    in_i32 offset -> in_i32 length -> zlen (arr s) <= INT32_MAX -> Forall (fun x => accepts x = true) (arr s) ->
    range_length (zlen (arr s)) offset length = len -> offset + len <= INT32_MAX ->
    (0 <= offset /\ 0 <= len /\ offset + len <= zlen (arr s) ->
       exists c, copy_object_address arr undef accepts true offset length s = (s, Ret c) /\
         copy_object arr undef accepts true None offset length s = (s, Ret c) /\ zlen c = len /\
         forall i, 0 <= i < len -> znth c i = znth (arr s) (offset + i)) /\
    (offset < 0 \/ len < 0 \/ zlen (arr s) < offset + len ->
       forall cloner, exists e, copy_object arr undef accepts true cloner offset length s = (s, Die e)).
Proof.
  intros S A arr undef accepts s offset length len Io Il La Ok R M. split.
  - intros (H1 & H2 & H3). exists (zsub (arr s) offset len). unfold copy_object_address.
    rewrite (copy_object_plain arr undef accepts s offset length len) by auto.
    split; auto. split; auto. split; [rewrite zlen_sub; lia |].
    intros i Hi. rewrite znth_sub. destruct (Z.leb_spec 0 i); [| lia].
    destruct (Z.ltb_spec i len); [| lia]. cbn [andb]. f_equal; lia.
  - intros D cloner. apply copy_object_bad with (len := len); auto.
Qed.

(** slice of an array of objects. *)
Theorem C62_slice_object :
  forall (S A : Type) (arr : S -> list A) (undef : A) (accepts : A -> bool) (s : S) (offset length : Z),
    in_i32 offset -> in_i32 length -> zlen (arr s) <= INT32_MAX -> Forall (fun x => accepts x = true) (arr s) ->
    offset + length <= INT32_MAX ->
    (0 <= offset /\ 0 <= length /\ offset + length <= zlen (arr s) ->
       exists c, slice_object arr undef accepts true offset length s = (s, Ret c) /\ zlen c = length /\
         forall i, 0 <= i < length -> znth c i = znth (arr s) (offset + i)) /\
    (offset < 0 \/ length < 0 \/ zlen (arr s) < offset + length ->
       exists e, slice_object arr undef accepts true offset length s = (s, Die e)).
Proof.
  intros S A arr undef accepts s offset length Io Il La Ok M. split.
  - intros (H1 & H2 & H3). exists (zsub (arr s) offset length).
    rewrite slice_object_ok by auto. split; auto. split; [rewrite zlen_sub; lia |].
    intros i Hi. rewrite znth_sub. destruct (Z.leb_spec 0 i); [| lia].
    destruct (Z.ltb_spec i length); [| lia]. cbn [andb]. f_equal; lia.
  - intros D. apply slice_object_bad; auto.
Qed.

(** copy_string copies the strings too: every string of the result is new,
    writable, has the same bytes and occurs once; the old strings stay. *)
Theorem C43_copy_string :
  forall (h : strings) (a : list (option Z)) (offset length len : Z),
    in_i32 offset -> in_i32 length -> zlen a <= INT32_MAX ->
    (forall i p, znth a i = Some (Some p) -> 0 <= p < zlen h) ->
    range_length (zlen a) offset length = len -> offset + len <= INT32_MAX ->
    (0 <= offset /\ 0 <= len /\ offset + len <= zlen a ->
       exists h' c, copy_string h (Some a) offset length = Ret (h', c) /\ zlen c = len /\
         (forall p, 0 <= p < zlen h -> znth h' p = znth h p) /\
         (forall i, 0 <= i < len ->
            (znth a (offset + i) = Some None /\ znth c i = Some None) \/
            exists p q s, znth a (offset + i) = Some (Some p) /\ znth h p = Some s /\
              znth c i = Some (Some q) /\ zlen h <= q /\ znth h' q = Some (mk_str (s_bytes s) false)) /\
         (forall i j q, znth c i = Some (Some q) -> znth c j = Some (Some q) -> i = j)) /\
    (offset < 0 \/ len < 0 \/ zlen a < offset + len -> exists e, copy_string h (Some a) offset length = Die e).
Proof.
  unfold in_i32. intros h a offset length len Io Il La V R M. zlen_facts. split.
  - intros (H1 & H2 & H3). unfold copy_string. destruct (Z.geb_spec offset 0); [| lia]. cbv zeta.
    rewrite (range_wrap (zlen a) offset length len) by (auto; lia).
    rewrite wrap32_id by (unfold in_i32; lia). destruct (Z.leb_spec (offset + len) (zlen a)); [| lia].
    unfold new_elems. destruct (Z.leb_spec 0 len); [| lia]. cbn [obind].
    destruct (copy_string_loop_ok a offset (Z.to_nat len) 0 h (zrep len None)) as (fresh & c & E & L & _ & New & Inj);
      rewrite ?zlen_rep; try lia; auto.
    rewrite zlen_rep in L. rewrite E. exists (h ++ fresh), c. split; [reflexivity |]. split; [lia |].
    split; [intros p Hp; apply znth_app_l; auto |]. split.
    + intros i Hi. specialize (New i ltac:(lia)). destruct (znth a (offset + i)) as [[p |] |] eqn:Ep; [| auto | contradiction].
      right. destruct New as (q & s & N1 & N2 & N3 & N4). exists p, q, s. repeat split; auto. lia.
    + intros i j q Hi Hj. pose proof (znth_Some _ _ _ Hi). pose proof (znth_Some _ _ _ Hj).
      apply (Inj i j q); auto; lia.
  - intros D. unfold copy_string. destruct (Z.geb_spec offset 0); [| eauto]. cbv zeta.
    rewrite (range_wrap (zlen a) offset length len) by (auto; lia).
    rewrite wrap32_id by (unfold in_i32, range_length in *; destruct (Z.ltb_spec length 0); lia).
    destruct (Z.leb_spec (offset + len) (zlen a)); [| eauto].
    unfold new_elems. destruct (Z.leb_spec 0 len); [lia | cbn [obind]; eauto].
Qed.

(** copy_any_numeric: a new array of the same type with the bytes of the
    addressed elements. *)
Theorem C43_copy_any_numeric :
  forall h a b offset length len,
    heap_ok h -> int_sizes h -> znth h a = Some b ->
    b_kind b = KNumArray \/ b_kind b = KMulArray -> b_elem_size b <= INT32_MAX -> b_length b <= INT32_MAX ->
    in_i32 offset -> in_i32 length -> range_length (b_length b) offset length = len -> offset + len <= INT32_MAX ->
    (0 <= offset /\ 0 <= len /\ offset + len <= b_length b ->
     exists h' c,
      copy_any_numeric h (Some a) offset length = Ret h' /\
      (forall x, 0 <= x < zlen h -> znth h' x = znth h x) /\
      znth h' (zlen h) = Some c /\
      b_kind c = b_kind b /\ b_length c = len /\ b_elem_size c = b_elem_size b /\
      forall k j, 0 <= k < len -> 0 <= j < b_elem_size b ->
        byte_at h' (zlen h) (b_elem_size b * k + j) = byte_at h a (b_elem_size b * (offset + k) + j)) /\
    (offset < 0 \/ len < 0 \/ b_length b < offset + len ->
       exists e, copy_any_numeric h (Some a) offset length = Die e).
Proof.
  unfold in_i32. intros h a b offset length len H IS A K LE LB Io Il R M.
  pose proof (heap_ok_at _ _ _ H A) as (O1 & O2 & O3 & O4 & O5). pose proof (int_sizes_at _ _ _ IS A) as SA.
  pose proof (znth_Some _ _ _ A) as RA.
  split.
  - intros (H1 & H2 & H3).
    assert (EQ : copy_any_numeric h (Some a) offset length = slice_numeric h (Some a) offset len).
    { unfold copy_any_numeric, slice_numeric. rewrite A.
      destruct (Z.geb_spec offset 0); [| lia]. cbv zeta.
      rewrite (range_wrap (b_length b) offset length len) by (auto; lia).
      rewrite (wrap32_id (offset + len)) by (unfold in_i32; lia).
      destruct (Z.leb_spec (offset + len) (b_length b)); [| lia].
      destruct (Z.geb_spec len 0); [| lia].
      destruct K as [-> | ->]; reflexivity. }
    rewrite EQ. destruct (Z.eq_dec len 0) as [-> | N].
    + set (c := mk_blob (b_kind b) false (b_elem_size b) 0 (zrep (b_elem_size b * 0) 0)).
      exists (h ++ [c]), c. split.
      * unfold slice_numeric. rewrite A. rewrite Z.mul_0_r. change (wrap32 0) with 0.
        unfold fn_memcpy, fn_copy, get_raw. rewrite znth_snoc, znth_app_l by auto. rewrite A.
        unfold c, is_raw. destruct K as [-> | ->]; rewrite Z.mul_0_r; reflexivity.
      * split; [intros; apply znth_app_l; auto |]. split; [apply znth_snoc |].
        do 3 (split; [reflexivity |]). intros. lia.
    + apply C39_slice_partial; auto; lia.
  - intros D. unfold copy_any_numeric. rewrite A.
    destruct K as [-> | ->]; (destruct (Z.geb_spec offset 0); [| eauto]); cbv zeta;
      rewrite (range_wrap (b_length b) offset length len) by (auto; lia);
      rewrite wrap32_id by (unfold in_i32, range_length in *; destruct (Z.ltb_spec length 0); lia);
      (destruct (Z.leb_spec (offset + len) (b_length b)); [| eauto]);
      (destruct (Z.geb_spec len 0); [lia | eauto]).
Qed.

(** ** Concrete cases meeting the hypotheses *)

(** A callback with a counter as state that throws at the value 0. *)
Definition ex_cb (s : Z * list Z) (x : Z) : (Z * list Z) * outcome Z :=
  ((fst s + 1, snd s), if x =? 0 then Die "zero" else Ret (if x >? 1 then 1 else 0)).

Example C62_grep_ex : fn_grep snd 0 (fun _ => true) true true ex_cb (0, [3; 1; 2]) = ((3, [3; 1; 2]), Ret [3; 2]).
Proof. vm_compute. reflexivity. Qed.

Example C62_grep_throw_ex :
  proper ex_cb /\ keeps_array snd (fun _ => true) ex_cb /\
  fn_grep snd 0 (fun _ => true) true true ex_cb (0, [3; 0; 2]) = ((2, [3; 0; 2]), Die "zero").
Proof.
  split; [| split; [| vm_compute; reflexivity]].
  - intros s x. unfold ex_cb. cbn. destruct (x =? 0); eauto.
  - intros s x. split; auto.
Qed.

Example C62_expand_ex :
  fn_map_expand (fun a => a) 0 (fun _ => true) true true (fun s x => (s, Ret (Some [x; x + 1]))) [1; 5] =
    ([1; 5], Ret [1; 2; 5; 6]).
Proof. vm_compute. reflexivity. Qed.

Example C62_sort_ex :
  fn_sort_num asc_cmp 0 31 4 (Some [3; 1; 2]) = Ret [1; 2; 3] /\ fn_sort_num desc_cmp 0 31 4 (Some [3; 1; 2]) = Ret [3; 2; 1].
Proof. split; vm_compute; reflexivity. Qed.

Example C62_options_ex :
  let sip (k : key) := zlen k in
  check_option_names sip (Some [VString [97]; VInt 1; VString [98]; VInt 2]) (Some [Some [97]; Some [98]]) = inl (Ret tt) /\
  check_option_names sip (Some [VString [97]; VInt 1; VString [99]; VInt 2]) (Some [Some [97]; Some [98]]) =
    inr (NotAvailable [99]) /\
  merge_options (Some [VString [97]; VInt 1]) None = Ret [VString [97]; VInt 1].
Proof. repeat split; vm_compute; reflexivity. Qed.

Example C43_copy_string_ex :
  copy_string [mk_str [104; 105] true] (Some [Some 0; None; Some 0]) 0 (-1) =
    Ret ([mk_str [104; 105] true; mk_str [104; 105] false; mk_str [104; 105] false], [Some 1; None; Some 2]).
Proof. vm_compute. reflexivity. Qed.

Example C43_copy_object_ex :
  copy_object (fun a => a) 0 (fun _ => true) true (Some (fun s x => (s, Ret (x + 10)))) 1 2 [1; 2; 3] = ([1; 2; 3], Ret [12; 13]) /\
  copy_object_address (fun a => a) 0 (fun _ => true) true 1 (-1) [1; 2; 3] = ([1; 2; 3], Ret [2; 3]).
Proof. split; vm_compute; reflexivity. Qed.

Print Assumptions C62_calls_exist.
Print Assumptions C62_grep.
Print Assumptions C62_map.
Print Assumptions C62_map_expand.
Print Assumptions C62_pure_callbacks.
Print Assumptions C62_undefined_arguments.
Print Assumptions C62_map_type_refuted.
Print Assumptions C62_sort_returns_the_old_order.
Print Assumptions C62_sort_refuted.
Print Assumptions C62_sort_asc_desc.
Print Assumptions C62_merge_options.
Print Assumptions C62_check_option_names.
Print Assumptions C62_slice_object.
Print Assumptions C43_copy_object.
Print Assumptions C43_copy_object_address.
Print Assumptions C43_copy_string.
Print Assumptions C43_copy_any_numeric.
