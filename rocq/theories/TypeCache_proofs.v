(** * Proofs about the assignability cache: the key is injective, adding
    basic types does not change answers, the cache invariant *)

From Verif Require Import Base CLib Dec Buckets NHash_model NHash_spec NHash_proofs Type_model TypeCache_model TypeCache_spec.

(** ** The key *)

Lemma digits_split a b x y : Forall is_digit a -> Forall is_digit b ->
  a ++ 45 :: x = b ++ 45 :: y -> a = b /\ x = y.
Proof.
  revert b. induction a as [| c a IH]; intros [| d b] A B E; cbn in E.
  - injection E as E. auto.
  - injection E as E1 E2. inversion B; subst. unfold is_digit in *. lia.
  - injection E as E1 E2. inversion A; subst. unfold is_digit in *. lia.
  - injection E as -> E. inversion A; inversion B; subst. destruct (IH b) as (-> & ->); auto.
Qed.

Lemma udec_inj a b : 0 <= a -> 0 <= b -> udec a = udec b -> a = b.
Proof.
  intros A B E. destruct (udec_spec a A) as (_ & <- & _). destruct (udec_spec b B) as (_ & <- & _).
  rewrite E. reflexivity.
Qed.

Lemma udec_head n s : 0 <= n -> exists c r, udec n ++ s = c :: r /\ c <> 45.
Proof.
  intros N. destruct (udec_spec n N) as (D & _ & Ne & _). destruct (udec n) as [| c r]; [congruence |].
  inversion D; subst. exists c, (r ++ s). split; auto. unfold is_digit in *. lia.
Qed.

Lemma dec_split a b x y : print_dec a ++ 45 :: x = print_dec b ++ 45 :: y -> a = b /\ x = y.
Proof.
  unfold print_dec. intros E.
  destruct (Z.ltb_spec a 0); destruct (Z.ltb_spec b 0).
  - cbn in E. injection E as E. apply digits_split in E; try apply udec_spec; try lia.
    destruct E as (E & ->). apply udec_inj in E; [split; [lia | reflexivity] | lia | lia].
  - destruct (udec_head b (45 :: y) ltac:(lia)) as (c & r & Q & N). rewrite Q in E. cbn in E. congruence.
  - destruct (udec_head a (45 :: x) ltac:(lia)) as (c & r & Q & N). rewrite Q in E. cbn in E. congruence.
  - apply digits_split in E; try apply udec_spec; try lia.
    destruct E as (E & ->). apply udec_inj in E; auto.
Qed.

Lemma print_dec_inj a b : print_dec a = print_dec b -> a = b.
Proof.
  intros E. apply (f_equal (fun l => l ++ 45 :: [])) in E. apply dec_split in E. tauto.
Qed.

Lemma print_dec_len n : in_i32 n -> zlen (print_dec n) <= 11.
Proof.
  unfold in_i32, print_dec. intros B. destruct (Z.ltb_spec n 0).
  - rewrite zlen_cons. pose proof (udec_length (- n) 10 ltac:(lia) ltac:(lia) ltac:(lia)). lia.
  - pose proof (udec_length n 10 ltac:(lia) ltac:(lia) ltac:(lia)). lia.
Qed.

Lemma print_dec_nonul n : ~ In 0 (print_dec n).
Proof.
  assert (H : forall n, 0 <= n -> ~ In 0 (udec n)).
  { intros k K I. destruct (udec_spec k K) as (D & _). rewrite Forall_forall in D.
    apply D in I. unfold is_digit in I. lia. }
  unfold print_dec. destruct (Z.ltb_spec n 0).
  - intros [E | I]; [discriminate |]. apply (H (- n)); auto. lia.
  - apply H; auto.
Qed.

Lemma c_str_nonul s : ~ In 0 s -> c_str s = s.
Proof.
  induction s as [| c s IH]; intros N; cbn; auto. destruct (Z.eqb_spec c 0) as [-> |].
  - exfalso. apply N. left. reflexivity.
  - rewrite IH; auto. intros I. apply N. right. auto.
Qed.


Lemma key_is_text q : query_int32 q -> assinability_key q = key_text q.
Proof.
  intros ((A & B & C) & D & E & F). unfold assinability_key.
  assert (L : zlen (key_text q) <= 254).
  { unfold key_text. rewrite !zlen_app. change (zlen [45]) with 1.
    pose proof (print_dec_len _ A). pose proof (print_dec_len _ B). pose proof (print_dec_len _ C).
    pose proof (print_dec_len _ D). pose proof (print_dec_len _ E). pose proof (print_dec_len _ F). lia. }
  replace (ztake 254 (key_text q)) with (key_text q).
  - apply c_str_nonul. unfold key_text. rewrite !in_app_iff. cbn [In].
    pose proof print_dec_nonul. intuition (try discriminate; eauto).
  - unfold ztake, zlen in *. rewrite firstn_all2; auto. lia.
Qed.

Lemma key_inj q q' : query_int32 q -> query_int32 q' -> assinability_key q = assinability_key q' -> q = q'.
Proof.
  intros A B E. rewrite !key_is_text in E by auto. unfold key_text in E.
  destruct q as [[a b c] [d e f]], q' as [[a' b' c'] [d' e' f']]. cbn [q_dist q_src t_id t_dim t_flag] in E.
  cbn [app] in E.
  apply dec_split in E. destruct E as (-> & E). apply dec_split in E. destruct E as (-> & E).
  apply dec_split in E. destruct E as (-> & E). apply dec_split in E. destruct E as (-> & E).
  apply dec_split in E. destruct E as (-> & E). apply print_dec_inj in E. subst. reflexivity.
Qed.

(** ** Adding basic types *)


Section Extend.
  Variables (p q : prog) (CL : closed p).

  Lemma ext_znth i : 0 <= i < zlen p -> znth (p ++ q) i = znth p i.
  Proof using. intros B. rewrite znth_app. destruct (Z.ltb_spec i (zlen p)); [auto | lia]. Qed.

  Lemma ext_category i : 0 <= i < zlen p -> category_of (p ++ q) i = category_of p i.
  Proof using. intros B. unfold category_of. rewrite ext_znth; auto. Qed.
  Lemma ext_methods i : 0 <= i < zlen p -> methods_of (p ++ q) i = methods_of p i.
  Proof using. intros B. unfold methods_of. rewrite ext_znth; auto. Qed.
  Lemma ext_name i : 0 <= i < zlen p -> name_of (p ++ q) i = name_of p i.
  Proof using. intros B. unfold name_of. rewrite ext_znth; auto. Qed.
  Lemma ext_parent_name i : 0 <= i < zlen p -> parent_name_of (p ++ q) i = parent_name_of p i.
  Proof using. intros B. unfold parent_name_of. rewrite ext_znth; auto. Qed.

  Lemma find_from_ext l r : forall i n, (exists b, In b l /\ bt_name b = n) ->
    find_from (l ++ r) i n = find_from l i n /\
    exists j, find_from l i n = Some j /\ i <= j < i + zlen l.
  Proof using.
    clear CL. induction l as [| b l IH]; intros i n (b' & I & N); [destruct I |].
    cbn [app find_from]. rewrite zlen_cons. pose proof (zlen_nonneg l).
    unfold name_eqb. destruct (list_eq_dec Z.eq_dec (bt_name b) n) as [E | E].
    - split; auto. exists i. split; auto. lia.
    - destruct (IH (i + 1) n) as (E1 & j & E2 & B).
      + destruct I as [-> | I]; [congruence |]. exists b'. auto.
      + rewrite E1. split; auto. exists j. split; auto. lia.
  Qed.

  Lemma parent_name_closed i n : parent_name_of p i = Some n -> exists b, In b p /\ bt_name b = n.
  Proof using CL q.
    unfold parent_name_of. destruct (znth p i) as [b |] eqn:E; [| discriminate]. intros N.
    apply znth_In in E. destruct (CL b E) as (P & _). apply P; auto.
  Qed.

  Lemma ext_find i n : parent_name_of p i = Some n ->
    find_basic_type (p ++ q) n = find_basic_type p n /\ exists j, find_basic_type p n = Some j /\ 0 <= j < zlen p.
  Proof using CL q.
    intros N. apply parent_name_closed in N. unfold find_basic_type.
    destruct (find_from_ext p q 0 n N) as (E & j & F & B). split; auto. exists j. split; auto; lia.
  Qed.

  Lemma ext_parent i : 0 <= i < zlen p -> parent_of (p ++ q) i = parent_of p i.
  Proof using CL q.
    intros B. unfold parent_of. rewrite ext_parent_name by auto.
    destruct (parent_name_of p i) as [n |] eqn:E; auto. apply (ext_find i); auto.
  Qed.
  Lemma parent_in i j : parent_of p i = Some j -> 0 <= j < zlen p.
  Proof using CL q.
    unfold parent_of. destruct (parent_name_of p i) as [n |] eqn:E; [| discriminate].
    destruct (ext_find i n E) as (_ & k & F & B). intros Q. congruence.
  Qed.

  Lemma ext_super_walk w : forall dn i, super_walk (p ++ q) w dn (parent_name_of p i) =
    super_walk p w dn (parent_name_of p i).
  Proof using CL q.
    induction w as [| w IH]; intros dn i; auto. cbn [super_walk].
    destruct (parent_name_of p i) as [n |] eqn:E; auto. destruct (name_eqb dn n); auto.
    destruct (ext_find i n E) as (-> & j & F & B). rewrite F, ext_parent_name by auto. apply IH.
  Qed.

  Lemma ext_class i : 0 <= i < zlen p -> bt_is_class (p ++ q) i = bt_is_class p i.
  Proof using. intros B. unfold bt_is_class. rewrite ext_category; auto. Qed.
  Lemma ext_interface i : 0 <= i < zlen p -> bt_is_interface (p ++ q) i = bt_is_interface p i.
  Proof using. intros B. unfold bt_is_interface. rewrite ext_category; auto. Qed.
  Lemma ext_mulnum i : 0 <= i < zlen p -> bt_is_mulnum (p ++ q) i = bt_is_mulnum p i.
  Proof using. intros B. unfold bt_is_mulnum. rewrite ext_category; auto. Qed.

  Lemma ext_super w i j : 0 <= i < zlen p -> 0 <= j < zlen p ->
    is_super_class (p ++ q) w i j = is_super_class p w i j.
  Proof using CL q.
    intros I J. unfold is_super_class. rewrite !ext_class, ext_name, ext_parent_name by auto.
    rewrite ext_super_walk. reflexivity.
  Qed.

  Lemma ext_search w : forall id name, (forall i, id = Some i -> 0 <= i < zlen p) ->
    search_method (p ++ q) w id name = search_method p w id name /\
    forall i m, search_method p w id name = Ret (Some (i, m)) -> exists c, In m (methods_of p c).
  Proof using CL q.
    induction w as [| w IH]; intros id name B; [split; auto; discriminate |]. cbn [search_method].
    destruct id as [i |]; [| split; auto; discriminate].
    specialize (B i eq_refl). unfold own_method. rewrite ext_methods by auto.
    destruct (find _ (methods_of p i)) as [m |] eqn:E.
    - split; auto. intros i' m' Q. injection Q as <- <-. apply find_some in E. exists i. tauto.
    - rewrite ext_parent by auto. apply IH. intros j. apply parent_in.
  Qed.

  Lemma method_sig c m : In m (methods_of p c) -> Forall (type_in p) (m_return m :: m_args m).
  Proof using CL q.
    unfold methods_of. destruct (znth p c) as [b |] eqn:E; [| intros []]. apply znth_In in E.
    destruct (CL b E) as (_ & H). apply H.
  Qed.

  Section Assign.
    Variables (w : nat) (hi hi' : Z -> Z -> outcome bool).
    Variable (HI : forall i j, 0 <= i < zlen p -> 0 <= j < zlen p -> hi' i j = hi i j).

    Lemma ext_t t : type_in p t ->
      is_mulnum (p ++ q) t = is_mulnum p t /\ is_class (p ++ q) t = is_class p t /\
      is_interface (p ++ q) t = is_interface p t /\ is_object (p ++ q) t = is_object p t /\
      is_mulnum_array (p ++ q) t = is_mulnum_array p t /\ is_class_array (p ++ q) t = is_class_array p t /\
      is_interface_array (p ++ q) t = is_interface_array p t /\ is_object_array (p ++ q) t = is_object_array p t.
    Proof using.
      clear. unfold type_in. intros T.
      assert (O : forall n, is_object (p ++ q) (Ty (t_id t) n (t_flag t)) = is_object p (Ty (t_id t) n (t_flag t))).
      { intros n. unfold is_object, is_basic_object, is_class, is_interface. cbn [t_id].
        rewrite ext_class, ext_interface by auto. reflexivity. }
      unfold is_mulnum, is_class, is_interface, is_mulnum_array, is_class_array, is_interface_array.
      rewrite ext_class, ext_interface, ext_mulnum by auto. repeat (split; [reflexivity |]).
      split; [destruct t; apply (O t_dim) |]. repeat (split; [reflexivity |]).
      unfold is_object_array. rewrite O. reflexivity.
    Qed.

    Lemma ext_assign narrow im d s : type_in p d -> type_in p s ->
      satisfy_assignment (p ++ q) w hi' narrow im d s = satisfy_assignment p w hi narrow im d s.
    Proof using CL HI q.
      intros D S. destruct (ext_t d D) as (D1 & D2 & D3 & D4 & D5 & D6 & D7 & D8).
      destruct (ext_t s S) as (S1 & S2 & S3 & S4 & S5 & S6 & S7 & S8).
      unfold type_in in *.
      pose proof (ext_super w (t_id d) (t_id s) D S) as X. pose proof (HI (t_id s) (t_id d) S D) as Y.
      pose proof (ext_interface _ D) as Z1. pose proof (ext_interface _ S) as Z2. pose proof (ext_class _ S) as Z3.
      unfold satisfy_assignment. rewrite D1, D2, D3, D5, D6, D7, S1, S2, S3, S4, S5, S6, S7, S8, X, Y, Z1, Z2, Z3.
      reflexivity.
    Qed.

    Lemma ext_noconv im d s : type_in p d -> type_in p s ->
      assign_noconv (p ++ q) w hi' im d s = assign_noconv p w hi im d s.
    Proof using CL HI q. intros D S. unfold assign_noconv. rewrite ext_assign; auto. Qed.

    Lemma ext_args da : forall sa, Forall (type_in p) da -> Forall (type_in p) sa ->
      args_match (p ++ q) w hi' da sa = args_match p w hi da sa.
    Proof using CL HI q.
      induction da as [| d da IH]; intros [| s sa] D S; [reflexivity | reflexivity | reflexivity |].
      inversion D; inversion S; subst.
      cbn [args_match]. rewrite ext_noconv by auto. rewrite IH by auto. reflexivity.
    Qed.

    Lemma ext_satisfy_method d s : Forall (type_in p) (m_return d :: m_args d) ->
      Forall (type_in p) (m_return s :: m_args s) ->
      satisfy_method (p ++ q) w hi' d s = satisfy_method p w hi d s.
    Proof using CL HI q.
      intros D S. inversion D; inversion S; subst. unfold satisfy_method.
      rewrite ext_args, ext_noconv; [reflexivity | auto | auto | |].
      - destruct (m_args d); [constructor |]. cbn. inversion H2; auto.
      - destruct (m_args s); [constructor |]. cbn. inversion H6; auto.
    Qed.

    Lemma ext_methods_match src ms : 0 <= src < zlen p ->
      (forall m, In m ms -> Forall (type_in p) (m_return m :: m_args m)) ->
      methods_match (p ++ q) w hi' src ms = methods_match p w hi src ms.
    Proof using CL HI q.
      intros B. induction ms as [| m ms IH]; intros M; [reflexivity |]. cbn [methods_match].
      rewrite IH by (intros; apply M; right; auto).
      destruct (ext_search w (Some src) (m_name m)) as (E & F); [intros i Q; congruence |]. rewrite E.
      destruct (search_method p w (Some src) (m_name m)) as [[[i sm] |] | | |];
        cbn [obind]; [| reflexivity | reflexivity | reflexivity | reflexivity].
      destruct (F i sm eq_refl) as (c & I). rewrite ext_satisfy_method; [reflexivity | |].
      - apply M. left. auto.
      - eapply method_sig; eauto.
    Qed.

    Lemma ext_has_common i j : 0 <= i < zlen p -> 0 <= j < zlen p ->
      has_interface_common (p ++ q) w hi' i j = has_interface_common p w hi i j.
    Proof using CL HI q.
      intros I J. unfold has_interface_common. rewrite !ext_class, !ext_interface, ext_methods by auto.
      rewrite ext_methods_match; [reflexivity | auto |]. intros m. apply method_sig.
    Qed.
  End Assign.

  Lemma ext_has_interface w f : forall i j, 0 <= i < zlen p -> 0 <= j < zlen p ->
    has_interface (p ++ q) w f i j = has_interface p w f i j.
  Proof using CL q.
    induction f as [| f IH]; intros i j I J; [reflexivity |]. cbn [has_interface]. unfold has_interface_step.
    rewrite ext_interface by auto. rewrite (ext_has_common w (has_interface p w f)); [reflexivity | auto | auto | auto].
  Qed.

  Lemma ext_can_assign w f d s : type_in p d -> type_in p s ->
    can_assign_types (p ++ q) w f d s = can_assign_types p w f d s.
  Proof using CL q.
    intros D S. unfold can_assign_types. 
    apply (ext_noconv w (has_interface p w f) (has_interface (p ++ q) w f)); [| exact D | exact S].
    intros i j I J. apply (ext_has_interface w f i j I J).
  Qed.
End Extend.

(** ** The invariant of the cache *)

Lemma ext_compute p r w f q : closed p -> query_in p q -> compute (p ++ r) w f q = compute p w f q.
Proof. intros C (_ & D & S). unfold compute. apply (ext_can_assign p r C w f); [exact D | exact S]. Qed.
Lemma ext_query p r q : query_in p q -> query_in (p ++ r) q.
Proof.
  intros (Q & D & S). unfold query_in, type_in in *. rewrite zlen_app. pose proof (zlen_nonneg r).
  repeat split; try apply Q; lia.
Qed.

(** Each entry holds the answer of the computation. *)
Definition cache_ok (p : prog) (w f : nat) (h : nhash) : Prop :=
  forall q, query_in p q -> nlookup h (assinability_key q) <> 0 ->
    (nlookup h (assinability_key q) = 1 /\ compute p w f q = Ret true) \/
    (nlookup h (assinability_key q) = -1 /\ compute p w f q = Ret false).

(** Only keys of queries about existing types are stored. *)
Definition cache_keys (p : prog) (h : nhash) : Prop :=
  forall q, query_int32 q -> nlookup h (assinability_key q) <> 0 -> query_in p q.

Definition pc_ok (p : prog) (w f : nat) (t : thread) : Prop :=
  match th_pc t, th_todo t with
  | Idle, _ => True
  | Looked r, q :: _ =>
      r = 0 \/ (r = 1 /\ compute p w f q = Ret true) \/ (r = -1 /\ compute p w f q = Ret false)
  | Computed b, q :: _ => compute p w f q = Ret b
  | _, [] => False
  end.

Definition todo_ok (p : prog) (w f : nat) (t : thread) : Prop :=
  Forall (fun q => query_in p q /\ exists b, compute p w f q = Ret b) (th_todo t).

(** The first calls have been answered, with the answers of the computation. *)
Definition answered (p : prog) (w f : nat) (t : thread) (asked : list query) : Prop :=
  exists done, asked = done ++ th_todo t /\ map Ret (th_answers t) = map (compute p w f) done.

Lemma answered_next p w f q rest pc ans b pc' asked :
  answered p w f {| th_todo := q :: rest; th_pc := pc; th_answers := ans |} asked -> compute p w f q = Ret b ->
  answered p w f {| th_todo := rest; th_pc := pc'; th_answers := ans ++ [b] |} asked.
Proof.
  intros (done & -> & M) E. exists (done ++ [q]). cbn [th_todo th_answers] in *. rewrite <- app_assoc. split; auto.
  rewrite !map_app. cbn [map]. rewrite M, E. reflexivity.
Qed.

(** How far the thread is from finishing its calls. *)
Definition left_steps (t : thread) : Z :=
  3 * zlen (th_todo t) - match th_pc t with Idle => 0 | Looked _ => 1 | Computed _ => 2 end.

Lemma thread_step_ok p w f h t asked : nh_inv h -> nh_keys_length h <= 536870912 ->
  cache_ok p w f h -> cache_keys p h -> pc_ok p w f t -> todo_ok p w f t ->
  answered p w f t asked ->
  exists h' t', thread_step p w f h t = Ret (h', t') /\ nh_inv h' /\
    nh_keys_length h' + zlen (th_todo t') <= nh_keys_length h + zlen (th_todo t) /\
    cache_ok p w f h' /\ cache_keys p h' /\ pc_ok p w f t' /\ todo_ok p w f t' /\
    answered p w f t' asked /\ (th_todo t = [] \/ left_steps t' < left_steps t).
Proof.
  intros I K CO CK PC TO AN. unfold thread_step.
  unfold pc_ok, todo_ok in *. destruct t as [todo pc ans]. cbn [th_todo th_pc th_answers] in *.
  destruct todo as [| q rest].
  - exists h. eexists. split; [reflexivity |]. cbn [th_todo th_pc th_answers].
    split; [exact I |]. split; [lia |]. split; [exact CO |]. split; [exact CK |]. split; [exact PC |]. split; [exact TO |].
    split; [exact AN | left; reflexivity].
  - inversion TO as [| ? ? (QI & b & QB) TR]; subst. pose proof (zlen_nonneg rest) as P.
    unfold left_steps. cbn [th_todo th_pc th_answers].
    rewrite zlen_cons. destruct pc as [| r | isa].
    + rewrite (get_spec _ _ I). cbn [obind]. eexists _, _. split; [reflexivity |]. cbn [th_todo th_pc th_answers].
      rewrite zlen_cons. split; [exact I |]. split; [lia |]. split; [exact CO |]. split; [exact CK |].
      split; [| split; [exact TO | split; [exact AN | right; lia]]].
      destruct (Z.eq_dec (nlookup h (assinability_key q)) 0) as [Z0 | N]; [left; exact Z0 | right; exact (CO q QI N)].
    + rewrite Z.gtb_ltb. destruct PC as [-> | [(-> & E) | (-> & E)]].
      * cbn [Z.ltb Z.compare]. rewrite QB. cbn [obind]. eexists _, _. split; [reflexivity |].
        cbn [th_todo th_pc th_answers]. rewrite zlen_cons.
        split; [exact I |]. split; [lia |]. split; [exact CO |]. split; [exact CK |].
        split; [exact QB |]. split; [exact TO |]. split; [exact AN | right; lia].
      * cbn [Z.ltb Z.compare]. eexists _, _. split; [reflexivity |]. cbn [th_todo th_pc th_answers].
        split; [exact I |]. split; [lia |]. split; [exact CO |]. split; [exact CK |].
        split; [exact Logic.I |]. split; [exact TR |]. split; [eapply answered_next; eassumption | right; lia].
      * cbn [Z.ltb Z.compare]. eexists _, _. split; [reflexivity |]. cbn [th_todo th_pc th_answers].
        split; [exact I |]. split; [lia |]. split; [exact CO |]. split; [exact CK |].
        split; [exact Logic.I |]. split; [exact TR |]. split; [eapply answered_next; eassumption | right; lia].
    + destruct (set_spec h (assinability_key q) (if isa then 1 else -1) I K) as (h' & E & I' & K' & L').
      rewrite E. cbn [obind]. eexists _, _. split; [reflexivity |]. cbn [th_todo th_pc th_answers].
      split; [exact I' |]. split; [lia |]. split; [| split; [| split; [exact Logic.I | split; [exact TR |]]]].
      * intros q' Q' N. rewrite L' in *. destruct (key_dec (assinability_key q) (assinability_key q')) as [S | S].
        -- apply key_inj in S; [| apply QI | apply Q']. subst q'. destruct isa; auto.
        -- apply CO; auto.
      * intros q' Q' N. rewrite L' in *. destruct (key_dec (assinability_key q) (assinability_key q')) as [S | S].
        -- apply key_inj in S; [| apply QI | apply Q']. subst q'. auto.
        -- apply CK; auto.
      * split; [eapply answered_next; eassumption | right; lia].
Qed.

(** The sum over the threads of the calls not yet finished. *)
Definition pending (ts : list thread) : Z := fold_right (fun t n => zlen (th_todo t) + n) 0 ts.

Lemma pending_nonneg ts : 0 <= pending ts.
Proof. induction ts as [| t ts IH]; cbn; [lia |]. pose proof (zlen_nonneg (th_todo t)). unfold pending in IH. lia. Qed.
Lemma pending_app a b : pending (a ++ b) = pending a + pending b.
Proof. induction a as [| t a IH]; cbn [app pending fold_right]; [reflexivity |]. fold (pending (a ++ b)) (pending a). lia. Qed.

Lemma upd_split {A} (l : list A) i x : znth l i = Some x ->
  exists a b, l = a ++ x :: b /\ forall y, zupd l i y = a ++ y :: b.
Proof.
  intros E. pose proof (znth_Some _ _ _ E) as B. exists (ztake i l), (zdrop (i + 1) l). split.
  - rewrite <- (firstn_skipn (Z.to_nat i) l) at 1. unfold ztake, zdrop. f_equal.
    replace (Z.to_nat (i + 1)) with (S (Z.to_nat i)) by lia.
    unfold znth in E. destruct (Z.ltb_spec i 0); [lia |]. clear B H. revert l E.
    induction (Z.to_nat i) as [| n IH]; intros [| a l] E; try discriminate; cbn in *; [congruence |]. apply IH; auto.
  - intros y. unfold zupd. destruct (Z.leb_spec 0 i); [| lia]. destruct (Z.ltb_spec i (zlen l)); [| lia]. reflexivity.
Qed.

Lemma pending_upd ts i t t' : znth ts i = Some t ->
  pending (zupd ts i t') = pending ts - zlen (th_todo t) + zlen (th_todo t').
Proof.
  intros E. destruct (upd_split _ _ _ E) as (a & b & -> & U). rewrite U, !pending_app.
  cbn [pending fold_right]. fold (pending b). lia.
Qed.

(** ** All threads *)

Definition thread_ok (p : prog) (w f : nat) (t : thread) (asked : list query) : Prop :=
  pc_ok p w f t /\ todo_ok p w f t /\ answered p w f t asked.

Definition cache_inv (w f : nat) (s : state) (asked : Z -> list query) : Prop :=
  closed (s_prog s) /\ nh_inv (s_cache s) /\ cache_ok (s_prog s) w f (s_cache s) /\
  cache_keys (s_prog s) (s_cache s) /\
  forall i t, znth (s_threads s) i = Some t ->
    thread_ok (s_prog s) w f t (asked i) /\
    Forall (query_in (s_prog s)) (asked i).

Definition cost (s : state) : Z := nh_keys_length (s_cache s) + pending (s_threads s).

Lemma map_ext_compute p r w f qs : closed p -> Forall (query_in p) qs ->
  map (compute (p ++ r) w f) qs = map (compute p w f) qs.
Proof.
  intros C F. induction F as [| q qs Q F IH]; cbn [map]; [reflexivity |].
  rewrite IH, (ext_compute _ _ _ _ _ C Q). reflexivity.
Qed.

Lemma thread_ok_ext p r w f t asked : closed p -> Forall (query_in p) asked ->
  thread_ok p w f t asked -> thread_ok (p ++ r) w f t asked.
Proof.
  intros C F (PC & TO & T). unfold thread_ok. split; [| split].
  - unfold pc_ok in *. destruct (th_pc t); destruct (th_todo t) as [| q rest] eqn:E;
      [exact Logic.I | exact Logic.I | destruct PC | | destruct PC |];
      unfold todo_ok in TO; rewrite E in TO; inversion TO as [| ? ? (QI & _) _]; subst;
      rewrite (ext_compute p r w f q C QI); exact PC.
  - unfold todo_ok in *. rewrite Forall_forall in *. intros q I. destruct (TO q I) as (QI & b & E).
    split; [apply ext_query; auto |]. exists b. rewrite (ext_compute p r w f q C QI). exact E.
  - destruct T as (done & -> & M). exists done. split; [reflexivity |]. apply Forall_app in F.
    rewrite map_ext_compute; [exact M | exact C | apply F].
Qed.

(** The events that make sense in a state. *)
Definition event_ok (w f : nat) (s : state) (e : event) : Prop :=
  match e with
  | EAsk i q => query_in (s_prog s) q /\ exists b, compute (s_prog s) w f q = Ret b
  | EStep i => True
  | ECompile r => closed (s_prog s ++ r)
  end.

Definition add_asked (asked : Z -> list query) (e : event) : Z -> list query :=
  match e with
  | EAsk i q => fun j => if j =? i then asked j ++ [q] else asked j
  | _ => asked
  end.

Definition is_ask (e : event) : Z := match e with EAsk _ _ => 1 | _ => 0 end.

Lemma step_inv w f s asked e : cache_inv w f s asked -> event_ok w f s e -> cost s <= 536870912 ->
  exists s', step w f s e = Ret s' /\ cache_inv w f s' (add_asked asked e) /\ cost s' <= cost s + is_ask e /\
    zlen (s_threads s') = zlen (s_threads s).
Proof.
  intros (CL & I & CO & CK & TH) OK B. destruct e as [i q | i | r]; cbn [step add_asked is_ask].
  - destruct (znth (s_threads s) i) as [t |] eqn:E.
    + eexists. split; [reflexivity |]. split; [| split].
      * unfold cache_inv. cbn [s_prog s_cache s_threads]. repeat (split; [assumption |]).
        intros j t' E'. rewrite znth_upd in E'. pose proof (znth_Some _ _ _ E) as BI.
        destruct (TH i t E) as ((PC & TO & T) & F). destruct OK as (QI & b & QB).
        destruct (Z.eqb_spec j i) as [-> | N].
        -- replace (true && (0 <=? i) && (i <? zlen (s_threads s))) with true in E' by lia.
           injection E' as <-. unfold thread_ok. cbn [th_pc th_todo th_answers]. split; [split; [| split] |].
           ++ unfold pc_ok in *. cbn [th_pc th_todo]. destruct (th_pc t), (th_todo t); auto; destruct PC.
           ++ unfold todo_ok in *. cbn [th_todo]. apply Forall_app. split; auto. constructor; eauto.
           ++ destruct T as (done & -> & M). exists done. cbn [th_todo th_answers]. rewrite app_assoc. auto.
           ++ apply Forall_app. split; auto.
        -- cbn [andb] in E'. exact (TH j _ E').
      * unfold cost. cbn [s_cache s_threads]. rewrite (pending_upd _ _ _ _ E). cbn [th_todo]. rewrite zlen_app.
        change (zlen [q]) with 1. lia.
      * cbn [s_threads]. apply zlen_upd.
    + eexists. split; [reflexivity |]. split; [| split]; [| lia | reflexivity].
      unfold cache_inv. repeat (split; [assumption |]). intros j t' E'.
      destruct (Z.eqb_spec j i) as [-> | N]; [congruence | auto].
  - destruct (znth (s_threads s) i) as [t |] eqn:E.
    + destruct (TH i t E) as ((PC & TO & T) & F).
      pose proof (pending_nonneg (s_threads s)).
      destruct (thread_step_ok (s_prog s) w f (s_cache s) t (asked i) I) as (h' & t' & ES & I' & K' & CO' & CK' & PC' & TO' & T' & _);
        auto; [unfold cost in B; lia |].
      rewrite ES. cbn [obind]. eexists. split; [reflexivity |]. split; [| split].
      * unfold cache_inv. cbn [s_prog s_cache s_threads]. repeat (split; [assumption |]).
        intros j t2 E'. rewrite znth_upd in E'. pose proof (znth_Some _ _ _ E) as BI.
        destruct (Z.eqb_spec j i) as [-> | N].
        -- replace (true && (0 <=? i) && (i <? zlen (s_threads s))) with true in E' by lia.
           injection E' as <-. split; auto. split; auto.
        -- cbn [andb] in E'. exact (TH j _ E').
      * unfold cost. cbn [s_cache s_threads]. rewrite (pending_upd _ _ _ _ E). lia.
      * cbn [s_threads]. apply zlen_upd.
    + eexists. split; [reflexivity |]. split; [| split]; [| lia | reflexivity].
      unfold cache_inv. repeat (split; [assumption |]). auto.
  - eexists. split; [reflexivity |]. split; [| split].
    + unfold cache_inv. cbn [s_prog s_cache s_threads]. split; [exact OK |]. split; [exact I |].
      split; [| split].
      * intros q QI N. pose proof (CK q (proj1 QI) N) as Q. rewrite (ext_compute _ _ _ _ _ CL Q). apply CO; auto.
      * intros q QI N. apply ext_query. auto.
      * intros i t E. destruct (TH i t E) as (T & F). split; [apply thread_ok_ext; auto |].
        eapply Forall_impl; [| exact F]. intros q. apply ext_query.
    + unfold cost. cbn [s_cache s_threads]. lia.
    + reflexivity.
Qed.

Lemma compute_uncached p w f q : no_flags q -> compute p w f q = uncached p w f q.
Proof.
  destruct q as [[a b c] [d e g]]. unfold no_flags, compute, uncached. cbn [q_dist q_src t_id t_dim t_flag].
  intros (-> & ->). reflexivity.
Qed.

Lemma legal_event w f s e es : legal w f (s_prog s) (e :: es) -> event_ok w f s e.
Proof.
  destruct e as [i q | i | r]; cbn [legal event_ok]; [| auto | tauto].
  intros ((Q & N & b & E) & _). split; [exact Q |]. exists b. rewrite compute_uncached; auto.
Qed.
Lemma legal_rest w f s e es s' : legal w f (s_prog s) (e :: es) -> step w f s e = Ret s' ->
  legal w f (s_prog s') es /\ final (s_prog s') es = final (s_prog s) (e :: es).
Proof.
  destruct e as [i q | i | r]; cbn [legal step final].
  - intros (_ & L) E. destruct (znth (s_threads s) i); injection E as <-; auto.
  - intros L E. destruct (znth (s_threads s) i) as [t |]; [| injection E as <-; auto].
    destruct (thread_step (s_prog s) w f (s_cache s) t) as [[h t'] | | |]; try discriminate.
    cbn [obind] in E. injection E as <-. auto.
  - intros (_ & L) E. injection E as <-. auto.
Qed.

Lemma run_inv w f : forall es s asked, cache_inv w f s asked ->
  legal w f (s_prog s) es -> cost s + zlen es <= 536870912 ->
  exists s', run w f s es = Ret s' /\ cache_inv w f s' (fold_left add_asked es asked) /\
    zlen (s_threads s') = zlen (s_threads s) /\ s_prog s' = final (s_prog s) es /\ cost s' <= cost s + zlen es.
Proof.
  induction es as [| e es IH]; intros s asked I OK B; cbn [run fold_left].
  - exists s. change (zlen (@nil event)) with 0. split; auto. split; auto. split; auto. split; [auto | lia].
  - rewrite zlen_cons in *. pose proof (zlen_nonneg es).
    destruct (step_inv w f s asked e I) as (s1 & E & I1 & C1 & L1).
    + eapply legal_event; eauto.
    + lia.
    + destruct (legal_rest _ _ _ _ _ _ OK E) as (OK' & FI).
      rewrite E. cbn [obind]. destruct (IH s1 (add_asked asked e) I1) as (s' & E' & I' & L' & F' & B').
      * exact OK'.
      * unfold is_ask in C1. destruct e; lia.
      * exists s'. split; auto. split; auto. split; [congruence |]. split; [congruence |].
        unfold is_ask in C1. destruct e; lia.
Qed.

Lemma asked_calls i : forall es asked, fold_left add_asked es asked i = asked i ++ calls_of i es.
Proof.
  induction es as [| e es IH]; intros asked; cbn [fold_left calls_of]; [rewrite app_nil_r; auto |].
  rewrite IH. destruct e as [j q | j | r]; cbn [add_asked]; auto.
  destruct (i =? j); [rewrite <- app_assoc |]; reflexivity.
Qed.

Lemma start_inv w f p n : closed p -> 0 <= n ->
  exists s, start p n = Ret s /\ cache_inv w f s (fun _ => []) /\ cost s = 0 /\ s_prog s = p /\
    zlen (s_threads s) = n.
Proof.
  intros C N. unfold start. destruct (new_spec 0 ltac:(lia)) as (h & E & I & K & L).
  rewrite E. cbn [obind]. eexists. split; [reflexivity |]. split; [| split; [| split]].
  - unfold cache_inv. cbn [s_prog s_cache s_threads]. split; [exact C |]. split; [exact I |].
    split; [intros q _ Q; rewrite L in Q; congruence |].
    split; [intros q _ Q; rewrite L in Q; congruence |].
    intros i t T. rewrite znth_rep in T. destruct (_ && _) in T; [| discriminate]. injection T as <-.
    split; [| constructor]. split; [exact Logic.I |]. split; [constructor |]. exists []. auto.
  - unfold cost. cbn [s_cache s_threads]. rewrite K. unfold zrep. clear.
    induction (Z.to_nat n) as [| k IH]; cbn [repeat pending fold_right]; [reflexivity |].
    fold (pending (repeat {| th_todo := []; th_pc := Idle; th_answers := [] |} k)).
    cbn [th_todo]. change (zlen (@nil query)) with 0. lia.
  - reflexivity.
  - cbn [s_threads]. rewrite zlen_rep. lia.
Qed.

Lemma run_app w f : forall es1 es2 s, run w f s (es1 ++ es2) = let! s1 := run w f s es1 in run w f s1 es2.
Proof.
  induction es1 as [| e es1 IH]; intros es2 s; cbn [app run obind]; auto.
  destruct (step w f s e); cbn [obind]; auto.
Qed.

Lemma steps_finish w f i : forall k s asked t, cache_inv w f s asked -> cost s <= 536870912 ->
  znth (s_threads s) i = Some t -> left_steps t <= Z.of_nat k ->
  exists s' t', run w f s (repeat (EStep i) k) = Ret s' /\ znth (s_threads s') i = Some t' /\ th_todo t' = [].
Proof.
  induction k as [| k IH]; intros s asked t I C T L.
  - exists s, t. split; [reflexivity |]. split; [exact T |].
    destruct I as (_ & _ & _ & _ & TH). destruct (TH i t T) as ((PC & _) & _).
    unfold left_steps in L. unfold pc_ok in PC. pose proof (zlen_nonneg (th_todo t)).
    destruct (th_todo t) as [| q r] eqn:E; [reflexivity |]. exfalso. rewrite zlen_cons in *.
    pose proof (zlen_nonneg r). destruct (th_pc t); lia.
  - cbn [repeat run]. pose proof I as (CL & NI & CO & CK & TH). destruct (TH i t T) as ((PC & TO & AN) & F).
    pose proof (pending_nonneg (s_threads s)).
    destruct (thread_step_ok (s_prog s) w f (s_cache s) t (asked i) NI) as (h' & t' & ES & _ & K' & _ & _ & PC' & _ & _ & D);
      auto; [unfold cost in C; lia |].
    destruct (step_inv w f s asked (EStep i) I Logic.I C) as (s1 & E1 & I1 & C1 & _).
    assert (T1 : znth (s_threads s1) i = Some t').
    { cbn [step] in E1. rewrite T, ES in E1. cbn [obind] in E1. injection E1 as <-. cbn [s_threads].
      pose proof (znth_Some _ _ _ T). rewrite znth_upd.
      replace ((i =? i) && (0 <=? i) && (i <? zlen (s_threads s))) with true by lia. reflexivity. }
    rewrite E1. cbn [obind]. cbn [add_asked is_ask] in *.
    apply (IH s1 asked t' I1); [lia | exact T1 |].
    destruct D as [D | D]; [| lia].
    unfold thread_step in ES. rewrite D in ES. injection ES as <- <-. unfold left_steps. rewrite D.
    change (zlen (@nil query)) with 0. destruct (th_pc t); lia.
Qed.
