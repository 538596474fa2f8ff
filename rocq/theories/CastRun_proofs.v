(** * Proofs about the execution of casts *)

From Verif Require Import Base CLib VmConv_model Type_model Type_spec Type_proofs TypeIface_proofs Type_props
  Cast_model Cast_spec CastSelect_proofs Cast_proofs.

Section Cast.
  Variable p : prog.
  Hypothesis OK : program_ok p.
  Variables w f : nat.

  Lemma object_not_number t : object_type p t -> forall id, 3 <= id <= 8 -> t = Ty id 0 0 -> False.
  Proof using OK.
    intros (T & _ & H) id B ->. cbn [t_id t_dim] in *. unfold ID_STRING, ID_ANY_OBJECT in *.
    destruct T as (BT & _). cbn in BT. pose proof (cat_ids p OK id BT) as CI.
    rewrite !is_category_of in H by auto.
    destruct H as [H | [H | [H | [H | H]]]]; try lia; rewrite H in CI; lia.
  Qed.
  Lemma object_not_other t : object_type p t -> t_dim t = 0 ->
    t_flag t = FLAG_REF \/ (t_flag t = 0 /\ is_category p (t_id t) CMulnum) -> False.
  Proof using OK.
    intros (T & R & H) D [F | (F & M)]; [auto |].
    destruct T as (BT & _). pose proof (cat_ids p OK (t_id t) BT) as CI.
    rewrite !is_category_of in * by auto. rewrite M in *. unfold ID_STRING, ID_ANY_OBJECT in *.
    destruct H as [H | [H | [H | [H | H]]]]; try lia; discriminate.
  Qed.

  Lemma undef_not_object : object_type p (Ty ID_UNDEF 0 0) -> False.
  Proof using OK.
    intros (T & _ & H). cbn [t_id t_dim] in *. unfold ID_UNDEF, ID_STRING, ID_ANY_OBJECT in *.
    destruct T as (BT & _). cbn in BT. pose proof (cat_ids p OK 1 BT) as CI.
    rewrite !is_category_of in H by auto.
    destruct H as [H | [H | [H | [H | H]]]]; try lia; rewrite H in CI; lia.
  Qed.

  (** A value of an object type is undef or an object. *)
  Lemma has_object_type t x : object_type p t -> has_type p w f t x ->
    x = VUndef \/ exists o, x = VObj o /\ dynamic_type p (o_dyn o) /\
      isa p w f (o_dyn o) (t_id t) (t_dim t) = Ret true /\ (t_flag t = FLAG_MUTABLE -> o_ro o = false).
  Proof using OK.
    intros OT. destruct x as [id n | u | | o]; cbn [has_type]; intros H; auto.
    - exfalso. destruct H as (E & B). eapply object_not_number; eauto.
    - exfalso. destruct H as (-> & D & F). eapply object_not_other; eauto.
    - right. exists o. tauto.
  Qed.
  Lemma has_number_type t x : t_dim t = 0 -> t_flag t = 0 -> 3 <= t_id t <= 8 -> has_type p w f t x ->
    exists n, x = VNum (t_id t) n.
  Proof using OK.
    intros D F B. assert (NO : ~ object_type p t).
    { intros H. eapply (object_not_number t H (t_id t)); auto. apply ty_eq; auto. }
    destruct x as [id n | u | | o]; cbn [has_type]; intros H.
    - destruct H as (-> & _). eauto.
    - exfalso. destruct H as (<- & _ & [E | (_ & E)]); unfold FLAG_REF in *; [lia |].
      pose proof E as (b & E1 & _). apply znth_Some in E1.
      pose proof (cat_ids p OK (t_id t) E1) as CI. apply is_category_of in E; auto. rewrite E in CI. lia.
    - exfalso. destruct H as [H | ->]; auto. cbn in B. unfold ID_UNDEF in B. lia.
    - exfalso. apply NO, H.
  Qed.

  Lemma dyn_string : dynamic_type p (ID_STRING, 0).
  Proof using OK. pose proof (po_length _ OK). unfold dynamic_type, ID_STRING. cbn. split; [lia | left; auto]. Qed.
  Lemma dyn_bytes : dynamic_type p (ID_BYTE, 1).
  Proof using OK. pose proof (po_length _ OK). unfold dynamic_type, ID_BYTE. cbn. split; [lia | right; lia]. Qed.
  Lemma dyn_box id : 11 <= id <= 16 -> dynamic_type p (id, 0).
  Proof using OK.
    intros B. pose proof (po_length _ OK). unfold dynamic_type. cbn [fst snd]. split; [lia |]. left. split; auto. right.
    destruct (znth_lt p id ltac:(lia)) as (b & E). exists b. split; auto. eapply po_numeric_objects; eauto.
  Qed.
  Lemma string_no_interface t : object_type p t -> t_id t = ID_STRING \/ t_id t = ID_BYTE \/ t_id t = ID_ANY_OBJECT \/ 11 <= t_id t <= 16 -> no_interface p t.
  Proof using OK.
    intros ((B & _) & _) H. unfold no_interface. rewrite is_category_of by auto.
    pose proof (cat_ids p OK _ B) as CI. intros E. rewrite E in CI. unfold ID_STRING, ID_BYTE, ID_ANY_OBJECT in H. lia.
  Qed.

  Variables (w0 f0 : nat).
  Hypothesis CO : compiles p w0 f0.
  Hypothesis LE : (w0 <= w)%nat.

  (** An instance of a type without sub types has exactly that type. *)
  Lemma isa_exact t o : object_type p t -> dynamic_type p o -> category_of p (t_id t) <> CInterface ->
    category_of p (t_id t) <> CClass -> t_id t <> ID_ANY_OBJECT ->
    isa p w f o (t_id t) (t_dim t) = Ret true -> o = (t_id t, t_dim t).
  Proof using OK CO LE.
    intros OT DO NI NC NA I. pose proof OT as ((B & _) & _).
    destruct (C25_isa_is_instance p w0 f0 w f o t OK CO LE DO OT) as (b & E & S).
    { unfold no_interface. rewrite is_category_of by auto. auto. }
    rewrite I in E. inversion E; subst b. destruct o as [i n]. unfold instance in S.
    destruct S as (S & _). specialize (S eq_refl).
    assert (SOS : n = t_dim t /\ (i = t_id t \/ same_or_sub p i (t_id t))).
    { destruct (Z.eqb_spec (t_dim t) 0) as [Z0 |].
      - destruct (Z.eqb_spec (t_id t) ID_ANY_OBJECT); [contradiction |].
        destruct (_ && _) in S; rewrite Z0; tauto.
      - destruct (Z.eqb_spec (t_id t) ID_ANY_OBJECT); [contradiction |]. rewrite andb_false_r in S. tauto. }
    destruct SOS as (-> & [-> | [-> | (_ & K & _)]]); auto.
    apply is_category_of in K; auto. contradiction.
  Qed.

  Lemma isa_string t o : object_type p t -> dynamic_type p o -> t_id t = ID_STRING -> t_dim t = 0 ->
    isa p w f o (t_id t) (t_dim t) = Ret true -> o = (ID_STRING, 0).
  Proof using OK CO LE.
    intros OT DO I D H. pose proof OT as ((B & _) & _). pose proof (cat_ids p OK _ B) as CI.
    rewrite <- I, <- D. apply isa_exact; auto; try (intros E; rewrite E in CI); unfold ID_STRING, ID_ANY_OBJECT in *; lia.
  Qed.
  Lemma isa_bytes t o : object_type p t -> dynamic_type p o -> t_id t = ID_BYTE -> t_dim t = 1 ->
    isa p w f o (t_id t) (t_dim t) = Ret true -> o = (ID_BYTE, 1).
  Proof using OK CO LE.
    intros OT DO I D H. pose proof OT as ((B & _) & _). pose proof (cat_ids p OK _ B) as CI.
    rewrite <- I, <- D. apply isa_exact; auto; try (intros E; rewrite E in CI); unfold ID_BYTE, ID_ANY_OBJECT in *; lia.
  Qed.

  (** isa of an object whose type is the tested one. *)
  Lemma isa_of t o : object_type p t -> no_interface p t -> dynamic_type p o -> instance p o t ->
    isa p w f o (t_id t) (t_dim t) = Ret true.
  Proof using OK CO LE.
    intros OT NI DO I. destruct (C25_isa_is_instance p w0 f0 w f o t OK CO LE DO OT NI) as (b & -> & S).
    f_equal. tauto.
  Qed.

  Variable num_conv : Z -> Z -> Z -> Z.
  Variable string_num : Z -> option (list Z) -> Z.
  Variable num_string : Z -> Z -> list Z.
  Variable fresh : Z.

  Notation run := (run_cast p w f num_conv string_num num_string fresh).

  (** Assignments from [s] to [d] are sound. *)
  Definition sound (d s : ty) : Prop :=
    object_type p d -> object_type p s -> can_assign_types p w f d s = Ret true ->
    forall o, dynamic_type p o -> isa p w f o (t_id s) (t_dim s) = Ret true ->
      isa p w f o (t_id d) (t_dim d) = Ret true.

  Lemma run_typed d s c x :
    justified p w f d s c -> sound d s -> has_type p w f s x ->
    ~ any_to_mutable d s -> ~ undef_bytes d s x ->
    (no_interface p d -> run c x <> UB /\ run c x <> Fuel) /\ forall y, run c x = Ret y -> has_type p w f d y.
  Proof using OK CO LE.
    intros J SO T NM NU. destruct J as [-> OD | -> OD | -> | D1 D2 F1 F2 B1 B2 | D F B OS | D F B I DS OS
      | OD DD ID DS FS B | I D OD DS FS B | I D OD IS DS OS | I D F OD IS DS OS
      | I D F OD OS DS IS | OD OS CA | OD OS F]; cbn [run_cast].
    - split; [split; discriminate |]. intros y [= <-]. cbn. auto.
    - split; [split; discriminate |]. intros y [= <-].
      destruct x as [id n | u | | o]; cbn [has_type] in T; [| | cbn; auto |].
      + destruct T as (T & B). injection T as T. unfold ID_UNDEF in T. lia.
      + destruct T as (<- & _ & [F | (_ & F)]); [unfold FLAG_REF in F; cbn in F; lia |]. cbn in F.
        pose proof F as (b & E & _). apply znth_Some in E.
        pose proof (cat_ids p OK _ E) as CI. apply is_category_of in F; auto. rewrite F in CI. unfold ID_UNDEF in CI. lia.
      + exfalso. apply undef_not_object, T.
    - split; [split; discriminate |]. intros y [= <-]. auto.
    - destruct (has_number_type s x D2 F2 B2 T) as (n & ->). rewrite Z.eqb_refl.
      split; [split; discriminate |]. intros y [= <-]. cbn. split; auto. apply ty_eq; auto.
    - destruct (has_object_type s x OS T) as [-> | (o & -> & _)]; [split; [split |]; discriminate |].
      destruct (_ && _); (split; [split; discriminate |]); try discriminate. intros y [= <-]. cbn. split; auto. apply ty_eq; auto.
    - destruct (has_object_type s x OS T) as [-> | (o & -> & DO & IA & _)].
      + split; [split; discriminate |]. intros y [= <-]. cbn. split; auto. apply ty_eq; auto.
      + rewrite (isa_string s _ OS DO I DS IA). cbn. split; [split; discriminate |].
        intros y [= <-]. cbn. split; auto. apply ty_eq; auto.
    - destruct (has_number_type s x DS FS B T) as (n & ->). unfold UPGRADE_SHIFT. rewrite Z.eqb_refl.
      split; [split; discriminate |]. intros y [= <-]. cbn [has_type o_dyn o_ro].
      assert (N : no_interface p d) by (apply string_no_interface; auto; right; right; destruct ID; [left; auto | right; lia]).
      split; auto. split; [apply dyn_box; lia |]. split; [| auto].
      apply isa_of; auto; [apply dyn_box; lia |]. unfold instance. rewrite DD. cbn.
      destruct (Z.eqb_spec (t_id d) ID_ANY_OBJECT); auto. destruct ID as [ID | ID]; [contradiction |].
      replace (11 <=? t_id d) with true by (symmetry; apply Z.leb_le; lia).
      replace (t_id d <=? 16) with true by (symmetry; apply Z.leb_le; lia). cbn. auto.
    - destruct (has_number_type s x DS FS B T) as (n & ->). rewrite Z.eqb_refl.
      split; [split; discriminate |]. intros y [= <-]. cbn [has_type o_dyn o_ro].
      split; auto. split; [apply dyn_string |]. split; auto.
      apply isa_of; auto; [apply string_no_interface; auto | apply dyn_string |].
      unfold instance. rewrite D, I. cbn. split; auto. now left.
    - destruct (has_object_type s x OS T) as [-> | (o & -> & DO & IA & _)].
      + exfalso. apply NU. unfold undef_bytes. auto.
      + rewrite (isa_bytes s _ OS DO IS DS IA). cbn. split; [split; discriminate |].
        intros y [= <-]. cbn [has_type o_dyn o_ro].
        split; auto. split; [apply dyn_string |]. split; auto.
        apply isa_of; auto; [apply string_no_interface; auto | apply dyn_string |].
        unfold instance. rewrite D, I. cbn. split; auto. now left.
    - destruct (has_object_type s x OS T) as [-> | (o & -> & DO & IA & _)].
      + split; [split; discriminate |]. intros y [= <-]. cbn. auto.
      + rewrite (isa_string s _ OS DO IS DS IA). cbn. split; [split; discriminate |].
        intros y [= <-]. cbn [has_type o_dyn o_ro].
        split; auto. split; [apply dyn_bytes |]. split; [| auto].
        apply isa_of; auto; [apply string_no_interface; auto | apply dyn_bytes |].
        unfold instance. rewrite D, I. cbn. split; auto. now left.
    - destruct (has_object_type s x OS T) as [-> | (o & -> & DO & IA & _)].
      + split; [split; discriminate |]. intros y [= <-]. cbn. auto.
      + destruct IS as [IS | IS]; [| exfalso; apply NM; unfold any_to_mutable; auto].
        rewrite (isa_string s _ OS DO IS DS IA). cbn. destruct (o_ro o) eqn:RO; (split; [split; discriminate |]); try discriminate.
        intros y [= <-]. cbn [has_type]. split; auto. split; auto. split; auto.
        rewrite IS, DS in IA. rewrite I, D. auto.
    - split; [split; discriminate |]. intros y [= <-].
      destruct (has_object_type s x OS T) as [-> | (o & -> & DO & IA & MU)]; cbn [has_type]; auto.
      split; auto. split; auto. split; [eapply SO; eauto |].
      intros FM. apply MU. pose proof OD as (TD & _). pose proof OS as (TS & _).
      destruct TD as (BD & _ & FD & _). unfold FLAG_MUTABLE, FLAG_REF in *. destruct FD as [FD | [(_ & I & D) | (FD & _)]]; try lia.
      destruct (assign_spec p OK w0 (proj1 CO) w (has_interface p w f) false d s LE OD OS) as (b & E & S).
      { apply string_no_interface; auto. }
      unfold can_assign_types in CA. rewrite CA in E. inversion E; subst b. destruct (proj1 S eq_refl) as (_ & M).
      rewrite !(flag_mutable p) in M by (apply OD || apply OS). unfold FLAG_MUTABLE in M.
      apply Z.eqb_eq. apply M. apply Z.eqb_eq. auto.
    - destruct (has_object_type s x OS T) as [-> | (o & -> & DO & IA & _)].
      + split; [split; discriminate |]. intros y [= <-]. cbn. auto.
      + split.
        * intros N. destruct (C25_isa_is_instance p w0 f0 w f (o_dyn o) d OK CO LE DO OD N) as (b & -> & _).
          cbn [obind]. destruct b; split; discriminate.
        * destruct (isa p w f (o_dyn o) (t_id d) (t_dim d)) as [[|] | | |] eqn:E; cbn [obind]; try discriminate.
          intros y [= <-]. cbn [has_type]. repeat split; auto; try apply OD; try apply DO. rewrite F. discriminate.
  Qed.
End Cast.
