(** * Fields of a class: C52 *)

From Verif Require Import Base Bytes Fields_model.

(** ** Offsets *)

Lemma fsize_pos t : 1 <= fsize t <= 8.
Proof. destruct t; cbn; [apply ksize_pos | lia]. Qed.
Lemma fsize_div t : (fsize t | 8).
Proof. destruct t as [[] |]; cbn; [exists 8 | exists 4 | exists 2 | exists 1 | exists 2 | exists 1 | exists 1]; reflexivity. Qed.

Lemma place_spec t offset ai o offset' ai' : 0 <= offset ->
  place t offset ai = (o, offset', ai') ->
  offset <= o <= offset + 16 /\ o mod fsize t = 0 /\ offset' = o + fsize t.
Proof.
  intros P E. unfold place in E. pose proof (fsize_pos t) as S. pose proof (fsize_div t) as D.
  set (s := fsize t) in *.
  set (o1 := if (offset + s) mod s =? 0 then offset else offset + (s - offset mod s)) in *.
  pose proof (Z.mod_pos_bound offset s ltac:(lia)) as B.
  assert (O1 : offset <= o1 <= offset + 8 /\ o1 mod s = 0).
  { unfold o1. replace (offset + s) with (offset + 1 * s) by lia. rewrite Z.mod_add by lia.
    destruct (Z.eqb_spec (offset mod s) 0); [lia |]. split; [lia |].
    pose proof (Z_div_mod_eq_full offset s).
    replace (offset + (s - offset mod s)) with ((offset / s + 1) * s) by lia.
    apply Z.mod_mul. lia. }
  destruct O1 as (O1 & M1).
  pose proof (Z.mod_pos_bound o1 8 ltac:(lia)).
  assert (M2 : (o1 + (8 - o1 mod 8)) mod s = 0).
  { pose proof (Z_div_mod_eq_full o1 8).
    replace (o1 + (8 - o1 mod 8)) with ((o1 / 8 + 1) * 8) by lia.
    apply Z.mod_divide; [lia |]. apply Z.divide_mul_r. exact D. }
  destruct (offset + s =? 8 * (ai + 1)); [| destruct (8 * (ai + 1) <? offset + s)];
    injection E as <- <- <-; split; try lia; split; auto.
Qed.

(** What a layout must satisfy: each field is aligned to its size, the fields
    are apart and in order, and all lie inside the object. *)
Record good_layout (fs : list field) (os : list Z) (size : Z) : Prop := {
  gl_length : length os = length fs;
  gl_field : forall i f o, nth_error fs i = Some f -> nth_error os i = Some o ->
    0 <= o /\ o mod fsize (f_type f) = 0 /\ o + fsize (f_type f) <= size;
  gl_apart : forall i j f o o', (i < j)%nat -> nth_error fs i = Some f ->
    nth_error os i = Some o -> nth_error os j = Some o' -> o + fsize (f_type f) <= o'
}.

Lemma layout_loop_spec fs : forall offset ai os size, 0 <= offset ->
  layout_loop fs offset ai = (os, size) ->
  good_layout fs os size /\ offset <= size <= offset + 24 * zlen fs /\
  (forall i o, nth_error os i = Some o -> offset <= o).
Proof.
  induction fs as [| f fs IH]; intros offset ai os size P E; cbn [layout_loop] in E.
  - injection E as <- <-. change (zlen (@nil field)) with 0. split; [| split; [lia |]].
    + constructor; auto; intros i; destruct i; discriminate.
    + intros i; destruct i; discriminate.
  - destruct (place (f_type f) offset ai) as ((o & offset') & ai') eqn:Pl.
    apply place_spec in Pl; auto. destruct Pl as (B & M & ->). pose proof (fsize_pos (f_type f)).
    destruct (layout_loop fs (o + fsize (f_type f)) ai') as (os' & size') eqn:L.
    injection E as <- <-. apply IH in L; [| lia]. destruct L as (G & S & Lo).
    rewrite zlen_cons. split; [| split; [lia |]].
    + constructor.
      * cbn. rewrite (gl_length _ _ _ G). reflexivity.
      * intros [| i] f' o' F O; cbn in F, O.
        -- injection F as <-. injection O as <-. split; [lia |]. split; [auto | lia].
        -- eapply (gl_field _ _ _ G); eauto.
      * intros [| i] [| j] f' o1 o2 Lt F O O2; try lia; cbn in F, O, O2.
        -- injection F as <-. injection O as <-. apply Lo in O2. lia.
        -- eapply (gl_apart _ _ _ G) with (i := i) (j := j); eauto. lia.
    + intros [| i] o' O; cbn in O; [injection O as <-; lia |]. apply Lo in O. lia.
Qed.

(** For every list of fields: the layout is good, and its size is far from
    the int32 limit (a class has at most 65535 fields). *)
Theorem C52_layout : forall fs os size, layout fs = (os, size) ->
  good_layout fs os size /\ 0 <= size <= 24 * zlen fs.
Proof.
  intros fs os size E. apply layout_loop_spec in E; [| lia]. destruct E as (G & S & _).
  split; [exact G | lia].
Qed.

(** ** Inheritance *)

Lemma layout_loop_app fs fs' : forall offset ai,
  exists os', fst (layout_loop (fs ++ fs') offset ai) = fst (layout_loop fs offset ai) ++ os'.
Proof.
  induction fs as [| f fs IH]; intros offset ai; cbn [app layout_loop].
  - eexists. reflexivity.
  - destruct (place (f_type f) offset ai) as ((o & offset') & ai').
    destruct (IH offset' ai') as (os' & E).
    destruct (layout_loop (fs ++ fs') offset' ai') as (a & b), (layout_loop fs offset' ai') as (c & d).
    cbn [fst] in *. exists os'. rewrite E. reflexivity.
Qed.

Lemma merge_loop_app c1 : forall done c2 m, merge_loop done (c1 ++ c2) = Ret m ->
  exists m1 m2, merge_loop done c1 = Ret m1 /\ merge_loop (rev c1 ++ done) c2 = Ret m2 /\ m = m1 ++ m2.
Proof.
  induction c1 as [| own c1 IH]; intros done c2 m E; cbn [app merge_loop rev] in *.
  - exists [], m. auto.
  - destruct (merge_own done own) as [mo | | |]; try discriminate. cbn [obind] in *.
    destruct (merge_loop (own :: done) (c1 ++ c2)) as [ms | | |] eqn:M; try discriminate. cbn [obind] in E.
    injection E as <-. destruct (IH _ _ _ M) as (m1 & m2 & E1 & E2 & ->). rewrite E1. cbn [obind].
    exists (mo ++ m1), m2. split; [reflexivity |]. split; [| rewrite app_assoc; reflexivity].
    rewrite <- app_assoc. exact E2.
Qed.

Lemma lookup_app n fs fs' : forall os os' r, length os = length fs ->
  lookup n fs os = Some r -> lookup n (fs ++ fs') (os ++ os') = Some r.
Proof.
  induction fs as [| f fs IH]; intros [| o os] os' r L E; cbn in *; try discriminate.
  destruct (String.eqb (f_name f) n); auto.
Qed.

(** A field of a super class has, in every sub class, the same offset and the
    same type: code compiled for the super class works on objects of the sub
    class. *)
Theorem C52_inherited : forall super sub fs fs' n off t,
  merged super = Ret fs -> merged (super ++ sub) = Ret fs' ->
  field_of fs n = Some (off, t) -> field_of fs' n = Some (off, t).
Proof.
  intros super sub fs fs' n off t M M' F. unfold merged in *.
  apply merge_loop_app in M'. destruct M' as (m1 & m2 & E1 & _ & ->).
  rewrite M in E1. injection E1 as <-.
  unfold field_of, layout in *. destruct (layout_loop_app fs m2 0 0) as (os' & E). rewrite E.
  apply lookup_app; auto.
  destruct (layout_loop fs 0 0) as (os & size) eqn:L. apply layout_loop_spec in L; [| lia].
  destruct L as (G & _). apply (gl_length _ _ _ G).
Qed.

(** ** Each declared field exists, unless a redeclaration comes before it *)

Definition declared (c : class) (f : field) : Prop := exists own, In own c /\ In f own.

(** No class declares again a field of one of its super classes. *)
Definition no_redeclaration (c : class) : Prop :=
  forall a own b f g, c = a ++ own :: b -> In f own -> declared a g -> f_name g <> f_name f.

Lemma find_field_None n fs : find_field n fs = None <-> (forall f, In f fs -> f_name f <> n).
Proof.
  induction fs as [| f fs IH]; cbn [find_field].
  - split; [intros _ f [] | auto].
  - destruct (String.eqb_spec (f_name f) n).
    + split; [discriminate | intros H; exfalso; apply (H f); cbn; auto].
    + rewrite IH. split; intros H g; [intros [<- | I]; auto | intros I; apply H; cbn; auto].
Qed.

Lemma search_None n c : search_supers n c = None <-> (forall f, declared c f -> f_name f <> n).
Proof.
  unfold declared. induction c as [| own c IH]; cbn [search_supers].
  - split; [intros _ f (o & [] & _) | auto].
  - destruct (find_field n own) eqn:F.
    + split; [discriminate |]. intros H. exfalso.
      assert (X : find_field n own = None).
      { apply find_field_None. intros g G. apply H. exists own. cbn; auto. }
      congruence.
    + rewrite IH. rewrite find_field_None in F. split.
      * intros H g (o & [<- | O] & G); [auto | apply H; eauto].
      * intros H g (o & O & G). apply H. exists o. cbn; auto.
Qed.

Lemma merge_own_all supers own :
  (forall f, In f own -> search_supers (f_name f) supers = None) -> merge_own supers own = Ret own.
Proof.
  induction own as [| f own IH]; intros H; [reflexivity |]. cbn [merge_own].
  rewrite H by (cbn; auto). rewrite IH by (intros; apply H; cbn; auto). reflexivity.
Qed.

Lemma merge_loop_all c : forall done,
  (forall a own b f g, c = a ++ own :: b -> In f own -> declared (rev a ++ done) g -> f_name g <> f_name f) ->
  merge_loop done c = Ret (concat c).
Proof.
  induction c as [| own c IH]; intros done H; [reflexivity |]. cbn [merge_loop concat].
  rewrite merge_own_all.
  - cbn [obind]. rewrite IH.
    + reflexivity.
    + intros a own' b f g -> F G. apply (H (own :: a) own' b f g); auto.
      cbn [rev]. rewrite <- app_assoc. exact G.
  - intros f F. apply search_None. intros g G. apply (H [] own c f g); auto.
Qed.

Theorem C52_all_fields_partial : forall c, no_redeclaration c -> merged c = Ret (concat c).
Proof.
  intros c H. apply merge_loop_all. intros a own b f g -> F G. apply (H a own b f g); auto.
  rewrite app_nil_r in G. destruct G as (o & O & G). exists o. split; auto. apply in_rev in O. auto.
Qed.

(** When a class declares again (with the same type, as it may) a field of
    its super class, the fields declared after it are lost. *)
Theorem C52_all_fields_refuted : exists c f fs,
  merged c = Ret fs /\ declared c f /\ field_of fs (f_name f) = None.
Proof.
  exists [[mk_field "x" (FNum KInt)]; [mk_field "x" (FNum KInt); mk_field "y" (FNum KInt)]],
    (mk_field "y" (FNum KInt)), [mk_field "x" (FNum KInt)].
  split; [reflexivity |]. split; [| reflexivity].
  exists [mk_field "x" (FNum KInt); mk_field "y" (FNum KInt)]. cbn. auto.
Qed.

(** ** Access: the fields are independent variables *)

(** Abstract object: the value of each field, by name. *)
Notation env := (string -> Z).
Definition set_env (e : env) (n : string) (v : Z) : env := fun m => if String.eqb n m then v else e m.

Definition spec_step (e : option env) (x : op) : option env * outcome out :=
  match e, x with
  | None, _ => (None, Die INVOCANT_UNDEFINED)
  | Some e, Get _ n => (Some e, Ret (Got (e n)))
  | Some e, Set_ _ n v => (Some (set_env e n v), Ret Done)
  end.
Fixpoint spec_run (e : option env) (xs : list op) : list (outcome out) :=
  match xs with
  | [] => []
  | x :: r => let (e', y) := spec_step e x in y :: spec_run e' r
  end.

(** An access compiled for a super class (or the class itself) of the object,
    naming a field it has, with a value of its type. *)
Definition typed (c : class) (x : op) : Prop :=
  exists super sub cls n, c = super ++ sub /\ merged super = Ret cls /\
    exists off t, field_of cls n = Some (off, t) /\
      (x = Get cls n \/ exists v, x = Set_ cls n v /\ kvalue (codec t) v).

Lemma lookup_nth n fs : forall os off t, lookup n fs os = Some (off, t) ->
  exists i f, nth_error fs i = Some f /\ nth_error os i = Some off /\ f_name f = n /\ f_type f = t.
Proof.
  induction fs as [| f fs IH]; intros [| o os] off t E; cbn in E; try discriminate.
  destruct (String.eqb_spec (f_name f) n) as [E2 |].
  - injection E as <- <-. exists 0%nat, f. auto.
  - destruct (IH _ _ _ E) as (i & g & A & B & C & D). exists (S i), g. auto.
Qed.

Lemma codec_size t : ksize (codec t) = fsize t.
Proof. destruct t; reflexivity. Qed.

Lemma field_range fs n off t : field_of fs n = Some (off, t) ->
  0 <= off /\ off + fsize t <= snd (layout fs).
Proof.
  intros F. unfold field_of in F. destruct (layout fs) as (os & size) eqn:L. cbn [fst snd] in *.
  apply C52_layout in L. destruct L as (G & _). apply lookup_nth in F.
  destruct F as (i & f & A & B & _ & <-). destruct (gl_field _ _ _ G _ _ _ A B) as (X & _ & Y). auto.
Qed.

Lemma field_apart fs n off t n' off' t' : field_of fs n = Some (off, t) -> field_of fs n' = Some (off', t') ->
  n <> n' -> off + fsize t <= off' \/ off' + fsize t' <= off.
Proof.
  intros F F' N. unfold field_of in *. destruct (layout fs) as (os & size) eqn:L. cbn [fst snd] in *.
  apply C52_layout in L. destruct L as (G & _). apply lookup_nth in F. apply lookup_nth in F'.
  destruct F as (i & f & A & B & C & <-). destruct F' as (i' & f' & A' & B' & C' & <-).
  destruct (Nat.lt_trichotomy i i') as [Lt | [-> | Lt]].
  - left. eapply (gl_apart _ _ _ G); eauto.
  - congruence.
  - right. eapply (gl_apart _ _ _ G); eauto.
Qed.

Definition holds (fs : list field) (d : list Z) (e : env) : Prop :=
  zlen d = snd (layout fs) + 1 /\
  forall n off t, field_of fs n = Some (off, t) -> decode (codec t) (zsub d off (fsize t)) = e n.

Definition rel (fs : list field) (o : option (list Z)) (e : option env) : Prop :=
  match o, e with
  | None, None => True
  | Some d, Some e => holds fs d e
  | _, _ => False
  end.

Lemma step_ok c fs o e x : merged c = Ret fs -> rel fs o e -> typed c x ->
  snd (step o x) = snd (spec_step e x) /\ rel fs (fst (step o x)) (fst (spec_step e x)).
Proof.
  intros M R (super & sub & cls & n & -> & Ms & off & t & F & X).
  pose proof (C52_inherited _ _ _ _ _ _ _ Ms M F) as F'.
  destruct (field_range _ _ _ _ F') as (P & Q).
  destruct X as [-> | (v & -> & V)]; unfold step; rewrite F.
  - destruct o as [d |], e as [e |]; try contradiction; [| cbn; auto].
    destruct R as (L & H). cbn [get_field]. rewrite load_at_ok by lia. cbn [obind spec_step fst snd].
    rewrite (H n off t F'). split; auto. split; auto.
  - destruct o as [d |], e as [e |]; try contradiction; [| cbn; auto].
    destruct R as (L & H). cbn [set_field].
    pose proof (zlen_encode (codec t) v) as Le. rewrite codec_size in Le.
    rewrite store_at_ok by lia. cbn [spec_step fst snd]. split; auto. split.
    + rewrite zlen_blit by lia. exact L.
    + intros n' off' t' F2. destruct (field_range _ _ _ _ F2) as (P2 & Q2).
      unfold set_env. destruct (String.eqb_spec n n') as [<- | N].
      * rewrite F' in F2. injection F2 as <- <-. rewrite <- Le.
        rewrite zsub_zblit_same by lia. apply decode_encode; auto.
      * rewrite zsub_zblit_other; auto; try lia.
        -- pose proof (fsize_pos t'). lia.
        -- destruct (field_apart _ _ _ _ _ _ _ F' F2 N); lia.
Qed.

(** Any object of any class, any sequence of field reads and writes through
    that class or its super classes: each field behaves as a variable of its
    own, initially zero; through undef every access throws. *)
Theorem C52_fields_independent : forall c fs xs, merged c = Ret fs -> Forall (typed c) xs ->
  run (Some (new_object fs)) xs = spec_run (Some (fun _ => 0)) xs /\
  run None xs = map (fun _ => Die INVOCANT_UNDEFINED) xs.
Proof.
  intros c fs xs M T.
  assert (G : forall xs o e, Forall (typed c) xs -> rel fs o e -> run o xs = spec_run e xs).
  { clear xs T. induction xs as [| x xs IH]; intros o e T R; [reflexivity |].
    inversion T; subst. destruct (step_ok c fs o e x M R H1) as (E1 & E2).
    cbn [run spec_run]. destruct (step o x) as (o', y), (spec_step e x) as (e', y'). cbn [fst snd] in *.
    subst. f_equal. auto. }
  split.
  - apply G; auto. cbn [rel]. unfold new_object.
    pose proof (C52_layout fs (fst (layout fs)) (snd (layout fs))) as S.
    destruct (layout fs) as (os & size) eqn:L. cbn [fst snd] in *. destruct (S eq_refl) as (_ & B).
    split.
    + rewrite zlen_rep, L. cbn [snd]. lia.
    + intros n off t F. destruct (field_range _ _ _ _ F) as (P & Q). rewrite L in Q. cbn [snd] in Q.
      replace (zsub (zrep (size + 1) 0) off (fsize t)) with (zrep (fsize t) 0).
      * assert (Z0 : forall m, le_value (zrep m 0) = 0).
        { intros m. unfold zrep. induction (Z.to_nat m) as [| k IHk]; cbn; auto. rewrite IHk. reflexivity. }
        unfold decode. rewrite Z0. destruct (codec t); reflexivity.
      * apply znth_ext. intros j J. rewrite znth_sub, !znth_rep, Z.max_r by lia.
        destruct (Z.leb_spec 0 j), (Z.ltb_spec j (fsize t)); cbn [andb]; auto; try lia.
        destruct (Z.leb_spec 0 (off + j)), (Z.ltb_spec (off + j) (size + 1)); cbn [andb]; auto; lia.
  - rewrite (G xs None None T I). clear. induction xs as [| x xs IH]; [reflexivity |].
    cbn [spec_run map]. destruct x; cbn [spec_step]; rewrite IH; reflexivity.
Qed.

Example C52_ex :
  let p := [mk_field "a" (FNum KInt); mk_field "b" (FNum KByte)] in
  let c := [p; [mk_field "c" (FNum KInt); mk_field "d" (FObj "Foo")]] in
  exists fs, merged c = Ret fs /\ layout fs = ([0; 4; 16; 32], 40) /\
    run (Some (new_object fs)) [Set_ p "b" (-1); Set_ fs "c" 70000; Get p "b"; Get fs "a"; Get fs "c"] =
      [Ret Done; Ret Done; Ret (Got (-1)); Ret (Got 0); Ret (Got 70000)].
Proof. eexists; repeat split. Qed.

(** [g] is the declaration of field [n] nearest to the end of the chain [c]
    of classes (root class first). *)
Definition nearest_decl (c : class) (n : string) (g : field) : Prop :=
  exists above own below pre post, c = above ++ own :: below /\ own = pre ++ g :: post /\ f_name g = n /\
    (forall f, In f pre -> f_name f <> n) /\ (forall f, declared below f -> f_name f <> n).

Lemma find_field_first n pre g post : f_name g = n -> (forall f, In f pre -> f_name f <> n) ->
  find_field n (pre ++ g :: post) = Some g.
Proof.
  intros E P. induction pre as [| a pre IH]; cbn.
  - destruct (String.eqb_spec (f_name g) n); congruence.
  - destruct (String.eqb_spec (f_name a) n) as [D | _]; [| apply IH; intros; apply P; right; auto].
    exfalso. apply (P a); [left |]; auto.
Qed.

Lemma search_nearest c n g : nearest_decl c n g -> search_supers n (rev c) = Some g.
Proof.
  intros (above & own & below & pre & post & -> & -> & E & P & B).
  rewrite rev_app_distr. cbn [rev]. rewrite <- app_assoc. cbn [app].
  assert (N : forall f, declared (rev below) f -> f_name f <> n).
  { intros f (o & O & I). apply B. exists o. split; [apply in_rev |]; auto. }
  induction (rev below) as [| o r IH]; cbn [app search_supers].
  - rewrite (find_field_first _ _ _ _ E P). reflexivity.
  - destruct (find_field n o) eqn:F.
    + assert (F' : find_field n o = None); [| congruence]. apply find_field_None.
      intros f' I. apply N. exists o. split; [left |]; auto.
    + apply IH. intros f' (o' & O & I). apply N. exists o'. split; [right |]; auto.
Qed.

Lemma ftype_eqb_eq a b : ftype_eqb a b = true -> a = b.
Proof.
  destruct a as [[] | n], b as [[] | n']; cbn; intros H; try discriminate; try reflexivity.
  apply String.eqb_eq in H. congruence.
Qed.

(** In a class that compiles, a field declared again has the type it has in
    the super class (as far as the compiler looks: up to and including the
    first field declared again). *)
Theorem C52_redeclared_type : forall super own sub fs pre f post g,
  merged (super ++ own :: sub) = Ret fs -> own = pre ++ f :: post ->
  (forall f', In f' pre -> forall g', declared super g' -> f_name g' <> f_name f') ->
  nearest_decl super (f_name f) g ->
  f_type f = f_type g.
Proof.
  intros super own sub fs pre f post g M -> P N. apply merge_loop_app in M.
  destruct M as (m1 & m2 & _ & M & _). cbn [merge_loop] in M. rewrite app_nil_r in M.
  destruct (merge_own (rev super) (pre ++ f :: post)) as [m | | |] eqn:E; try discriminate. clear M m1 m2.
  revert m E. induction pre as [| a pre IH]; intros m E; cbn [app merge_own] in E.
  - rewrite (search_nearest _ _ _ N) in E. destruct (ftype_eqb (f_type g) (f_type f)) eqn:Q; [| discriminate].
    apply ftype_eqb_eq in Q. auto.
  - replace (search_supers (f_name a) (rev super)) with (@None field) in E.
    + destruct (merge_own (rev super) (pre ++ f :: post)) as [m' | | |]; try discriminate.
      apply (IH ltac:(intros; apply P; [right |]; auto) m'). reflexivity.
    + symmetry. apply search_None. intros g' (o & O & I). apply (P a ltac:(left; auto)).
      exists o. split; [apply in_rev |]; auto.
Qed.

Example C52_redeclared_ex :
  let x := mk_field "x" (FNum KInt) in
  merged [[x]; [mk_field "y" (FObj "List")]; [x]] = Ret [x; mk_field "y" (FObj "List")] /\
  nearest_decl [[x]; [mk_field "y" (FObj "List")]] "x" x /\
  merged [[x]; [mk_field "x" (FNum KLong)]] = Die FIELD_TYPE_DIFFERS.
Proof.
  cbn. split; [reflexivity |]. split; [| reflexivity].
  exists [], [mk_field "x" (FNum KInt)], [[mk_field "y" (FObj "List")]], [], []. repeat split; try reflexivity.
  - intros f [].
  - intros f (o & [<- | []] & [<- | []]). discriminate.
Qed.

Print Assumptions C52_redeclared_type.
Print Assumptions C52_layout.
Print Assumptions C52_inherited.
Print Assumptions C52_all_fields_partial.
Print Assumptions C52_all_fields_refuted.
Print Assumptions C52_fields_independent.
