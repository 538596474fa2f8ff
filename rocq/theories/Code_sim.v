(** * The virtual machine runs the structured semantics *)

From Verif Require Import Code_model Code_spec Code_gen.
Import ListNotations.

(** ** Resolved code *)
Record env := mkenv { e_last : nat; e_next : nat; e_brk : nat; e_ret : nat; e_exce : nat; e_excm : nat }.
Definition res (e : env) (t : tgt) : nat :=
  match t with
  | TAbs n => n | TLast => e_last e | TNext => e_next e | TBrk => e_brk e
  | TRet => e_ret e | TExcE => e_exce e | TExcM => e_excm e
  end.
Notation rs e := (map (map_op (res e))).

Lemma map_op_map_op : forall {A B D} (f : A -> B) (h : B -> D) o, map_op h (map_op f o) = map_op (fun x => h (f x)) o.
Proof. intros. now destruct o. Qed.
Lemma map_op_ext : forall {A B} (f h : A -> B) o, (forall x, f x = h x) -> map_op f o = map_op h o.
Proof. intros A B f h o H. destruct o; cbn; now rewrite ?H. Qed.

Lemma rs_last : forall e n l, rs e (subst TLast n l) = rs (mkenv n (e_next e) (e_brk e) (e_ret e) (e_exce e) (e_excm e)) l.
Proof. intros. unfold subst. rewrite map_map. apply map_ext. intros o. rewrite map_op_map_op. apply map_op_ext. now intros []. Qed.
Lemma rs_next : forall e n l, rs e (subst TNext n l) = rs (mkenv (e_last e) n (e_brk e) (e_ret e) (e_exce e) (e_excm e)) l.
Proof. intros. unfold subst. rewrite map_map. apply map_ext. intros o. rewrite map_op_map_op. apply map_op_ext. now intros []. Qed.
Lemma rs_brk : forall e n l, rs e (subst TBrk n l) = rs (mkenv (e_last e) (e_next e) n (e_ret e) (e_exce e) (e_excm e)) l.
Proof. intros. unfold subst. rewrite map_map. apply map_ext. intros o. rewrite map_op_map_op. apply map_op_ext. now intros []. Qed.
Lemma rs_exce : forall e n l, rs e (subst TExcE n l) = rs (mkenv (e_last e) (e_next e) (e_brk e) (e_ret e) n (e_excm e)) l.
Proof. intros. unfold subst. rewrite map_map. apply map_ext. intros o. rewrite map_op_map_op. apply map_op_ext. now intros []. Qed.
Lemma rs_ret : forall e n l, rs e (subst TRet n l) = rs (mkenv (e_last e) (e_next e) (e_brk e) n (e_exce e) (e_excm e)) l.
Proof. intros. unfold subst. rewrite map_map. apply map_ext. intros o. rewrite map_op_map_op. apply map_op_ext. now intros []. Qed.
Lemma rs_excm : forall e n l, rs e (subst TExcM n l) = rs (mkenv (e_last e) (e_next e) (e_brk e) (e_ret e) (e_exce e) n) l.
Proof. intros. unfold subst. rewrite map_map. apply map_ext. intros o. rewrite map_op_map_op. apply map_op_ext. now intros []. Qed.
Lemma conc_rs : forall l, map (map_op conc) l = rs (mkenv 0 0 0 0 0 0) l.
Proof. intros. apply map_ext. intros o. apply map_op_ext. now intros []. Qed.

Definition menv (b : node) : env :=
  let e := length (comp b false 0 0) in mkenv 0 0 0 e 0 e.

Lemma compile_comp : forall b, eval_ok false b = true ->
  compile b = (rs (menv b) (comp b false 0 0 ++ lv (has_decl b) 0) ++ [OEnd], npush b + 1).
Proof.
  intros b OK. unfold compile.
  rewrite (proj1 gen_comp_all) by auto. change (ineval gs0) with false. change (here gs0) with 0. change (mortal gs0) with 0.
  set (s := comp b false 0 0).
  rewrite here_ext. change (here gs0) with 0. cbn [Nat.add].
  assert (rets (ext gs0 s (decls b) (npush b)) = rposs TRet s 0) as -> by (unfold ext; fld; now rewrite app_nil_r).
  assert (excm (ext gs0 s (decls b) (npush b)) = rposs TExcM s 0) as -> by (unfold ext; fld; now rewrite app_nil_r).
  change (code (ext gs0 s (decls b) (npush b))) with ([] ++ map (map_op conc) s).
  rewrite <- (app_nil_r (rposs TRet s 0)) at 2. rewrite patch_pop_all by reflexivity.
  rewrite patch_subst by reflexivity.
  rewrite <- (app_nil_r (rposs TExcM s 0)) at 2. rewrite patch_pop_all by reflexivity.
  rewrite <- (rposs_subst_other TRet TExcM (length s)) by reflexivity.
  rewrite patch_subst by reflexivity. cbn [app].
  set (s' := subst TExcM _ _).
  unfold end_block.
  assert (map (map_op conc) s' = rs (menv b) s) as E.
  { unfold s'. rewrite conc_rs, rs_excm, rs_ret. reflexivity. }
  destruct (has_decl b); cbn [lv]; rewrite ?map_app, ?app_nil_r; f_equal;
    unfold emit, w_mortal, w_code, ext; fld; rewrite E; reflexivity.
Qed.

(** ** What a statement does to the live variables *)
Section Live.
Variables G R : Type.
Variable P : prims G R.

Lemma lives_leave : forall base (s : sst G R), base <= lives s -> lives (leave P base s) = base.
Proof.
  intros base s H. unfold leave, lives in *. destruct (release_all _ _ _ _). cbn. rewrite firstn_length. lia.
Qed.
Lemma live_leave : forall (s : sst G R) vs s', s_live s' = s_live s ++ vs -> s_live (leave P (lives s) s') = s_live s.
Proof.
  intros s vs s' H. unfold leave, lives. destruct (release_all _ _ _ _). cbn. rewrite H, firstn_app, Nat.sub_diag, firstn_all.
  cbn. now rewrite app_nil_r.
Qed.

Variable me : nat.
Variable call : nat -> G -> option (Z * G).
Variable fuel : nat.

Definition grows (n : nat) (s s' : sst G R) : Prop := exists vs, s_live s' = s_live s ++ vs /\ length vs <= n.
Lemma grows_refl : forall n s, grows n s s.
Proof. intros. exists []. rewrite app_nil_r. cbn. split; [reflexivity | lia]. Qed.
Lemma grows_same : forall n (s s' : sst G R), s_live s' = s_live s -> grows n s s'.
Proof. intros n s s' H. exists []. rewrite app_nil_r. cbn. split; [assumption | lia]. Qed.
Lemma grows_trans : forall a b s1 s2 s3 n, grows a s1 s2 -> grows b s2 s3 -> a + b <= n -> grows n s1 s3.
Proof.
  intros a b s1 s2 s3 n (v & E & L) (w & F & M) Q. exists (v ++ w). rewrite F, E, app_assoc, app_length. split; [reflexivity | lia].
Qed.
Lemma grows_le : forall a b s s', grows a s s' -> a <= b -> grows b s s'.
Proof. intros a b s s' (v & E & L) Q. exists v. split; [assumption | lia]. Qed.
Lemma grows_leave : forall n k s s', grows n s s' -> grows k s (leave P (lives s) s').
Proof. intros n k s s' (v & E & L). apply grows_same. eapply live_leave; eauto. Qed.
Lemma grows_lives : forall n s s', grows n s s' -> lives s <= lives s' <= lives s + n.
Proof. intros n s s' (v & E & L). unfold lives. rewrite E, app_length. lia. Qed.
(* a statement between two points, from an earlier point with the same variables *)
Lemma grows_from : forall n s0 s s', s_live s = s_live s0 -> grows n s s' -> grows n s0 s'.
Proof. intros n s0 s s' E (v & F & L). exists v. now rewrite F, E. Qed.

Notation SEM := (sem P me call fuel).
Notation SEMC := (sem_cases P me call fuel).

Lemma sem_switch : forall c r cs s, SEM (NSwitch c r cs) s =
      match SEM c s with
      | Some (SNormal, s) =>
          match SEMC (p_sel P r (s_r s)) false cs s with
          | Some (SNormal, s') | Some (SBreak, s') => Some (SNormal, leave P (lives s) s')
          | other => other
          end
      | other => other
      end.
Proof. reflexivity. Qed.

Lemma sem_grows :
  (forall n s sig s', SEM n s = Some (sig, s') -> grows (npush n) s s') /\
  (forall cs v found s sig s', SEMC v found cs s = Some (sig, s') -> grows (npush_cases cs) s s').
Proof.
  apply node_cases_ind; cbn [sem sem_cases npush npush_cases].
  - intros s sig s' [= <- <-]. apply grows_refl.
  - intros a IHa b IHb s sig s' H.
    destruct (SEM a s) as [[sg s1] |] eqn:E; [| discriminate].
    pose proof (IHa _ _ _ E) as A.
    assert ((sg = SNormal /\ SEM b s1 = Some (sig, s')) \/ (sg = sig /\ s1 = s')) as [[_ X] | [_ <-]]
      by (destruct sg; auto; right; injection H as <- <-; auto).
    + eapply grows_trans; eauto.
    + eapply grows_le; eauto; lia.
  - intros a s sig s' H. destruct (p_do _ _ _ _). injection H as <- <-. now apply grows_same.
  - intros a l s sig s' H. destruct (p_try _ _ _ _) as [[g r] e]. unfold throw in H.
    destruct (Z.eqb e 0); injection H as <- <-; now apply grows_same.
  - intros m l s sig s' H. destruct (call _ _) as [[e g] |]; [| discriminate]. unfold throw in H.
    destruct (Z.eqb e 0); injection H as <- <-; now apply grows_same.
  - intros v s sig s' [= <- <-]. exists [v]. split; [reflexivity | cbn; lia].
  - intros v s sig s' [= <- <-]. now apply grows_same.
  - intros a s sig s' H. destruct (p_return _ _ _ _). injection H as <- <-. now apply grows_same.
  - intros s sig s' [= <- <-]. apply grows_refl.
  - intros s sig s' [= <- <-]. apply grows_refl.
  - intros s sig s' [= <- <-]. apply grows_refl.
  - intros b IH s sig s' H. destruct (SEM b s) as [[sg s1] |] eqn:E; [| discriminate].
    pose proof (IH _ _ _ E) as A.
    destruct sg; injection H as <- <-; auto. eapply grows_leave; eauto.
  - intros ns c IHc r t IHt e IHe s sig s' H.
    destruct (SEM c s) as [[sg s1] |] eqn:E; [| discriminate].
    pose proof (IHc _ _ _ E) as A.
    destruct sg; try (injection H as <- <-; eapply grows_le; eauto; lia).
    destruct (if p_test P r (s_r s1) then SEM t s1 else SEM e s1) as [[sg2 s2] |] eqn:E2; [| discriminate].
    assert (grows (npush t + npush e) s1 s2) as B.
    { destruct (p_test _ _ _); [apply IHt in E2 | apply IHe in E2]; eapply grows_le; eauto; lia. }
    destruct sg2; injection H as <- <-; try (eapply grows_trans; eauto; lia).
    destruct (_ && _); [| eapply grows_trans; eauto; lia].
    eapply grows_trans; [exact A | eapply grows_leave; exact B | instantiate (1 := 0); lia].
  - intros i IHi x IHx n IHn c IHc r s sig s' H.
    destruct (SEM i s) as [[sg s1] |] eqn:E; [| discriminate].
    pose proof (IHi _ _ _ E) as A.
    destruct sg; try (injection H as <- <-; eapply grows_le; eauto; lia).
    match type of H with ?F fuel false s1 = _ => set (iter := F) in H end.
    assert (forall k ag si, s_live si = s_live s1 -> iter k ag si = Some (sig, s') ->
              grows (npush i + npush x + npush n + npush c) s s') as L.
    { clear H E. intros k; induction k as [k IHk] using lt_wf_ind. intros ag si LV H.
      assert (forall z, iter k ag si = z ->
        match (if ag then SEM n si else Some (SNormal, si)) with
            | Some (SNormal, si) =>
                match SEM c si with
                | Some (SNormal, si) =>
                    if p_test P r (s_r si) then
                      match SEM x si with
                      | Some (SNormal, s') | Some (SNext, s') =>
                          match k with
                          | O => None
                          | S k => iter k true (leave P (lives s1) s')
                          end
                      | Some (SLast, s') => Some (SNormal, leave P (lives s) s')
                      | other => other
                      end
                    else Some (SNormal, leave P (lives s) si)
                | other => other
                end
            | other => other
            end = z) as U by (intros z; destruct k; exact (fun q => q)).
      apply U in H. clear U.
      destruct (if ag then SEM n si else Some (SNormal, si)) as [[sg s2] |] eqn:E2; [| discriminate].
      assert (grows (npush n) s1 s2) as B.
      { destruct ag; [eapply grows_from; [exact LV | eauto] | injection E2 as <- <-; now apply grows_same]. }
      destruct sg; try (injection H as <- <-; eapply grows_trans; eauto; lia).
      destruct (SEM c s2) as [[sg s3] |] eqn:E3; [| discriminate].
      pose proof (IHc _ _ _ E3) as Cc.
      assert (grows (npush n + npush c) s1 s3) as B3 by (eapply grows_trans; eauto).
      destruct sg; try (injection H as <- <-; eapply grows_trans; eauto; lia).
      destruct (p_test _ _ _).
      2: { injection H as <- <-. eapply grows_leave. eapply grows_trans; eauto. }
      destruct (SEM x s3) as [[sg s4] |] eqn:E4; [| discriminate].
      pose proof (IHx _ _ _ E4) as D.
      assert (grows (npush n + npush c + npush x) s1 s4) as B4 by (eapply grows_trans; eauto).
      destruct B4 as (vs & V & LL).
      destruct sg; try (injection H as <- <-; eapply grows_trans; [exact A | exists vs; eauto | lia]).
      - destruct k; [discriminate |]. eapply IHk; [| | exact H]; [lia | eapply live_leave; eauto].
      - destruct k; [discriminate |]. eapply IHk; [| | exact H]; [lia | eapply live_leave; eauto].
      - injection H as <- <-. eapply grows_leave. eapply grows_trans; [exact A | exists vs; eauto | reflexivity]. }
    eapply L; [| exact H]. reflexivity.
  - intros b IH s sig s' H. set (s0 := mks _ _ _ _) in H.
    destruct (SEM b s0) as [[sg s1] |] eqn:E; [| discriminate].
    assert (grows (npush b) s s1) as A by (eapply grows_from; [| eapply IH; exact E]; reflexivity).
    destruct sg; injection H as <- <-; auto; [eapply grows_leave; eauto |].
    destruct A as (vs & V & LL). apply grows_same. eapply live_leave. cbn. exact V.
  - intros c IHc r cs IHcs s sig s' H. change (SEM (NSwitch c r cs) s = Some (sig, s')) in H. rewrite sem_switch in H.
    destruct (SEM c s) as [[sg s1] |] eqn:E; [| discriminate].
    pose proof (IHc _ _ _ E) as A.
    destruct sg; try (injection H as <- <-; eapply grows_le; eauto; lia).
    destruct (SEMC (p_sel P r (s_r s1)) false cs s1) as [[sg s2] |] eqn:E2; [| discriminate].
    pose proof (IHcs _ _ _ _ _ E2) as B.
    destruct sg; injection H as <- <-; try (eapply grows_trans; eauto; lia);
      (eapply grows_trans; [exact A | eapply grows_leave; exact B | instantiate (1 := 0); lia]).
  - intros b IH v found s sig s' H. eauto.
  - intros w cs IH v found s sig s' H. eauto.
  - intros w b IHb cs IHcs v found s sig s' H.
    destruct (_ || _); [apply IHb in H | apply IHcs in H]; eapply grows_le; eauto; lia.
Qed.

(** next, last and break only where allowed *)
Definition sigok (il isw : bool) (sig : signal) : Prop :=
  match sig with SNext | SLast => il = true | SBreak => isw = true | _ => True end.
Lemma sem_flow :
  (forall n il isw s sig s', flow_ok il isw n = true -> SEM n s = Some (sig, s') ->
     sigok il isw sig) /\
  (forall cs il v found s sig s', flow_ok_cases il cs = true -> SEMC v found cs s = Some (sig, s') ->
     sigok il true sig).
Proof.
  apply node_cases_ind; cbn [sem sem_cases flow_ok flow_ok_cases].
  - intros il isw s sig s' F [= <- <-]. exact I.
  - intros a IHa b IHb il isw s sig s' F H. apply andb3 in F as [Fa Fb].
    destruct (SEM a s) as [[sg s1] |] eqn:E; [| discriminate].
    specialize (IHa _ _ _ _ _ Fa E).
    destruct sg; try (injection H as <- <-; exact IHa). eauto.
  - intros a il isw s sig s' F H. destruct (p_do _ _ _ _). injection H as <- <-. exact I.
  - intros a l il isw s sig s' F H. destruct (p_try _ _ _ _) as [[g r] e]. unfold throw in H.
    destruct (Z.eqb e 0); injection H as <- <-; exact I.
  - intros m l il isw s sig s' F H. destruct (call _ _) as [[e g] |]; [| discriminate]. unfold throw in H.
    destruct (Z.eqb e 0); injection H as <- <-; exact I.
  - intros v il isw s sig s' F [= <- <-]. exact I.
  - intros v il isw s sig s' F [= <- <-]. exact I.
  - intros a il isw s sig s' F H. destruct (p_return _ _ _ _). injection H as <- <-. exact I.
  - intros il isw s sig s' F [= <- <-]. exact F.
  - intros il isw s sig s' F [= <- <-]. exact F.
  - intros il isw s sig s' F [= <- <-]. exact F.
  - intros b IH il isw s sig s' F H. destruct (SEM b s) as [[sg s1] |] eqn:E; [| discriminate].
    specialize (IH _ _ _ _ _ F E). destruct sg; injection H as <- <-; exact IH.
  - intros ns c IHc r t IHt e IHe il isw s sig s' F H. apply andb3 in F as [F Fe]. apply andb3 in F as [Fc Ft].
    destruct (SEM c s) as [[sg s1] |] eqn:E; [| discriminate].
    specialize (IHc _ _ _ _ _ Fc E).
    destruct sg; try (injection H as <- <-; try exact I; discriminate).
    destruct (if p_test P r (s_r s1) then SEM t s1 else SEM e s1) as [[sg2 s2] |] eqn:E2; [| discriminate].
    assert (sigok il isw sg2) as B
      by (destruct (p_test _ _ _); eauto).
    destruct sg2; injection H as <- <-; exact B.
  - intros i IHi x IHx n IHn c IHc r il isw s sig s' F H.
    apply andb3 in F as [F Fc]. apply andb3 in F as [F Fn]. apply andb3 in F as [Fi Fx].
    destruct (SEM i s) as [[sg s1] |] eqn:E; [| discriminate].
    specialize (IHi _ _ _ _ _ Fi E).
    destruct sg; try (injection H as <- <-; try exact I; discriminate).
    match type of H with ?F fuel false s1 = _ => set (iter := F) in H end.
    assert (forall k ag si, iter k ag si = Some (sig, s') ->
              sigok il isw sig) as L.
    { clear H E IHi. intros k; induction k as [k IHk] using lt_wf_ind. intros ag si H.
      assert (forall z, iter k ag si = z ->
        match (if ag then SEM n si else Some (SNormal, si)) with
            | Some (SNormal, si) =>
                match SEM c si with
                | Some (SNormal, si) =>
                    if p_test P r (s_r si) then
                      match SEM x si with
                      | Some (SNormal, s') | Some (SNext, s') =>
                          match k with
                          | O => None
                          | S k => iter k true (leave P (lives s1) s')
                          end
                      | Some (SLast, s') => Some (SNormal, leave P (lives s) s')
                      | other => other
                      end
                    else Some (SNormal, leave P (lives s) si)
                | other => other
                end
            | other => other
            end = z) as U by (intros z; destruct k; exact (fun q => q)).
      apply U in H. clear U.
      destruct (if ag then SEM n si else Some (SNormal, si)) as [[sg s2] |] eqn:E2; [| discriminate].
      assert (sigok false false sg) as B.
      { destruct ag; [eauto | injection E2 as <- <-; exact I]. }
      destruct sg; try (injection H as <- <-; try exact I; discriminate).
      destruct (SEM c s2) as [[sg s3] |] eqn:E3; [| discriminate].
      specialize (IHc _ _ _ _ _ Fc E3).
      destruct sg; try (injection H as <- <-; try exact I; discriminate).
      destruct (p_test _ _ _).
      2: { injection H as <- <-. exact I. }
      destruct (SEM x s3) as [[sg s4] |] eqn:E4; [| discriminate].
      specialize (IHx _ _ _ _ _ Fx E4).
      destruct sg; try (injection H as <- <-; first [exact I | exact IHx]).
      - destruct k; [discriminate |]. eapply IHk; [| exact H]. lia.
      - destruct k; [discriminate |]. eapply IHk; [| exact H]. lia. }
    eapply L; exact H.
  - intros b IH il isw s sig s' F H. set (s0 := mks _ _ _ _) in H.
    destruct (SEM b s0) as [[sg s1] |] eqn:E; [| discriminate].
    specialize (IH _ _ _ _ _ F E).
    destruct sg; injection H as <- <-; first [exact I | exact IH].
  - intros c IHc r cs IHcs il isw s sig s' F H. change (SEM (NSwitch c r cs) s = Some (sig, s')) in H. rewrite sem_switch in H. apply andb3 in F as [Fc Fs].
    destruct (SEM c s) as [[sg s1] |] eqn:E; [| discriminate].
    specialize (IHc _ _ _ _ _ Fc E).
    destruct sg; try (injection H as <- <-; try exact I; discriminate).
    destruct (SEMC (p_sel P r (s_r s1)) false cs s1) as [[sg s2] |] eqn:E2; [| discriminate].
    specialize (IHcs _ _ _ _ _ _ Fs E2).
    destruct sg; injection H as <- <-; first [exact I | exact IHcs].
  - intros b IH il v found s sig s' F H. exact (IH _ _ _ _ _ F H).
  - intros w cs IH il v found s sig s' F H. eauto.
  - intros w b IHb cs IHcs il v found s sig s' F H. apply andb3 in F as [Fb Fs].
    destruct (_ || _); [exact (IHb _ _ _ _ _ Fb H) | eauto].
Qed.

Lemma ends_break_sem : forall n s s', ends_break n = true -> SEM n s = Some (SNormal, s') -> False.
Proof.
  induction n; cbn [ends_break sem]; intros s0 s' B H; try discriminate.
  destruct (SEM n1 s0) as [[sg s1] |]; [| discriminate]. destruct sg; try discriminate. eauto.
Qed.

Lemma leave_same : forall (s : sst G R) k, lives s = k -> leave P k s = s.
Proof.
  intros s k H. unfold leave, lives in *. rewrite <- H, skipn_all, firstn_all. cbn. now destruct s.
Qed.
Lemma leave_leave : forall (s : sst G R) k, k <= lives s -> leave P k (leave P k s) = leave P k s.
Proof. intros. apply leave_same. now apply lives_leave. Qed.
End Live.

Lemma has_decl_npush :
  (forall n, has_decl n = false -> npush n = 0) /\ (forall cs, has_decl_cases cs = false -> npush_cases cs = 0).
Proof.
  apply node_cases_ind; cbn [has_decl has_decl_cases npush npush_cases]; intros; auto; try discriminate;
    repeat match goal with H : _ || _ = false |- _ => apply orb_false_elim in H as [? ?] end;
    repeat match goal with IH : has_decl ?n = false -> _, H : has_decl ?n = false |- _ => specialize (IH H) end;
    repeat match goal with IH : has_decl_cases ?n = false -> _, H : has_decl_cases ?n = false |- _ => specialize (IH H) end; lia.
Qed.

(** ** Running the machine *)
Section Run.
Variables G R : Type.
Variable P : prims G R.
Variable cprog : nat -> option (list (op nat) * nat).

(* enough fuel stays enough *)
Lemma exec_mono : forall k k' nest me C cap s r, k <= k' -> r <> VFuel ->
  exec P cprog k nest me C cap s = r -> exec P cprog k' nest me C cap s = r.
Proof.
  induction k as [| k IH]; intros k' nest me C cap s r L N H.
  - cbn in H. now subst.
  - destruct k' as [| k']; [lia |]. assert (k <= k') as L' by lia.
    cbn [exec] in *. destruct (nth_error C (pc s)) as [[] |]; auto;
      try solve [eapply IH; eauto];
      try solve [destruct (p_do _ _ _ _); eapply IH; eauto];
      try solve [destruct (p_try _ _ _ _) as [[? ?] ?]; eapply IH; eauto];
      try solve [destruct (_ <? _); auto; eapply IH; eauto];
      try solve [destruct (_ <=? _); auto; destruct (release_all _ _ _ _); eapply IH; eauto];
      try solve [destruct (p_test _ _ _); eapply IH; eauto];
      try solve [destruct (Z.eqb _ _); eapply IH; eauto];
      try solve [destruct (p_return _ _ _ _); eapply IH; eauto].
    destruct (Z.ltb _ _); [eapply IH; eauto |].
    destruct (p_enter _ _ _) as [g [e |]]; [eapply IH; eauto |].
    destruct (cprog m) as [[C' cap'] |]; [| destruct (p_native _ _ _); eapply IH; eauto].
    destruct nest as [| nest]; auto.
    destruct (exec P cprog k nest m C' cap' _) as [e d g' | | |] eqn:E.
    + erewrite IH; [| exact L' | | exact E]; [| discriminate]. eapply IH; eauto.
    + now subst.
    + erewrite IH; [| exact L' | | exact E]; [assumption | discriminate].
    + erewrite IH; [| exact L' | | exact E]; [assumption | discriminate].
Qed.

Section Frame.
Variable nest me : nat.
Variable C : list (op nat).
Variable cap : nat.
Notation run k := (exec P cprog k nest me C cap).

(* the rest of the run from [a] is the run from [b] *)
Definition leads (a b : vst G R) : Prop :=
  (forall k r, r <> VFuel -> run k a = r -> run k b = r) /\
  (exists j, forall k r, r <> VFuel -> run k b = r -> run (j + k) a = r).
Definition late (f : nat) (a : vst G R) : Prop := forall k, k <= f -> run k a = VFuel.
Definition one (a b : vst G R) : Prop := forall k, run (S k) a = run k b.

Lemma leads_refl : forall a, leads a a.
Proof. split; [auto | exists 0; auto]. Qed.
Lemma leads_trans : forall a b c, leads a b -> leads b c -> leads a c.
Proof.
  intros a b c [A (i & I)] [B (j & J)]. split; [eauto |].
  exists (i + j). intros k r N H. rewrite <- Nat.add_assoc. auto.
Qed.
Lemma leads_one : forall a b, one a b -> leads a b.
Proof.
  intros a b O. split.
  - intros k r N H. destruct k as [| k]; [cbn in H; congruence |]. rewrite O in H. eapply exec_mono; [| | exact H]; auto.
  - exists 1. intros k r N H. cbn [Nat.add]. now rewrite O.
Qed.
Lemma late_le : forall f f' a, f' <= f -> late f a -> late f' a.
Proof. intros f f' a L H k K. apply H. lia. Qed.
Lemma late_leads : forall f a b, leads a b -> late f b -> late f a.
Proof.
  intros f a b [A _] B k K. specialize (B k K).
  assert (run k a = VFuel \/ run k a <> VFuel) as [| N] by (destruct (run k a); (left; reflexivity) || (right; discriminate)); auto.
  pose proof (A k _ N eq_refl). congruence.
Qed.
Lemma late_one : forall f a b, one a b -> late f b -> late (S f) a.
Proof. intros f a b O B k K. destruct k; [reflexivity |]. rewrite O. apply B. lia. Qed.
End Frame.
End Run.
