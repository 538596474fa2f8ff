(** * Mangled names are distinct and found only where they are declared *)

From Coq Require Import String.
From Coq Require Import List Lia.
Import ListNotations.
From Verif Require Import Base CLib Bytes Type_model Dispatch_model Switch_model Switch_proofs.
From Verif Require Import Precomp_syntax Precomp_table Precomp_model Precomp_spec.

Lemma name_eq_spec a : forall b, name_eq a b = true <-> a = b.
Proof.
  induction a as [| x a IH]; intros [| y b]; cbn [name_eq]; [split; auto | split; discriminate | split; discriminate |].
  rewrite andb_true_iff, Z.eqb_eq, IH. split; [intros (? & ?); congruence | intros E; inversion E; auto].
Qed.

Lemma name_eq_refl a : name_eq a a = true.
Proof. apply name_eq_spec. reflexivity. Qed.

Lemma occurs_strstr p s : occurs p s <-> strstr s p = true.
Proof. symmetry. apply strstr_spec. Qed.

Lemma occurs_trans p q s : occurs p q -> occurs q s -> occurs p s.
Proof.
  intros (a & b & ->) (c & d & ->). exists (c ++ a), (b ++ d). rewrite <- !app_assoc. reflexivity.
Qed.

Lemma occurs_refl p : occurs p p.
Proof. exists [], []. rewrite app_nil_r. reflexivity. Qed.

Lemma ends_app a b c : b <> [] -> ends_with (a ++ b) [c] -> ends_with b [c].
Proof.
  intros N (x & E). destruct (exists_last N) as (b' & z & ->).
  rewrite app_assoc in E. apply app_inj_tail in E as (_ & ->). exists b'. reflexivity.
Qed.

Lemma ends_cons_app a b c : ends_with b [c] -> ends_with (a ++ b) [c].
Proof. intros (x & ->). exists (a ++ x). rewrite app_assoc. reflexivity. Qed.

(** ** Runs of underscores *)
Definition us (n : nat) : name := repeat 95 n.

Lemma us_app n m : us (n + m) = us n ++ us m.
Proof. apply repeat_app. Qed.

Lemma us_prefix n v l r : us n ++ v = l ++ r ->
  (l = us (length l)) \/ exists w, l = us n ++ w /\ v = w ++ r.
Proof.
  intros E. apply app_eq_app in E as (w & [(E1 & E2) | (E1 & E2)]).
  - left. assert (Q : forall l w n, us n = l ++ w -> l = us (length l)).
    { clear. induction l as [| x l IH]; intros w n E; [reflexivity |].
      destruct n; cbn in E; [discriminate |]. injection E as <- E. cbn. f_equal. eapply IH. exact E. }
    eapply Q. exact E1.
  - right. exists w. split; auto.
Qed.

Lemma us_ends l : l = us (length l) -> l <> [] -> ends_with l [95].
Proof.
  intros E N. rewrite E. destruct (length l) as [| k] eqn:L; [destruct l; [congruence | discriminate] |].
  exists (us k). rewrite <- Nat.add_1_r, us_app. reflexivity.
Qed.

Lemma sep_split n u v c r : u ++ us n ++ v = c ++ us n ++ r ->
  ~ occurs (us n) c -> ~ ends_with c [95] -> ~ ends_with u [95] ->
  (u = c /\ v = r) \/ exists w, u = c ++ us n ++ w /\ w ++ us n ++ v = r.
Proof.
  intros E NC EC EU. apply app_eq_app in E as (l & [(E1 & E2) | (E1 & E2)]).
  - (* u = c ++ l *)
    destruct (list_eq_dec Z.eq_dec l []) as [-> | N].
    { left. rewrite app_nil_r in E1. cbn in E2. apply app_inv_head in E2. auto. }
    destruct (us_prefix _ _ _ _ E2) as [Q | (w & -> & ->)].
    + exfalso. apply EU. subst u. apply ends_cons_app, us_ends; auto.
    + right. exists w. auto.
  - destruct (list_eq_dec Z.eq_dec l []) as [-> | N].
    { left. rewrite app_nil_r in E1. cbn in E2. apply app_inv_head in E2. auto. }
    destruct (us_prefix _ _ _ _ E2) as [Q | (w & -> & ->)].
    + exfalso. apply EC. subst c. apply ends_cons_app, us_ends; auto.
    + exfalso. apply NC. subst c. exists u, w. reflexivity.
Qed.

(** ** Occurrences in texts made of words and literals *)
Definition wordb (c : Z) : bool :=
  ((48 <=? c) && (c <=? 57)) || ((65 <=? c) && (c <=? 90)) || ((97 <=? c) && (c <=? 122)) || (c =? 95) || (c =? 36).

Lemma wordb_spec c : wordb c = true <-> word c.
Proof.
  unfold wordb, word. rewrite !orb_true_iff, !andb_true_iff, !Z.leb_le, !Z.eqb_eq. lia.
Qed.

Lemma occ_split p a c b : Forall word p -> p <> [] -> ~ word c -> occurs p (a ++ c :: b) -> occurs p a \/ occurs p b.
Proof.
  intros W N C (x & y & E).
  assert (NI : ~ In c p) by (rewrite Forall_forall in W; intros I; apply C; auto).
  apply app_eq_app in E as (l & [(E1 & E2) | (E1 & E2)]).
  - apply app_eq_app in E2 as (l' & [(E3 & E4) | (E3 & E4)]).
    + destruct l' as [| z l'].
      * rewrite app_nil_r in E3. subst. left. exists x, []. rewrite app_nil_r. reflexivity.
      * cbn in E4. injection E4 as -> E4. exfalso. apply NI. subst p. apply in_or_app. right. left. reflexivity.
    + subst. left. exists x, l'. reflexivity.
  - destruct l as [| z l].
    + cbn in E2. destruct p as [| z p]; [congruence |]. cbn in E2. injection E2 as -> _. exfalso. apply NI. left; auto.
    + cbn in E2. injection E2 as -> E2. right. exists l, y. auto.
Qed.

Definition litb (s : name) : bool :=
  match s with
  | [] => false
  | c :: _ => negb (wordb c) && negb (wordb (last s 0)) && negb (strstr s SEP)
  end.

Lemma lit_split p a s b : litb s = true -> Forall word p -> occurs SEP p -> occurs p (a ++ s ++ b) ->
  occurs p a \/ occurs p b.
Proof.
  intros L W S O. assert (N : p <> []).
  { intros ->. destruct S as (x & y & E). destruct x; discriminate. }
  destruct s as [| c s]; [discriminate |]. cbn [litb] in L.
  rewrite !andb_true_iff, !negb_true_iff in L. destruct L as ((L1 & L2) & L3).
  assert (NC : ~ word c) by (rewrite <- wordb_spec, L1; discriminate).
  destruct (occ_split p a c (s ++ b) W N NC O) as [? | O']; auto.
  destruct s as [| c' s'] eqn:Es.
  { right. exact O'. }
  rewrite <- Es in *. assert (Ns : s <> []) by (subst; discriminate).
  destruct (exists_last Ns) as (s2 & z & Ez).
  assert (LZ : last (c :: s) 0 = z).
  { rewrite Ez. change (c :: s2 ++ [z]) with ((c :: s2) ++ [z]). apply last_last. }
  rewrite LZ in L2. assert (NZ : ~ word z) by (rewrite <- wordb_spec, L2; discriminate).
  rewrite Ez, <- app_assoc in O'. destruct (occ_split p s2 z b W N NZ O') as [O2 |]; auto.
  exfalso. assert (Q : strstr (c :: s) SEP = true); [| congruence].
  apply occurs_strstr. eapply occurs_trans; [exact S |]. eapply occurs_trans; [exact O2 |].
  rewrite Ez. exists [c], [z]. reflexivity.
Qed.

Lemma occ_nil p : p <> [] -> ~ occurs p [].
Proof. intros N (a & b & E). destruct a; [destruct p; [congruence | discriminate] | discriminate]. Qed.

(** ** Joined parts *)
Fixpoint ur (n : nat) (s : name) : bool :=
  match s with
  | [] => true
  | c :: s' => if c =? 95 then (n <? 3)%nat && ur (S n) s' else ur 0 s'
  end.

Lemma ur_sep a b : forall n, ur n (a ++ us 4 ++ b) = false.
Proof.
  induction a as [| c a IH]; intros n.
  - cbn -[Nat.ltb]. destruct (Nat.ltb_spec n 3), (Nat.ltb_spec (S n) 3), (Nat.ltb_spec (S (S n)) 3), (Nat.ltb_spec (S (S (S n))) 3); try reflexivity; lia.
  - cbn [ur app]. destruct (c =? 95); rewrite IH; auto using andb_false_r.
Qed.

Lemma pair_tail c p : ~ occurs [95; 95] (c :: p) -> ~ occurs [95; 95] p.
Proof. intros N (a & b & ->). apply N. exists (c :: a), b. reflexivity. Qed.

Lemma ur_part p s : p <> [] -> ~ occurs [95; 95] p -> ~ ends_with p [95] ->
  forall n, ((n <= 2)%nat \/ hd 0 p <> 95) -> ur n (p ++ s) = ur 0 s.
Proof.
  induction p as [| c p IH]; intros NE NP EN n H; [congruence |].
  assert (EP : p <> [] -> ~ ends_with p [95]).
  { intros _ Q. apply EN. apply (ends_cons_app [c]) in Q. exact Q. }
  cbn [ur app]. destruct (Z.eqb_spec c 95) as [-> | C].
  - destruct H as [H | H]; [| cbn in H; congruence].
    destruct p as [| d p]; [exfalso; apply EN; exists []; reflexivity |].
    destruct (Nat.ltb_spec n 3); [| lia]. cbn [andb]. apply IH; try discriminate.
    + eapply pair_tail; eauto.
    + apply EP. discriminate.
    + right. cbn. intros ->. apply NP. exists [], p. reflexivity.
  - destruct p as [| d p]; [reflexivity |]. apply IH; try discriminate.
    + eapply pair_tail; eauto.
    + apply EP. discriminate.
    + left. lia.
Qed.

Lemma ur_join ps : Forall good_word ps -> forall n, (n <= 2)%nat -> ur n (join [95; 95] ps) = true.
Proof.
  induction 1 as [| p ps G F IH]; intros n L; [reflexivity |]. destruct G.
  destruct ps as [| q ps].
  - cbn [join]. rewrite <- (app_nil_r p), ur_part; auto.
  - change (join [95; 95] (p :: q :: ps)) with (p ++ [95; 95] ++ join [95; 95] (q :: ps)).
    rewrite ur_part by auto. cbn [app ur]. apply IH. lia.
Qed.

Lemma join_no_sep ps : Forall good_word ps -> ~ occurs SEP (join [95; 95] ps).
Proof.
  intros F (a & b & E). pose proof (ur_join ps F 0 ltac:(lia)) as U. rewrite E in U.
  change SEP with (us 4) in U. rewrite ur_sep in U. discriminate.
Qed.

Lemma join_nonempty ps : ps <> [] -> Forall good_word ps -> join [95; 95] ps <> [].
Proof.
  intros N F. destruct F as [| p ps G F]; [congruence |]. destruct G. cbn [join].
  destruct ps; [auto |]. destruct p; [congruence | discriminate].
Qed.

Lemma join_no_end ps : ps <> [] -> Forall good_word ps -> ~ ends_with (join [95; 95] ps) [95].
Proof.
  induction ps as [| p ps IH]; intros N F; [congruence |]. inversion F as [| ? ? G F']; subst.
  destruct ps as [| q ps]; [apply G |].
  change (join [95; 95] (p :: q :: ps)) with (p ++ [95; 95] ++ join [95; 95] (q :: ps)).
  intros Q. rewrite app_assoc in Q. apply ends_app in Q; [| apply join_nonempty; auto; discriminate].
  revert Q. apply IH; auto. discriminate.
Qed.

Lemma join_inj ps : forall qs, Forall good_word ps -> Forall good_word qs -> ps <> [] -> qs <> [] ->
  join [95; 95] ps = join [95; 95] qs -> ps = qs.
Proof.
  assert (K : forall p x, good_word p -> forall y, p <> x ++ us 2 ++ y).
  { intros p x G y ->. destruct G as [_ _ NP _]. apply NP. exists x, y. reflexivity. }
  induction ps as [| p ps IH]; intros qs F G NP NQ E; [congruence |].
  inversion F as [| ? ? Gp F']; subst. destruct qs as [| q qs]; [congruence |].
  inversion G as [| ? ? Gq G']; subst.
  destruct ps as [| p2 ps], qs as [| q2 qs].
  - cbn in E. congruence.
  - exfalso. change (join [95; 95] (q :: q2 :: qs)) with (q ++ us 2 ++ join [95; 95] (q2 :: qs)) in E.
    cbn [join] in E. eapply K; [exact Gp | exact E].
  - exfalso. change (join [95; 95] (p :: p2 :: ps)) with (p ++ us 2 ++ join [95; 95] (p2 :: ps)) in E.
    cbn [join] in E. eapply K; [exact Gq | symmetry; exact E].
  - change (join [95; 95] (p :: p2 :: ps)) with (p ++ us 2 ++ join [95; 95] (p2 :: ps)) in E.
    change (join [95; 95] (q :: q2 :: qs)) with (q ++ us 2 ++ join [95; 95] (q2 :: qs)) in E.
    destruct (sep_split _ _ _ _ _ E) as [(-> & E') | (w & Q & _)].
    + apply (gw_pair _ Gq).
    + apply (gw_end _ Gq).
    + apply (gw_end _ Gp).
    + f_equal. apply IH; auto; discriminate.
    + exfalso. eapply K; [exact Gp | exact Q].
Qed.

Lemma replace_word p : Forall word p -> replace_colon p = p.
Proof.
  induction 1 as [| c p W F IH]; [reflexivity |]. cbn [replace_colon map].
  change (map _ p) with (replace_colon p). rewrite IH. unfold word in W.
  destruct (Z.eqb_spec c 58); [lia | reflexivity].
Qed.

Lemma replace_join ps : Forall good_word ps -> replace_colon (join [58; 58] ps) = join [95; 95] ps.
Proof.
  induction 1 as [| p ps G F IH]; [reflexivity |]. destruct ps as [| q ps].
  - cbn [join]. apply replace_word, G.
  - change (join [58; 58] (p :: q :: ps)) with (p ++ [58; 58] ++ join [58; 58] (q :: ps)).
    change (join [95; 95] (p :: q :: ps)) with (p ++ [95; 95] ++ join [95; 95] (q :: ps)).
    unfold replace_colon in *. rewrite !map_app, IH. f_equal. apply replace_word, G.
Qed.

Lemma join_chars ps : Forall good_word ps -> Forall word (join [95; 95] ps).
Proof.
  induction 1 as [| p ps G F IH]; [constructor |]. destruct ps as [| q ps]; [apply G |].
  change (join [95; 95] (p :: q :: ps)) with (p ++ [95; 95] ++ join [95; 95] (q :: ps)).
  apply Forall_app. split; [apply G |]. apply Forall_app. split; auto.
  repeat constructor; unfold word; lia.
Qed.

(** The mangled name of a good class. *)
Record good_mangled (s : name) : Prop := {
  gm_nonempty : s <> [];
  gm_chars : Forall word s;
  gm_sep : ~ occurs SEP s;
  gm_end : ~ ends_with s [95];
  gm_type : ~ ends_with s (bytes "basic_type")
}.

Lemma good_class_mangled t : good_class t -> good_mangled (replace_colon t).
Proof.
  intros (ps & N & F & -> & T). rewrite replace_join by auto. constructor; auto.
  - apply join_nonempty; auto.
  - apply join_chars; auto.
  - apply join_no_sep; auto.
  - apply join_no_end; auto.
Qed.

Lemma good_class_inj t t' : good_class t -> good_class t' -> replace_colon t = replace_colon t' -> t = t'.
Proof.
  intros (ps & N & F & -> & T) (qs & N' & F' & -> & T') E. rewrite !replace_join in E by auto.
  f_equal. apply join_inj; auto.
Qed.

Lemma good_class_text t : good_class t -> ~ occurs SEP t.
Proof.
  intros (ps & N & F & -> & T) O.
  assert (P : occurs [95; 95] (join [58; 58] ps)).
  { eapply occurs_trans; [| exact O]. exists [], [95; 95]. reflexivity. }
  clear O T. induction F as [| p ps G F IH]; [congruence |]. destruct ps as [| q ps].
  - cbn [join] in P. destruct G. auto.
  - change (join [58; 58] (p :: q :: ps)) with (p ++ [58; 58] ++ join [58; 58] (q :: ps)) in P.
    assert (W : Forall word [95; 95]) by (repeat constructor; unfold word; lia).
    assert (C : ~ word 58) by (unfold word; lia).
    destruct (occ_split [95; 95] p 58 (58 :: join [58; 58] (q :: ps)) W ltac:(discriminate) C P) as [Q | Q].
    + destruct G. auto.
    + destruct (occ_split [95; 95] [] 58 (join [58; 58] (q :: ps)) W ltac:(discriminate) C Q) as [Q' | Q'].
      * apply occ_nil in Q'; [auto | discriminate].
      * apply IH; auto. discriminate.
Qed.

Lemma good_word_mangled p : good_word p -> replace_colon p = p /\ ~ occurs SEP p.
Proof.
  intros G. destruct G as [N W P E]. split; [apply replace_word; auto |].
  intros O. apply P. eapply occurs_trans; [| exact O]. exists [], [95; 95]. reflexivity.
Qed.

(** ** Identifiers *)
Lemma label_suffix x k k' : x ++ label k = label k' -> x = [] /\ k = k'.
Proof.
  intros E. apply (f_equal (@rev Z)) in E. rewrite rev_app_distr in E.
  destruct k, k'; cbn in E; try discriminate E; try (injection E as E; discriminate E).
  all: injection E as E; apply (f_equal (@rev Z)) in E; rewrite rev_involutive in E; split; auto.
Qed.

Lemma label_facts k : ~ occurs SEP (label k) /\ ~ ends_with (label k) [95] /\ label k <> [] /\ Forall word (label k).
Proof.
  split; [| split; [| split]].
  - rewrite occurs_strstr. destruct k; vm_compute; discriminate.
  - intros (a & E). apply (f_equal (@rev Z)) in E. rewrite rev_app_distr in E. destruct k; cbn in E; discriminate.
  - destruct k; discriminate.
  - apply Forall_forall. intros c I. apply wordb_spec.
    assert (Q : forallb wordb (label k) = true) by (destruct k; reflexivity).
    rewrite forallb_forall in Q. auto.
Qed.

Lemma label_type x k s : s <> [] -> x ++ bytes "basic_type" = label k ++ SEP ++ s -> ends_with s (bytes "basic_type").
Proof.
  intros N E. rewrite app_assoc in E. apply app_eq_app in E as (l & [(E1 & E2) | (E1 & E2)]).
  - exists l. auto.
  - destruct l as [| z l].
    + exists []. cbn in E2. auto.
    + exfalso. apply (f_equal (@rev Z)) in E1. rewrite !rev_app_distr in E1.
      destruct k;
      repeat (cbn in E2; match type of E2 with
        | ?a = ?b :: _ => idtac
        end;
        injection E2 as <- E2;
        (cbn in E1; discriminate E1) ||
        (destruct l as [| ? l]; [cbn in E1; discriminate E1 |])).
      all: cbn in E2; try discriminate E2.
Qed.

Definition members (d : decl) : name := match d_kind d with KType => [] | _ => replace_colon (d_member d) ++ SEP end.

Lemma ident_parts d : ident d = label (d_kind d) ++ SEP ++ replace_colon (d_class d) ++ SEP ++ members d.
Proof. unfold ident, members. destruct (d_kind d); reflexivity. Qed.

Lemma sep_nonempty a b : a ++ SEP ++ b <> [].
Proof. destruct a; discriminate. Qed.

Lemma not_ends_suffix a w c : ~ ends_with (a ++ w) [c] -> ~ ends_with w [c].
Proof. intros N Q. apply N. apply ends_cons_app. auto. Qed.

Definition same (u d : decl) : Prop :=
  d_kind u = d_kind d /\ d_class u = d_class d /\ (d_kind u <> KType -> d_member u = d_member d).

Lemma ident_occurs u d : good_decl u -> good_decl d -> occurs (ident u) (ident d) -> same u d.
Proof.
  intros (Cu & Mu) (Cd & Md) (x & y & E). rewrite !ident_parts in E.
  destruct (good_class_mangled _ Cu) as [NCu WCu SCu ECu TCu].
  destruct (good_class_mangled _ Cd) as [NCd WCd SCd ECd TCd].
  destruct (label_facts (d_kind u)) as (Lu1 & Lu2 & Lu3 & _).
  destruct (label_facts (d_kind d)) as (Ld1 & Ld2 & Ld3 & _).
  pose proof (good_class_inj _ _ Cu Cd) as INJ.
  set (cu := replace_colon (d_class u)) in *. set (cd := replace_colon (d_class d)) in *.
  assert (E' : (x ++ label (d_kind u)) ++ us 4 ++ (cu ++ SEP ++ members u ++ y) = label (d_kind d) ++ us 4 ++ (cd ++ SEP ++ members d)).
  { change (us 4) with SEP. rewrite E. rewrite <- !app_assoc. reflexivity. }
  clear E. assert (EX : ~ ends_with (x ++ label (d_kind u)) [95]).
  { intros Q. apply ends_app in Q; auto. }
  destruct (sep_split _ _ _ _ _ E' Ld1 Ld2 EX) as [(A & B) | (w & A & B)].
  - apply label_suffix in A as (-> & K).
    destruct (sep_split 4 _ _ _ _ B SCd ECd ECu) as [(C & D) | (w & C & _)].
    2:{ exfalso. apply SCu. rewrite C. exists cd, w. reflexivity. }
    split; [auto |]. split; [apply INJ; auto |]. intros NK.
    assert (Du : members u = d_member u ++ SEP).
    { unfold members. destruct (good_word_mangled _ (Mu NK)) as (R & _). rewrite R. destruct (d_kind u); congruence. }
    assert (Dd : members d = d_member d ++ SEP).
    { unfold members. destruct (good_word_mangled _ (Md ltac:(congruence))) as (R & _). rewrite R. destruct (d_kind d); congruence. }
    rewrite Du, Dd, <- app_assoc in D. rewrite <- (app_nil_r (d_member d ++ SEP)), <- app_assoc in D.
    pose proof (Mu NK) as Gu. pose proof (Md ltac:(congruence)) as Gd.
    destruct (sep_split 4 _ _ _ _ D) as [(Q & _) | (w & Q & _)]; auto.
    + apply good_word_mangled. auto.
    + apply gw_end. auto.
    + apply gw_end. auto.
    + exfalso. apply (proj2 (good_word_mangled _ Gu)). rewrite Q. exists (d_member d), w. reflexivity.
  - exfalso.
    assert (EW : ~ ends_with w [95]).
    { rewrite A in EX. apply not_ends_suffix in EX. apply not_ends_suffix in EX. exact EX. }
    assert (MD : members d = [] \/ (good_word (d_member d) /\ members d = d_member d ++ SEP)).
    { unfold members. destruct (d_kind d) eqn:KD; auto; right;
      (assert (G : good_word (d_member d)) by (apply Md; discriminate));
      rewrite (proj1 (good_word_mangled _ G)); auto. }
    destruct (sep_split 4 _ _ _ _ B SCd ECd EW) as [(-> & C) | (w' & -> & C)].
    + destruct MD as [MD | (G & MD)]; rewrite MD in C.
      { revert C. apply sep_nonempty. }
      rewrite <- (app_nil_r (d_member d ++ SEP)), <- app_assoc in C.
      destruct (sep_split 4 _ _ _ _ C (proj2 (good_word_mangled _ G)) (gw_end _ G) ECu) as [(Q & R) | (w & Q & R)].
      2:{ revert R. change (us 4) with SEP. apply sep_nonempty. }
      apply app_eq_nil in R as (R & ->).
      assert (KU : d_kind u = KType).
      { unfold members in R. destruct (d_kind u); auto; apply app_eq_nil in R as (_ & R); discriminate. }
      rewrite KU in A. apply TCd. eapply label_type; eauto.
    + assert (EW' : ~ ends_with w' [95]).
      { apply not_ends_suffix in EW. apply not_ends_suffix in EW. exact EW. }
      destruct MD as [MD | (G & MD)]; rewrite MD in C.
      { revert C. change (us 4) with SEP. apply sep_nonempty. }
      rewrite <- (app_nil_r (d_member d ++ SEP)), <- app_assoc in C.
      destruct (sep_split 4 _ _ _ _ C (proj2 (good_word_mangled _ G)) (gw_end _ G) EW') as [(Q & R) | (w & Q & R)].
      * revert R. apply sep_nonempty.
      * revert R. change (us 4) with SEP. apply sep_nonempty.
Qed.

Lemma same_ident u d : same u d -> ident u = ident d.
Proof.
  intros (K & C & M). unfold ident. rewrite K, C. destruct (d_kind d) eqn:E; auto; rewrite M by congruence; reflexivity.
Qed.

Lemma same_eval rt u d : same u d -> eval_decl rt u = eval_decl rt d.
Proof.
  intros (K & C & M). unfold eval_decl. rewrite K, C. destruct (d_kind d) eqn:E; auto; rewrite M by congruence; reflexivity.
Qed.

Lemma ident_word d : good_decl d -> Forall word (ident d) /\ occurs SEP (ident d).
Proof.
  intros (C & M). destruct (good_class_mangled _ C) as [_ WC _ _ _].
  destruct (label_facts (d_kind d)) as (_ & _ & _ & WL).
  assert (WS : Forall word SEP) by (repeat constructor; unfold word; lia).
  rewrite ident_parts. split.
  - apply Forall_app. split; auto. apply Forall_app. split; auto. apply Forall_app. split; auto.
    apply Forall_app. split; auto. unfold members. destruct (d_kind d) eqn:K; [constructor | ..];
    (apply Forall_app; split; auto; assert (G : good_word (d_member d)) by (apply M; discriminate);
     rewrite (proj1 (good_word_mangled _ G)); apply G).
  - exists (label (d_kind d)), (replace_colon (d_class d) ++ SEP ++ members d). reflexivity.
Qed.

(** ** The declarations *)
Definition pieces (d : decl) : list name := [ident d; d_class d; match d_kind d with KType => [] | _ => d_member d end].

Lemma decl_text_occ p d rest : Forall word p -> occurs SEP p -> occurs p (decl_text d ++ rest) ->
  (exists w, In w (pieces d) /\ occurs p w) \/ occurs p rest.
Proof.
  intros W S O. assert (N : p <> []).
  { intros ->. destruct S as (x & y & E). destruct x; discriminate. }
  unfold decl_text in O. set (i := ident d) in *.
  assert (Step : forall a s b, litb s = true -> occurs p (a ++ s ++ b) -> occurs p a \/ occurs p b).
  { intros a s b L Q. eapply lit_split; eauto. }
  assert (P1 : occurs p i -> (exists w, In w (pieces d) /\ occurs p w) \/ occurs p rest).
  { intros Q. left. exists i. split; auto. left. reflexivity. }
  assert (P2 : occurs p (d_class d) -> (exists w, In w (pieces d) /\ occurs p w) \/ occurs p rest).
  { intros Q. left. exists (d_class d). split; auto. right; left. reflexivity. }
  destruct (d_kind d) eqn:K; rewrite <- !app_assoc in O.
  1: { apply (Step [] (bytes "  void* ")) in O as [O | O]; [apply occ_nil in O; [destruct O | auto] | | reflexivity].
    assert (O' : occurs p (i ++ (bytes " = NULL;" ++ NL ++ bytes "  if (!") ++ i ++ (bytes ") {" ++ NL ++ bytes "    ") ++ i ++
      getter KType ++ d_class d ++ error_check ++ rest)) by (rewrite app_nil_l in O; rewrite !app_assoc in *; exact O).
    clear O. apply Step in O' as [O | O]; [apply P1; auto | | reflexivity].
    apply Step in O as [O | O]; [apply P1; auto | | reflexivity].
    apply Step in O as [O | O]; [apply P1; auto | | reflexivity].
    apply Step in O as [O | O]; [apply P2; auto | auto | reflexivity]. }
  1: { apply (Step [] (bytes "  int32_t ")) in O as [O | O]; [apply occ_nil in O; [destruct O | auto] | | reflexivity].
    assert (O' : occurs p (i ++ (bytes " = -1;" ++ NL ++ bytes "  if (") ++ i ++ (bytes " < 0) {" ++ NL ++ bytes "    ") ++ i ++
      getter KField ++ d_class d ++ bytes """, """ ++ d_member d ++ error_check ++ rest)) by (rewrite !app_assoc in *; exact O).
    clear O. apply Step in O' as [O | O]; [apply P1; auto | | reflexivity].
    apply Step in O as [O | O]; [apply P1; auto | | reflexivity].
    apply Step in O as [O | O]; [apply P1; auto | | reflexivity].
    apply Step in O as [O | O]; [apply P2; auto | | reflexivity].
    apply Step in O as [O | O]; [| auto | reflexivity].
    left. exists (d_member d). split; auto. unfold pieces. rewrite K. right; right; left. reflexivity. }
  1: { apply (Step [] (bytes "  void* ")) in O as [O | O]; [apply occ_nil in O; [destruct O | auto] | | reflexivity].
    assert (O' : occurs p (i ++ (bytes " = NULL;" ++ NL ++ bytes "  if (!") ++ i ++ (bytes ") {" ++ NL ++ bytes "    ") ++ i ++
      getter KClassVar ++ d_class d ++ bytes """, """ ++ d_member d ++ error_check ++ rest)) by (rewrite !app_assoc in *; exact O).
    clear O. apply Step in O' as [O | O]; [apply P1; auto | | reflexivity].
    apply Step in O as [O | O]; [apply P1; auto | | reflexivity].
    apply Step in O as [O | O]; [apply P1; auto | | reflexivity].
    apply Step in O as [O | O]; [apply P2; auto | | reflexivity].
    apply Step in O as [O | O]; [| auto | reflexivity].
    left. exists (d_member d). split; auto. unfold pieces. rewrite K. right; right; left. reflexivity. }
  1: { apply (Step [] (bytes "  void* ")) in O as [O | O]; [apply occ_nil in O; [destruct O | auto] | | reflexivity].
    assert (O' : occurs p (i ++ (bytes " = NULL;" ++ NL ++ bytes "  if (!") ++ i ++ (bytes ") {" ++ NL ++ bytes "    ") ++ i ++
      getter KMethod ++ d_class d ++ bytes """, """ ++ d_member d ++ error_check ++ rest)) by (rewrite !app_assoc in *; exact O).
    clear O. apply Step in O' as [O | O]; [apply P1; auto | | reflexivity].
    apply Step in O as [O | O]; [apply P1; auto | | reflexivity].
    apply Step in O as [O | O]; [apply P1; auto | | reflexivity].
    apply Step in O as [O | O]; [apply P2; auto | | reflexivity].
    apply Step in O as [O | O]; [| auto | reflexivity].
    left. exists (d_member d). split; auto. unfold pieces. rewrite K. right; right; left. reflexivity. }
Qed.

Lemma decl_text_ident d : occurs (ident d) (decl_text d).
Proof.
  unfold decl_text. destruct (d_kind d); (eexists (bytes _); eexists; rewrite <- !app_assoc; reflexivity).
Qed.

Lemma decls_text_ident ds d : In d ds -> occurs (ident d) (decls_text ds).
Proof.
  induction ds as [| d' ds IH]; intros I; [destruct I |]. destruct I as [-> | I]; cbn [decls_text].
  - eapply occurs_trans; [apply decl_text_ident |]. exists [], (decls_text ds). reflexivity.
  - eapply occurs_trans; [apply IH; auto |]. exists (decl_text d'), []. rewrite app_nil_r. reflexivity.
Qed.

Lemma decls_text_occ u ds : good_decl u -> Forall good_decl ds -> occurs (ident u) (decls_text ds) ->
  exists d, In d ds /\ same u d.
Proof.
  intros G F. destruct (ident_word u G) as (W & S).
  assert (N : ident u <> []).
  { intros E. rewrite E in S. apply occ_nil in S; auto. discriminate. }
  induction F as [| d ds Gd F IH]; cbn [decls_text]; intros O.
  - apply occ_nil in O; [destruct O | auto].
  - destruct (decl_text_occ _ _ _ W S O) as [(w & I & O') | O'].
    + destruct Gd as (Cd & Md). destruct I as [<- | [<- | [<- | []]]].
      * exists d. split; [left; auto |]. apply ident_occurs; auto. split; auto.
      * exfalso. apply (good_class_text _ Cd). eapply occurs_trans; eauto.
      * exfalso. destruct (d_kind d) eqn:K.
        { apply occ_nil in O'; auto. }
        all: apply (proj2 (good_word_mangled _ (Md ltac:(discriminate)))); eapply occurs_trans; eauto.
    + destruct (IH O') as (d' & I & E). exists d'. split; [right; auto | auto].
Qed.

Lemma declare_all_ok l : Forall good_decl l ->
  let ds := declare_all l in
  (forall d, In d ds -> In d l) /\ NoDup (map ident ds) /\
  (forall u, In u l -> exists d, In d ds /\ same u d).
Proof.
  intros F. unfold declare_all.
  assert (P : forall l ds, Forall good_decl l -> Forall good_decl ds -> NoDup (map ident ds) ->
    let r := fold_left declare l ds in
    (forall d, In d r -> In d ds \/ In d l) /\ NoDup (map ident r) /\ (forall d, In d ds -> In d r) /\
    (forall u, In u l -> exists d, In d r /\ same u d)).
  { clear l F. induction l as [| u l IH]; intros ds F G N; cbn [fold_left].
    - split; [| split; [| split]]; auto. intros u [].
    - inversion F as [| ? ? Gu F']; subst. cbv zeta. replace (declare ds u) with (if strstr (decls_text ds) (ident u) then ds else ds ++ [u]) by reflexivity.
      destruct (strstr (decls_text ds) (ident u)) eqn:S.
      + destruct (IH ds F' G N) as (A & B & C & D). split; [| split; [| split]]; auto.
        * intros d I. destruct (A d I); auto. right; right; auto.
        * intros u' [<- | I]; auto. apply occurs_strstr in S.
          destruct (decls_text_occ u ds Gu G S) as (d & I & E). exists d. auto.
      + destruct (IH (ds ++ [u]) F') as (A & B & C & D).
        * apply Forall_app. split; auto.
        * rewrite map_app. cbn [map].
          apply NoDup_Add with (a := ident u) (l := map ident ds).
          { rewrite <- (app_nil_r (map ident ds)) at 1. apply Add_app. }
          split; auto. intros I. apply in_map_iff in I as (d & E & I).
          assert (Q : strstr (decls_text ds) (ident u) = true); [| congruence].
          apply occurs_strstr. rewrite <- E. apply decls_text_ident. auto.
        * split; [| split; [| split]]; auto.
          -- intros d I. destruct (A d I) as [I' |]; [| right; right; auto].
             apply in_app_or in I' as [| [-> | []]]; auto. right; left; auto.
          -- intros d I. apply C. apply in_or_app. auto.
          -- intros u' [<- | I]; auto. exists u. split; [apply C; apply in_or_app; right; left; auto |].
             split; auto. }
  destruct (P l [] F (Forall_nil _) (NoDup_nil _)) as (A & B & _ & D).
  cbv zeta. split; [| split]; auto. intros d I. destruct (A d I) as [[] |]; auto.
Qed.
