(** * C35: split, join and repeat *)
From Verif Require Import Base StM CLib FnStr_spec StrBuf_spec FnSplit_model FnSplit_spec FnSplit_proofs.

(** split gives the pieces of the string: cut at the leftmost separator, and
    again in the rest, into at most [limit] pieces if [limit] is positive. *)
Theorem C35_split s sep limit :
  is_string s -> is_string sep -> sep <> [] -> in_i32 limit -> limit <> 0 ->
  exists ps, split (Some sep) (Some s) limit = Ret ps /\ pieces sep limit s ps.
Proof.
  intros S P N L Z. destruct (split_nonzero s sep limit S P N L) as (ps & PC & E).
  exists ps. destruct (Z.eqb_spec limit 0); [lia | auto].
Qed.
Print Assumptions C35_split.

(** That determines the pieces. *)
Theorem C35_pieces_unique sep limit s ps qs :
  sep <> [] -> pieces sep limit s ps -> pieces sep limit s qs -> ps = qs.
Proof. apply pieces_fun. Qed.
Print Assumptions C35_pieces_unique.

(** Joining the pieces gives back the string. *)
Theorem C35_join_split s sep limit :
  is_string s -> is_string sep -> sep <> [] -> in_i32 limit -> limit <> 0 -> zlen s <= max_length ->
  exists ps, split (Some sep) (Some s) limit = Ret ps /\ join (Some sep) (Some (map Some ps)) = Ret s.
Proof.
  intros S P N L Z M. destruct (C35_split s sep limit S P N L Z) as (ps & E & PC). exists ps. split; auto.
  assert (ET : map text (map Some ps) = ps) by (rewrite map_map; apply map_id).
  pose proof (pieces_joined _ _ _ _ PC) as J.
  rewrite join_ok, ET, J; auto.
  - apply Forall_forall. intros x X. apply in_map_iff in X as (p & <- & IN).
    pose proof (pieces_strings _ _ _ _ S PC) as F. rewrite Forall_forall in F. exact (F p IN).
  - pose proof (pieces_count _ _ _ _ N PC). destruct S. unfold zlen in *. rewrite map_length. lia.
  - rewrite ET, J. exact M.
Qed.
Print Assumptions C35_join_split.

(** With a negative limit no piece contains the separator. *)
Theorem C35_no_separator s sep limit :
  is_string s -> is_string sep -> sep <> [] -> in_i32 limit -> limit < 0 ->
  exists ps, split (Some sep) (Some s) limit = Ret ps /\ forall p i, In p ps -> ~ occurs p sep i.
Proof.
  intros S P N L Z. destruct (C35_split s sep limit S P N L ltac:(lia)) as (ps & E & PC). exists ps. split; auto.
  intros p i IN. pose proof (pieces_free _ _ _ _ N PC ltac:(lia)) as F. rewrite Forall_forall in F. apply F. auto.
Qed.
Print Assumptions C35_no_separator.

(** With a positive limit there are at most that many pieces, and at least one. *)
Theorem C35_limit s sep limit :
  is_string s -> is_string sep -> sep <> [] -> in_i32 limit -> 0 < limit ->
  exists ps, split (Some sep) (Some s) limit = Ret ps /\ 1 <= zlen ps <= limit.
Proof.
  intros S P N L Z. destruct (C35_split s sep limit S P N L ltac:(lia)) as (ps & E & PC). exists ps. split; auto.
  split; [| apply (pieces_limit _ _ _ _ PC Z)]. apply pieces_nonempty in PC. destruct ps; [congruence |].
  rewrite zlen_cons. pose proof (zlen_nonneg ps). lia.
Qed.
Print Assumptions C35_limit.

(** For a separator of one byte, splitting what was joined gives the strings
    back, if none contains the separator. *)
Theorem C35_split_join c ps :
  0 <= c <= 255 -> ps <> [] -> Forall is_string ps -> Forall (fun p => ~ In c p) ps ->
  zlen ps <= INT32_MAX -> zlen (joined [c] ps) <= max_length ->
  exists s, join (Some [c]) (Some (map Some ps)) = Ret s /\ split (Some [c]) (Some s) (-1) = Ret ps.
Proof.
  intros C N S F LM M.
  assert (SC : is_string [c]) by (split; [auto | reflexivity]).
  assert (ET : map text (map Some ps) = ps) by (rewrite map_map; apply map_id).
  exists (joined [c] ps). split.
  - rewrite join_ok, ET; auto.
    + apply Forall_forall. intros x X. apply in_map_iff in X as (p & <- & IN).
      rewrite Forall_forall in S. exact (S p IN).
    + unfold zlen in *. rewrite map_length. lia.
    + rewrite ET. auto.
  - assert (SJ : is_string (joined [c] ps)).
    { split; [| unfold max_length in M; lia]. clear - C S. induction ps as [| p ps IH]; [constructor |].
      inversion S as [| ? ? [B _] S']; subst. cbn [joined]. destruct ps; [auto |].
      apply Forall_app; split; auto. apply Forall_app; split; auto. }
    destruct (C35_split (joined [c] ps) [c] (-1)) as (qs & E & PC); auto; try (unfold in_i32; lia); try discriminate.
    rewrite E. f_equal. eapply pieces_fun; [| exact PC | apply pieces_of_joined; auto]. discriminate.
Qed.
Print Assumptions C35_split_join.

(** Wrong arguments. *)
Theorem C35_wrong_arguments sep s limit :
  string_arg s -> (sep = None \/ s = None \/ sep = Some []) -> exists e, split sep s limit = Die e.
Proof. intros S [-> | [-> | ->]]; [| destruct sep | destruct s]; eexists; reflexivity. Qed.
Print Assumptions C35_wrong_arguments.

(** join: the strings with the separator between; undef counts as "". *)
Theorem C35_join sep l :
  is_string sep -> Forall string_arg l -> zlen l <= INT32_MAX -> zlen (joined sep (map text l)) <= max_length ->
  join (Some sep) (Some l) = Ret (joined sep (map text l)).
Proof. apply join_ok. Qed.
Print Assumptions C35_join.

(** repeat: that many copies. *)
Theorem C35_repeat s count :
  is_string s -> zlen (copies (Z.to_nat count) s) <= max_length ->
  match repeat_string (Some s) count with
  | Ret r => 0 <= count /\ r = copies (Z.to_nat count) s
  | Die _ => count < 0
  | _ => False
  end.
Proof.
  intros S M. destruct (Z.leb_spec 0 count) as [C | C].
  - rewrite repeat_ok by auto. auto.
  - unfold repeat_string. destruct (Z.geb_spec count 0); [lia | auto].
Qed.
Print Assumptions C35_repeat.

(** The limit is documented to default to -1 and never to be 0.  It defaults to
    0, which loses the empty strings at the end. *)
Theorem C35_split_limit_0 s sep :
  is_string s -> is_string sep -> sep <> [] ->
  exists ps qs, pieces sep (-1) s ps /\ without_empty_end ps qs /\ split (Some sep) (Some s) 0 = Ret qs.
Proof.
  intros S P N.
  destruct (split_nonzero s sep 0 S P N ltac:(unfold in_i32; lia)) as (ps & PC & E).
  exists ps, (rev (drop_empty (rev ps))). split; [| split; [apply drop_end | exact E]].
  assert (G : forall l s ps, pieces sep l s ps -> l <= 0 -> pieces sep (-1) s ps).
  { clear. induction 1 as [limit s W | limit s p r ps L E M P IH]; intros LE.
    - apply Whole. destruct W; [lia | auto].
    - eapply Cut; eauto; [lia |]. change (if 0 <? -1 then -1 - 1 else -1) with (-1).
      apply IH. destruct (Z.ltb_spec 0 limit); lia. }
  apply (G 0); auto. lia.
Qed.
Print Assumptions C35_split_limit_0.

(** So join does not undo split with the default limit: "a,,". *)
Theorem C35_default_limit_refuted :
  exists s sep ps, is_string s /\ is_string sep /\ sep <> [] /\
    split (Some sep) (Some s) 0 = Ret ps /\ join (Some sep) (Some (map Some ps)) <> Ret s.
Proof.
  exists [97; 44; 44], [44], [[97]].
  repeat split; try (repeat constructor; lia); try reflexivity; try discriminate.
Qed.
Print Assumptions C35_default_limit_refuted.

(** Joining strings that do not contain the separator and splitting again need
    not give them back for a longer separator: "a" and "" with "aa". *)
Theorem C35_split_join_refuted :
  exists sep ps s, is_string sep /\ Forall is_string ps /\ (forall p i, In p ps -> ~ occurs p sep i) /\
    join (Some sep) (Some (map Some ps)) = Ret s /\ split (Some sep) (Some s) (-1) <> Ret ps.
Proof.
  exists [97; 97], [[97]; []], [97; 97; 97].
  assert (IS : forall l, Forall (fun b => b = 97) l -> zlen l <= 2 -> is_string l).
  { intros l F L. split; [| lia]. eapply Forall_impl; [| exact F]. cbv beta. intros. lia. }
  split; [apply IS; [repeat constructor | reflexivity] |].
  split; [constructor; [| constructor; [| constructor]]; apply IS; repeat constructor; intros [=] |].
  split.
  - intros p i [<- | [<- | []]] (b & a & E & _); apply (f_equal (@length Z)) in E; rewrite !app_length in E; cbn in E; lia.
  - split; [reflexivity |]. discriminate.
Qed.
Print Assumptions C35_split_join_refuted.

Example C35_ex_split :
  split (Some [44]) (Some [97; 44; 44; 98]) (-1) = Ret [[97]; []; [98]] /\
  split (Some [44]) (Some [97; 44; 44; 98]) 2 = Ret [[97]; [44; 98]] /\
  split (Some [44]) (Some []) (-1) = Ret [[]] /\
  join (Some [44; 32]) (Some [Some [97]; None; Some [98]]) = Ret [97; 44; 32; 44; 32; 98] /\
  repeat_string (Some [97; 98]) 2 = Ret [97; 98; 97; 98].
Proof. repeat split. Qed.
