(** * Specification: names that survive mangling, well-formed methods, and what it means
      for a generated function to compile *)

From Coq Require Import String.
From Coq Require Import List.
Import ListNotations.
From Verif Require Import Base CLib Bytes Type_model Dispatch_model Switch_model Switch_proofs.
From Verif Require Import Precomp_syntax Precomp_table Precomp_model.

(** ** Names *)

(** Characters of names; class variables begin with a dollar sign. *)
Definition word (c : Z) : Prop := 48 <= c <= 57 \/ 65 <= c <= 90 \/ 97 <= c <= 122 \/ c = 95 \/ c = 36.

Definition ends_with (s e : name) : Prop := exists a, s = a ++ e.
Definition occurs (p s : name) : Prop := exists a b, s = a ++ p ++ b.

(** A part of a class name, or the name of a member, that the mangling keeps
    apart from others: word characters, no two underscores in a row (the
    tokenizer refuses those anyway) and none at the end (the tokenizer allows
    it). *)
Record good_word (p : name) : Prop := {
  gw_nonempty : p <> [];
  gw_chars : Forall word p;
  gw_pair : ~ occurs [95; 95] p;
  gw_end : ~ ends_with p [95]
}.

Fixpoint join (sep : name) (ps : list name) : name :=
  match ps with
  | [] => []
  | [p] => p
  | p :: ps' => p ++ sep ++ join sep ps'
  end.

(** A class name: parts joined by two colons. With the colons written as
    underscores it must not end with basic_type. *)
Definition good_class (t : name) : Prop :=
  exists ps, ps <> [] /\ Forall good_word ps /\ t = join [58; 58] ps /\
    ~ ends_with (join [95; 95] ps) (bytes "basic_type").

Definition good_decl (d : decl) : Prop :=
  good_class (d_class d) /\ (d_kind d <> KType -> good_word (d_member d)).

(** Characters that mean themselves inside a C string literal. *)
Definition plain (s : name) : Prop := Forall (fun c => ~ In c [34; 10; 63; 0; 92]) s.

(** ** The runtime: names are unique where they are looked up *)
Record class_ok (c : klass) : Prop := {
  co_name : plain (k_name c);
  co_fields : NoDup (map fst (k_fields c));
  co_fields_plain : Forall plain (map fst (k_fields c));
  co_class_vars : NoDup (k_class_vars c);
  co_class_vars_plain : Forall plain (k_class_vars c);
  co_methods : NoDup (map m_name (k_methods c));
  co_methods_plain : Forall plain (map m_name (k_methods c));
  co_sorted : forall i j a b, 0 <= i < j -> znth (k_methods c) i = Some a -> znth (k_methods c) j = Some b ->
    strcmp (m_name a) (m_name b) <= 0
}.

Definition runtime_ok (rt : runtime) : Prop := NoDup (map k_name rt) /\ Forall class_ok rt.

(** ** The method: operands refer to what exists *)
Section Method.
  Variable rt : runtime.
  Variable m : method_code.

  Definition type_at (o : op) (k : opnd) (P : klass -> Prop) : Prop :=
    exists c, by_id rt (get_int k o) = Some c /\ P c.

  Definition expr_ok (o : op) (e : vexpr) : Prop :=
    match e with
    | Var _ k | Addr _ k | Rd _ k | BasicTypeOf k => get k o <= INT32_MAX
    | BasicType k => type_at o k (fun _ => True)
    | FieldOffset k f => type_at o k (fun c => znth (k_fields c) (get_int f o) <> None)
    | ClassVar k f => type_at o k (fun c => znth (k_class_vars c) (get_int f o) <> None)
    | Method k f | MethodName k f | MethodClassName k f =>
        type_at o k (fun c => znth (k_methods c) (get_int f o) <> None)
    | ConstValue k | ConstLength k =>
        exists s, const rt m (get_int k o) = Some s /\ Forall is_byte s /\ zlen s <= INT32_MAX
    | _ => True
    end.

  Definition target_ok (t : Z) : Prop := 0 <= t < zlen (mc_ops m).

  Definition cond_ok (o : op) (c : cond) : Prop :=
    match c with EqZero k | NeZero k => get k o <= INT32_MAX | ErrorSet => True end.

  Definition stmt_ok (o : op) (st : vstmt) : Prop :=
    match st with
    | Call _ args => Forall (expr_ok o) args
    | Jump k => target_ok (get_int k o)
    | IfJump c pre k => cond_ok o c /\ Forall (fun x => Forall (expr_ok o) (snd x)) pre /\ target_ok (get_int k o)
    | VSwitch => get O0 o <= INT32_MAX
    | _ => True
    end.

  Record op_ok (o : op) : Prop := {
    oo_0 : 0 <= o_0 o < 4294967296;
    oo_1 : 0 <= o_1 o < 4294967296;
    oo_2 : 0 <= o_2 o < 4294967296;
    oo_3 : 0 <= o_3 o < 65536;
    oo_stmts : Forall (stmt_ok o) (vm_case (o_id o));
    oo_error : o_id o = OP_SET_ERROR_ID_BY_TYPE -> type_at o O0 (fun _ => True);
    (* the operand of can is the name of a method (spvm_check.c:3333-3357) *)
    oo_can : o_id o = OP_CAN -> exists s, const rt m (get_int O2 o) = Some s /\ plain s
  }.

  (** A switch is followed by its cases, sorted (property C18). *)
  Definition switch_ok (pc : Z) : Prop :=
    exists var dflt l post,
      map to_switch (zdrop pc (mc_ops m)) = emit_switch var dflt l ++ post /\
      strictly_sorted l /\ zlen l <= INT32_MAX /\ in_i32 dflt /\ target_ok dflt /\
      Forall (fun c => in_i32 (fst c) /\ in_i32 (snd c) /\ target_ok (snd c)) l.

  Record method_ok : Prop := {
    mo_class : exists c, by_id rt (mc_class m) = Some c /\ plain (k_file c);
    mo_name : plain (mc_name m);
    mo_mortal : 0 <= mc_mortal_length m;
    mo_length : zlen (mc_ops m) <= INT32_MAX;
    (* SPVM_OPCODE_BUILDER_build_opcodes ends a method with END_METHOD, and only there
       (spvm_opcode_builder.c:5096) *)
    mo_end : exists body last, mc_ops m = body ++ [last] /\ o_id last = OP_END_METHOD /\
      Forall (fun o => o_id o <> OP_END_METHOD) body;
    mo_ops : Forall op_ok (mc_ops m);
    mo_switch : forall pc o, znth (mc_ops m) pc = Some o -> o_id o = OP_LOOKUP_SWITCH -> switch_ok pc;
    mo_names : forall us, uses rt (mc_ops m) = Some us -> Forall good_decl us
  }.
End Method.

(** ** Compiling: what the C compiler demands of the generated function *)
Section Compiles.
  Variable ids : list name.
  Variable labels : list name.

  Definition readable (n : name) : Prop := c_int n <> None.

  Definition cexpr_ok (x : cexpr) : Prop :=
    match x with
    | CVar _ n | CAddr _ n | CRd _ n | CInt n | CFloatBits n | CDoubleBits n | CTypeOf n => readable n
    | CSym _ => True
    | CId i | CGetId i => In i ids
    | CStr t => c_string t <> None
    end.

  Definition ccond_ok (c : ccond) : Prop :=
    match c with CEqZero n | CNeZero n => readable n | CErrorSet => True end.

  Definition citem_ok (i : citem) : Prop :=
    match i with
    | CLabel _ => True
    | CDo _ args => Forall cexpr_ok args
    | CGoto l => In l labels
    | CIf c pre l => ccond_ok c /\ Forall (fun x => Forall cexpr_ok (snd x)) pre /\ In l labels
    | CSwitch n cases dflt =>
        readable n /\ In dflt labels /\ Forall (fun c => readable (fst c) /\ In (snd c) labels) cases /\
        NoDup (map (fun c => c_int (fst c)) cases)
    end.
End Compiles.

Fixpoint labels (code : list citem) : list name :=
  match code with
  | [] => []
  | CLabel l :: code' => l :: labels code'
  | _ :: code' => labels code'
  end.

(** No identifier and no label is declared twice, every one used is declared, every
    literal is one, no switch has a case twice. *)
Definition compiles (ds : list decl) (code : list citem) : Prop :=
  NoDup (map ident ds) /\ NoDup (labels code) /\ Forall (citem_ok (map ident ds) (labels code)) code.

(** The entity a declaration is for. *)
Definition denotes (rt : runtime) (d : decl) (a : arg) : Prop :=
  exists i c, by_id rt i = Some c /\ k_name c = d_class d /\
    match d_kind d with
    | KType => a = AType i
    | KField => exists j x, znth (k_fields c) j = Some x /\ fst x = d_member d /\ a = AInt (snd x)
    | KClassVar => exists j, znth (k_class_vars c) j = Some (d_member d) /\ a = AClassVar i j
    | KMethod => exists j x, znth (k_methods c) j = Some x /\ m_name x = d_member d /\ a = AMethod i x
    end.
