(** * The parser

    Builder/src/spvm_yacc.c yyparse, the skeleton of Bison 3.0.4 with the tables of
    YaccTables_model.v.

    Simplifications.
    - The value that the action of a rule computes from the values of its symbols
      is a tree node with the number of the rule and these values; the functions
      SPVM_OP_build_... that the actions call are not modelled here.
    - The tokens are a list of codes, each with a number that stands for its value;
      at the end of the list yylex gives 0. yylex is called when a lookahead is
      needed; here the lookahead is the head of the list until it is shifted.
    - The stacks grow from 200 to 400, ..., 6400, 10000 entries; only the failure
      at 10000 is modelled. malloc does not fail.
    - The messages of yyerror are left out. *)
From Verif Require Import Base YaccTables_model.
Local Open Scope Z_scope.

Inductive tree := Leaf (code : Z) (value : nat) | Node (rule : Z) (ts : trees)
with trees := Nil | Cons (t : tree) (ts : trees).

Inductive act := Shift (s : Z) | Reduce (rule : Z) | Err | Bad.
(** [Accept], [Syntax_error] and [Exhausted] are the results 0, 1 and 2. [Recovers]:
    the parser goes on after an error; [UB]: a read outside an array. *)
Inductive outcome := Accept (t : tree) | Syntax_error | Exhausted | Recovers | UB | Fuel.

(** spvm_yacc.c:513-514 [YYTRANSLATE] and 2531-2540. *)
Definition translate (c : Z) : option Z :=
  if c <=? 0 then Some 0
  else if c <=? YYMAXUTOK then znth yytranslate c else Some YYUNDEFTOK.

(** spvm_yacc.c:2583-2587 [yydefault]. *)
Definition default (s : Z) : act :=
  match znth yydefact s with
  | Some k => if k =? 0 then Err else Reduce k
  | None => Bad
  end.
(** spvm_yacc.c:2514-2576 [yybackup]. *)
Definition action (s t : Z) : act :=
  match znth yypact s with
  | None => Bad
  | Some n =>
      if n =? YYPACT_NINF then default s
      else let n := n + t in
           if (n <? 0) || (YYLAST <? n) then default s
           else match znth yycheck n, znth yytable n with
                | Some c, Some v =>
                    if c =? t then
                      if v <=? 0 then if v =? YYTABLE_NINF then Err else Reduce (- v) else Shift v
                    else default s
                | _, _ => Bad
                end
  end.
(** spvm_yacc.c:4588-4594, for the nonterminal [a]. *)
Definition goto (s a : Z) : option Z :=
  match znth yypgoto (a - YYNTOKENS), znth yydefgoto (a - YYNTOKENS) with
  | Some g, Some d =>
      let n := g + s in
      if (0 <=? n) && (n <=? YYLAST) then
        match znth yycheck n, znth yytable n with
        | Some c, Some v => if c =? s then Some v else Some d
        | _, _ => None
        end
      else Some d
  | _, _ => None
  end.

(** spvm_yacc.c:4696-4727 [yyerrlab1]: pop the states that do not shift the error
    token. *)
Definition shifts_error (s : Z) : bool := match action s YYTERROR with Shift _ => true | _ => false end.
Fixpoint recover (sts : list Z) : outcome :=
  match sts with
  | [] => Syntax_error
  | s :: sts => if shifts_error s then Recovers else recover sts
  end.

(** The values of the [n] symbols on the top, in the order of the rule. *)
Fixpoint take_values (n : nat) (vs : list tree) (acc : trees) : option trees :=
  match n, vs with
  | O, _ => Some acc
  | S n, t :: vs => take_values n vs (Cons t acc)
  | S _, [] => None
  end.

(** spvm_yacc.c:2436-2599, 4577-4596: the states and the values, with the top
    first. [depth] is YYMAXDEPTH. *)
Fixpoint parse_loop (depth : Z) (fuel : nat) (sts : list Z) (vs : list tree) (inp : list (Z * nat)) : outcome :=
  match fuel with
  | O => Fuel
  | S fuel =>
      if depth <=? zlen sts then Exhausted
      else match sts with
      | [] => UB
      | s :: _ =>
          if s =? YYFINAL then match vs with _ :: t :: _ => Accept t | _ => UB end
          else
            let (c, v) := hd (0, O) inp in
            match translate c with
            | None => UB
            | Some t =>
                match action s t with
                | Bad => UB
                | Err => recover sts
                | Shift q => parse_loop depth fuel (q :: sts) (Leaf c v :: vs) (tl inp)
                | Reduce k =>
                    match znth yyr1 k, znth yyr2 k with
                    | Some a, Some n =>
                        match take_values (Z.to_nat n) vs Nil, zdrop n sts with
                        | Some ts, (p :: _) as sts =>
                            match goto p a with
                            | Some q => parse_loop depth fuel (q :: sts) (Node k ts :: zdrop n vs) inp
                            | None => UB
                            end
                        | _, _ => UB
                        end
                    | _, _ => UB
                    end
                end
            end
      end
  end.

Definition parse (fuel : nat) (inp : list (Z * nat)) : outcome := parse_loop YYMAXDEPTH fuel [0] [] inp.
