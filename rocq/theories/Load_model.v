(** * Loading classes (spvm_toke.c 2606-2912, spvm_compiler.c 154-490)

    A compilation loads the classes that are used, directly or not. What a parser
    does with the text of one class file is an argument ([parse]): the classes it
    defines and the use statements it meets. The file system is an argument too. *)
From Verif Require Import Base CLib FnMem_model Toke_model Utf8_model Lex_model.

Definition name := list Z.
Definition path := list Z.

(** spvm_use.h and the position of the statement; [is_require] of "require". *)
Record use := Use { u_name : name; u_require : bool; u_file : path; u_line : Z }.

(** spvm_class_file.h. The length of the content is always that of the C string. *)
Record class_file := ClassFile { cf_file : option path; cf_dir : option path; cf_rel : path; cf_content : list Z }.

(** What SPVM_yyparse does with one class file: the types of anonymous methods it
    adds, the class it defines (none after a syntax error, which ends the parser),
    the uses it puts on the stack, and whether there are error messages. *)
Record parsed := Parsed { p_anon : list name; p_class : option name; p_uses : list use; p_errors : bool }.

(** The messages of SPVM_TOKE_load_class_file, and those of the parser. *)
Inductive load_error :=
| Name_lower | Name_part_lower | Name_underscores | Name_end | Name_colons | Name_begin | Name_digit
| Not_found (rel : path) | Not_utf8 | Not_printable | Carriage_return
| Parse_error | Class_name (declared : name).
Definition message : Type := load_error * name.

(** The part of spvm_compiler.h that lives from one compilation to the next:
    basic_types and basic_type_symtable (the name of a type is its key), class_files
    and class_file_class_names. *)
Record compiler := Compiler { types : list name; symtable : name -> option Z; class_files : list (name * class_file) }.
(** And what is of one compilation only: the messages and
    if_require_not_found_basic_type_name_symtable. *)
Record state := State { comp : compiler; errors : list message; not_found : list name }.

Definition same_name (a b : name) : bool := if list_eq_dec Z.eq_dec a b then true else false.

(** spvm_compiler.c:380-395 [SPVM_COMPILER_get_class_file]. *)
Fixpoint get_class_file (l : list (name * class_file)) (n : name) : option class_file :=
  match l with
  | [] => None
  | (k, f) :: l => if same_name n k then Some f else get_class_file l n
  end.
(** spvm_compiler.c:319-350 [SPVM_COMPILER_delete_class_file]. *)
Fixpoint delete_class_file (l : list (name * class_file)) (n : name) : list (name * class_file) :=
  match l with
  | [] => []
  | (k, f) :: l => if same_name n k then l else (k, f) :: delete_class_file l n
  end.
(** spvm_compiler.c:352-378 [SPVM_COMPILER_set_class_file]. *)
Fixpoint set_class_file (l : list (name * class_file)) (n : name) (f : class_file) : list (name * class_file) :=
  match l with
  | [] => [(n, f)]
  | (k, g) :: l => if same_name n k then (k, f) :: l else (k, g) :: set_class_file l n f
  end.

(** spvm_compiler.c:414-429 [SPVM_COMPILER_add_basic_type]. *)
Definition add_type (c : compiler) (n : name) : compiler :=
  match symtable c n with
  | Some _ => c
  | None => Compiler (types c ++ [n]) (fun m => if same_name m n then Some (zlen (types c)) else symtable c m) (class_files c)
  end.

(** spvm_toke.c:3123-3143; characters are compared as in the C locale. *)
Definition islower_ascii (c : Z) : bool := (97 <=? c) && (c <=? 122).
Definition isprint_ascii (c : Z) : bool := (32 <=? c) && (c <=? 126).
Definition isspace_ascii (c : Z) : bool := ((9 <=? c) && (c <=? 13)) || (c =? 32).

(** spvm_toke.c:2645-2657: a lower case letter behind a double colon. *)
Fixpoint part_lower (n : name) : bool :=
  match n with
  | 58 :: (58 :: c :: _) as t => islower_ascii c || part_lower t
  | _ :: t => part_lower t
  | [] => false
  end.

(** spvm_toke.c:2631-2688: the checks of a class name, in this order. *)
Definition generated (n : name) : bool := contains n "::anon_method::" || contains n "::anon_class::".
Definition check_name (n : name) : option load_error :=
  let first f := match n with c :: _ => f c | [] => false end in
  if generated n then None
  else if first islower_ascii then Some Name_lower
  else if part_lower n then Some Name_part_lower
  else if contains n "__" then Some Name_underscores
  else if is_prefix [58; 58] (rev n) then Some Name_end
  else if contains n "::::" then Some Name_colons
  else if is_prefix [58; 58] n then Some Name_begin
  else if first isdigit_ascii then Some Name_digit
  else None.

(** spvm_toke.c:2697-2717: the relative path. *)
Fixpoint rel_path (n : name) : path :=
  match n with
  | 58 :: 58 :: t => 47 :: rel_path t
  | c :: t => c :: rel_path t
  | [] => bytes ".spvm"
  end.

(** spvm_toke.c:2729-2742: the path in a directory. *)
Definition full_path (dir rel : path) : path := map (fun c => if c =? 92 then 47 else c) (dir ++ 47 :: rel).

(** The bytes of a C string. *)
Fixpoint until_nul (l : list Z) : list Z := match l with c :: t => if c =? 0 then [] else c :: until_nul t | [] => [] end.

(** spvm_toke.c:2839-2867: the characters of the source. The length passed to the
    decoder is the whole length, not the rest; the terminating 0 stops it. *)
Fixpoint check_text (fuel : nat) (content : list Z) (offset : Z) : outcome (option load_error) :=
  if offset <? zlen content then
    match fuel with
    | O => Fuel
    | S fuel =>
        let! (n, _) := utf8_iterate (content ++ [0]) offset (zlen content) in
        if negb (n >? 0) then Ret (Some Not_utf8)
        else
          let c := znth (content ++ [0]) offset in
          let c := match c with Some c => c | None => 0 end in
          if (n =? 1) && negb (isprint_ascii c || isspace_ascii c) then Ret (Some Not_printable)
          else if (n =? 1) && (c =? 13) then Ret (Some Carriage_return)
          else check_text fuel content (offset + n)
    end
  else Ret None.

Section Loading.
  Context (fs : path -> option (list Z)) (dirs : list path) (parse : name -> path -> list Z -> parsed).

  (** spvm_toke.c:2724-2752: the first directory with the file. A file that can be
      opened can be read. *)
  Fixpoint search (ds : list path) (rel : path) : option class_file :=
    match ds with
    | [] => None
    | d :: ds =>
        match fs (full_path d rel) with
        | Some c => Some (ClassFile (Some (full_path d rel)) (Some d) rel (until_nul c))
        | None => search ds rel
        end
    end.

  Definition with_error (s : state) (e : load_error) (n : name) : state := State (comp s) (errors s ++ [(e, n)]) (not_found s).
  Definition with_files (s : state) (l : list (name * class_file)) : state :=
    State (Compiler (types (comp s)) (symtable (comp s)) l) (errors s) (not_found s).

  (** What SPVM_TOKE_load_class_file leaves: nothing to parse (with or without a
      message), or a text. *)
  Inductive loaded := Nothing | Source (n : name) (f : class_file).

  (** spvm_toke.c:2606-2912 [SPVM_TOKE_load_class_file]. *)
  Fixpoint load (q : list use) (s : state) : outcome (loaded * list use * state) :=
    match q with
    | [] => Ret (Nothing, [], s)
    | u :: q =>
        let n := u_name u in
        match check_name n with
        | Some e => Ret (Nothing, q, with_error s e n)
        | None =>
            match symtable (comp s) n with
            | Some _ => load q s
            | None =>
                let rel := rel_path n in
                let found :=
                  match get_class_file (class_files (comp s)) n with
                  | Some f => Some (f, s)
                  | None =>
                      match search dirs rel with
                      | Some f => Some (f, with_files s (set_class_file (class_files (comp s)) n f))
                      | None => None
                      end
                  end in
                match found with
                | Some (f, s) =>
                    let! e := check_text (length (cf_content f)) (cf_content f) 0 in
                    match e with
                    | Some e => Ret (Nothing, q, with_error s e n)
                    | None => match errors s with [] => Ret (Source n f, q, s) | _ => Ret (Nothing, q, s) end
                    end
                | None =>
                    if u_require u then load q (State (comp s) (errors s) (n :: not_found s))
                    else Ret (Nothing, q, with_error s (Not_found rel) n)
                end
            end
        end
    end.

  (** The file in positions: spvm_toke.c:2826-2832. *)
  Definition file_of (f : class_file) : path := match cf_file f with Some p => p | None => cf_rel f end.

  (** The parser on one class file; spvm_op.c:257-336 [SPVM_OP_build_class] adds the
      type and compares its name with the one of the file. *)
  Definition parse_file (n : name) (f : class_file) (s : state) : list use * bool * state :=
    let r := parse n (file_of f) (cf_content f) in
    let c := fold_left add_type (p_anon r) (comp s) in
    let s := State c (errors s ++ (if p_errors r then [(Parse_error, n)] else [])) (not_found s) in
    match p_class r with
    | None => ([], false, with_error s Parse_error n)
    | Some m =>
        let s := State (add_type (comp s) m) (errors s) (not_found s) in
        (p_uses r, true, if same_name m n then s else with_error s (Class_name m) n)
    end.

  (** SPVM_yyparse: the grammar is a sequence of classes; the end of the queue is the
      end of the input. *)
  Fixpoint run (fuel : nat) (q : list use) (s : state) : outcome state :=
    match fuel with
    | O => Fuel
    | S fuel =>
        let! (l, q, s) := load q s in
        match l with
        | Nothing => Ret s
        | Source n f =>
            match parse_file n f s with
            | (us, true, s) => run fuel (q ++ us) s
            | (_, false, s) => Ret s
            end
        end
    end.

  (** spvm_compiler.c:252-266: what a failed compilation takes back. *)
  Definition rollback (base : Z) (c : compiler) : compiler :=
    let new := zdrop base (types c) in
    Compiler (ztake base (types c)) (fun n => if existsb (same_name n) new then None else symtable c n)
      (fold_left delete_class_file new (class_files c)).

  (** spvm_compiler.c:431-443, 476-597: the types and class files of an empty compiler. *)
  Context (core : list name) (default_files : list (name * class_file)) (default_classes : list name).
  Definition init (c : compiler) : compiler :=
    match types c with
    | [] => let c := fold_left add_type core c in
            Compiler (types c) (symtable c) (fold_left (fun l e => set_class_file l (fst e) (snd e)) default_files (class_files c))
    | _ => c
    end.

  (** spvm_compiler.c:455-465 [SPVM_COMPILER_use]: each use is on the stack twice. *)
  Definition api_use (n : name) (file : path) (line : Z) : list use := [Use n false file line; Use n false file line].
  Definition start_uses (n : name) (file : path) (line : Z) : list use :=
    concat (map (fun d => api_use d d 0) default_classes) ++ api_use n file line.

  (** spvm_compiler.c:154-292 [SPVM_COMPILER_compile_common], without a source. The
      checks of the loaded classes are an argument. *)
  Definition compile (fuel : nat) (check : compiler -> list message) (c : compiler) (n : name) (file : path) (line : Z) : outcome (list message * compiler) :=
    let base := zlen (types c) in
    let! s := run fuel (start_uses n file line) (State (init c) [] []) in
    match errors s with
    | [] => match check (comp s) with [] => Ret ([], comp s) | es => Ret (es, rollback base (comp s)) end
    | es => Ret (es, rollback base (comp s))
    end.
End Loading.
