(** * Which classes a compilation loads

    From the documentation (lib/SPVM/Document/Language/Class.pm, "Loading Classes").
    Only the records of the model are used. *)
From Verif Require Import Base CLib Utf8_spec Toke_spec Lex_spec.
From Verif Require Import Load_model.

(** ** Names, paths and texts *)
Definition lower (c : Z) : Prop := 97 <= c <= 122.
Definition by_compiler (n : name) : Prop := ~ lacks "::anon_method::" n \/ ~ lacks "::anon_class::" n.
Definition class_name (n : name) : Prop :=
  ~ starts lower n /\ (forall a c b, n = a ++ bytes "::" ++ c :: b -> ~ lower c) /\ lacks "__" n /\ lacks "::::" n /\
  ~ begins "::" n /\ (forall a, n <> a ++ bytes "::") /\ ~ starts (fun c => 48 <= c <= 57) n.

(** Foo::Bar is in Foo/Bar.spvm. *)
Fixpoint join (sep : list Z) (parts : list (list Z)) : list Z :=
  match parts with
  | [] => []
  | [p] => p
  | p :: parts => p ++ sep ++ join sep parts
  end.

(** The file is in the first of the directories that has one. *)
Definition found_in (fs : path -> option (list Z)) (dirs : list path) (rel : path) (dir : path) (content : list Z) : Prop :=
  exists before after, dirs = before ++ dir :: after /\ fs (full_path dir rel) = Some content /\
    forall d, In d before -> fs (full_path d rel) = None.

(** A byte of a C string. *)
Definition text_byte (c : Z) : Prop := 1 <= c <= 255.

(** UTF-8; the ASCII characters are printable or spaces, and not a carriage return. *)
Definition source_text (s : list Z) : Prop :=
  exists cps, wf_utf8 s cps /\ Forall (fun cp => 32 <= cp <= 126 \/ 9 <= cp <= 12 \/ 128 <= cp) cps.

Section Wanted.
  Context (fs : path -> option (list Z)) (dirs : list path) (parse : name -> path -> list Z -> parsed) (c : compiler).

  (** The class file of a class: one that was given to the compiler, or else the one
      in the include directories. [content] is the text up to the first 0. *)
  Inductive source (n : name) : path -> list Z -> Prop :=
  | Given : forall f, get_class_file (class_files c) n = Some f -> source n (file_of f) (cf_content f)
  | Searched : forall d t content, get_class_file (class_files c) n = None -> found_in fs dirs (rel_path n) d t ->
      content = until_nul t -> source n (full_path d (rel_path n)) content.
  Definition missing (n : name) : Prop := forall f t, ~ source n f t.

  (** The use statements that are met, beginning with those of [start]: a class that
      is new is read, and its statements are met too. *)
  Inductive wanted (start : list use) : use -> Prop :=
  | W_start : forall u, In u start -> wanted start u
  | W_next : forall u f t u', wanted start u -> ~ In (u_name u) (types c) -> source (u_name u) f t ->
      In u' (p_uses (parse (u_name u) f t)) -> wanted start u'.

  (** The class of the file is well-formed. *)
  Definition good_file (n : name) (f : path) (t : list Z) : Prop :=
    source_text t /\ p_errors (parse n f t) = false /\ p_class (parse n f t) = Some n.

  (** A use statement without an error: the name is one of a class; the class is there
      already, or its file is good, or it need not be there. *)
  Definition use_ok (u : use) : Prop :=
    (by_compiler (u_name u) \/ class_name (u_name u)) /\
    (In (u_name u) (types c) \/ (exists f t, source (u_name u) f t /\ good_file (u_name u) f t) \/ missing (u_name u) /\ u_require u = true).

  (** The classes that a compilation adds: those whose use is met and whose file there
      is, and the classes of their anonymous methods. *)
  Definition added (start : list use) (n : name) : Prop :=
    exists u f t, wanted start u /\ ~ In (u_name u) (types c) /\ source (u_name u) f t /\
      (n = u_name u \/ In n (p_anon (parse (u_name u) f t)) /\ ~ In n (types c)).
End Wanted.

(** A compiler between compilations. *)
Definition well_formed (c : compiler) : Prop :=
  NoDup (types c) /\ forall n i, symtable c n = Some i <-> znth (types c) i = Some n.
