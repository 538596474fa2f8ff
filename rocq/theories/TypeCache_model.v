(** * Model of the assignability cache of the runtime

    SPVM_API_TYPE_can_assign, Builder/src/spvm_api_type.c:91-133, on the hash
    table of spvm_hash.c (NHash_model.v) and the type rules (Type_model.v).

    Simplifications.
    - Threads interleave at the borders of the critical sections: the lookup
      under the reader lock and the store under the writer lock are one step
      each (pthread_rwlock, spvm_mutex.c:54-77, is trusted).
    - While threads run, a compilation may add basic types to the runtime
      (SPVM_COMPILER_build_runtime, spvm_compiler.c:757-790: the basic types
      that exist keep their ids). *)

From Verif Require Import Base CLib Dec NHash_model Type_model.

(** The arguments: dist type, src type. *)
Record query : Type := { q_dist : ty; q_src : ty }.

(** spvm_api_type.c:95-96: snprintf(assinability_key, 255,
    "%d-%d-%d-%d-%d-%d", ...) writes at most 254 bytes. *)
Definition key_text (q : query) : list Z :=
  print_dec (t_id (q_dist q)) ++ [45] ++ print_dec (t_dim (q_dist q)) ++ [45] ++
  print_dec (t_flag (q_dist q)) ++ [45] ++ print_dec (t_id (q_src q)) ++ [45] ++
  print_dec (t_dim (q_src q)) ++ [45] ++ print_dec (t_flag (q_src q)).
Definition assinability_key (q : query) : list Z := c_str (ztake 254 (key_text q)).

(** spvm_api_type.c:114-121: the flags are replaced by 0. *)
Definition compute (p : prog) (w f : nat) (q : query) : outcome bool :=
  can_assign_types p w f (Ty (t_id (q_dist q)) (t_dim (q_dist q)) 0)
    (Ty (t_id (q_src q)) (t_dim (q_src q)) 0).

(** Where a thread is in the function: before it (or before line 100), after
    the lookup (line 104), after the computation (line 121). *)
Inductive pc : Type := Idle | Looked (can_assign : Z) | Computed (isa : bool).

(** [th_todo]: the calls not yet finished, the current one first;
    [th_answers]: the values returned so far. *)
Record thread : Type := { th_todo : list query; th_pc : pc; th_answers : list bool }.

Record state : Type := { s_prog : prog; s_cache : nhash; s_threads : list thread }.

(** EAsk i q: thread i will make the call q after its other calls.
    EStep i: thread i runs to the next border of a critical section.
    ECompile q: the basic types q are added. *)
Inductive event : Type := EAsk (i : Z) (q : query) | EStep (i : Z) | ECompile (q : prog).

(** One step of the function, spvm_api_type.c:98-132. *)
Definition thread_step (p : prog) (w f : nat) (cache : nhash) (t : thread) : outcome (nhash * thread) :=
  match th_todo t with
  | [] => Ret (cache, t)
  | q :: rest =>
      match th_pc t with
      | Idle =>
          let! r := nh_get cache (assinability_key q) in
          Ret (cache, {| th_todo := q :: rest; th_pc := Looked r; th_answers := th_answers t |})
      | Looked r =>
          if r >? 0 then Ret (cache, {| th_todo := rest; th_pc := Idle; th_answers := th_answers t ++ [true] |})
          else if r <? 0 then
            Ret (cache, {| th_todo := rest; th_pc := Idle; th_answers := th_answers t ++ [false] |})
          else
            let! isa := compute p w f q in
            Ret (cache, {| th_todo := q :: rest; th_pc := Computed isa; th_answers := th_answers t |})
      | Computed isa =>
          let! cache := nh_set cache (assinability_key q) (if isa then 1 else -1) in
          Ret (cache, {| th_todo := rest; th_pc := Idle; th_answers := th_answers t ++ [isa] |})
      end
  end.

Definition step (w f : nat) (s : state) (e : event) : outcome state :=
  match e with
  | EAsk i q =>
      match znth (s_threads s) i with
      | None => Ret s
      | Some t =>
          Ret {| s_prog := s_prog s; s_cache := s_cache s;
                 s_threads := zupd (s_threads s) i
                   {| th_todo := th_todo t ++ [q]; th_pc := th_pc t; th_answers := th_answers t |} |}
      end
  | EStep i =>
      match znth (s_threads s) i with
      | None => Ret s
      | Some t =>
          let! (cache, t) := thread_step (s_prog s) w f (s_cache s) t in
          Ret {| s_prog := s_prog s; s_cache := cache; s_threads := zupd (s_threads s) i t |}
      end
  | ECompile q => Ret {| s_prog := s_prog s ++ q; s_cache := s_cache s; s_threads := s_threads s |}
  end.

Fixpoint run (w f : nat) (s : state) (es : list event) : outcome state :=
  match es with
  | [] => Ret s
  | e :: es' => let! s := step w f s e in run w f s es'
  end.

(** SPVM_RUNTIME_new, spvm_runtime.c:32: an empty cache. *)
Definition start (p : prog) (threads : Z) : outcome state :=
  let! cache := nh_new 0 in
  Ret {| s_prog := p; s_cache := cache;
         s_threads := zrep threads {| th_todo := []; th_pc := Idle; th_answers := [] |} |}.
