(* Model of a process that uses the library: the calls of MApi by several threads, which share the parameter sets and the memory of
   malloc (MAlloc), while each thread has its own mbe_fft_plan_instance (/repo/src/core/mbelib.c:61) and tls.  Threads end, too. *)
From Coq Require Import ZArith List Bool.
From Verif Require Import Res F32 Build MParms MAdaptive MSynth MApi.
From Verif Require MAlloc.
Import ListNotations.
Local Open Scope Z_scope.

(* o with or without a plan for unvoiced synthesis *)
Definition with_plan (p : bool) (o : oracle) : oracle :=
  mkoracle (o_cosf o) (o_sinf o) (o_exp2f o) (o_log2f o) (o_expf o) (o_fft o) (o_ifft o) p (o_simd o) (o_tones o).
(* the calls that contain mbe_synthesizeSpeechf, the only caller of mbe_get_fft_plan (mbelib.c:1055) *)
Definition may_ask (k : call) : bool :=
  match k with
  | Speechf _ _ _ _ | Speech _ _ _ _ | Dataf _ _ _ _ _ _ _ _ _ | Data _ _ _ _ _ _ _ _ _ | Framef _ _ _ _ _ _ _ _ | Frame _ _ _ _ _ _ _ _ => true
  | _ => false
  end.

(* thread i makes a call, or ends; a thread that gets its number later is a new one.  Simplification: asked says whether the call
   gets as far as mbelib.c:1055 (a muted or tone frame does not).  Any value is allowed, the true one is among them. *)
Inductive event := Calls (asked : bool) (i : nat) (k : call) | Ends (i : nat).
Record process := mkprocess { sets : heap; locals : nat -> tls; plans : nat -> Z; memory : MAlloc.heap }.
Definition at_thread {A} (i : nat) (x : A) (f : nat -> A) : nat -> A := fun j => if Nat.eqb j i then x else f j.

(* mbelib.c:1055-1058: plan = mbe_get_fft_plan (); if (plan) ... *)
Definition fetch (al : MAlloc.allocator) (o : oracle) (asked : bool) (i : nat) (k : call) (s : process) : res (Z * MAlloc.heap) :=
  if asked && may_ask k then MAlloc.mbe_get_fft_plan al (o_simd o) (plans s i) (memory s) else Ok (plans s i, memory s).
(* The thread-local storage of a thread that ends disappears with it; the memory its plan pointer points to stays allocated
   (mbelib.c has no destructor for it). *)
Definition happens (al : MAlloc.allocator) (o : oracle) (e : event) (s : process) : res (nat * answer * process) :=
  match e with
  | Calls asked i k =>
      '(p, m) <- fetch al o asked i k s ;;
      '(x, h, t) <- api (with_plan (negb (p =? 0)) o) k (sets s) (locals s i) ;;
      Ok (i, x, mkprocess h (at_thread i t (locals s)) (at_thread i p (plans s)) m)
  | Ends i => Ok (i, Nothing, mkprocess (sets s) (at_thread i tls0 (locals s)) (at_thread i 0 (plans s)) (memory s))
  end.
Fixpoint history_of (al : MAlloc.allocator) (o : oracle) (es : list event) (s : process) : res (list (nat * answer) * process) :=
  match es with
  | [] => Ok ([], s)
  | e :: es => '(i, x, s) <- happens al o e s ;; '(xs, s) <- history_of al o es s ;; Ok ((i, x) :: xs, s)
  end.
