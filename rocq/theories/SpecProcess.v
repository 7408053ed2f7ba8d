(* Specification of processes that use the library while memory runs out and threads come and go. *)
From Coq Require Import ZArith List Bool Permutation.
From Verif Require Import Res F32 Build MParms MAdaptive MSynth MApi SpecSched SpecSafe MProcess.
From Verif Require MAlloc SpecAlloc.
Import ListNotations.
Local Open Scope Z_scope.

(* ---- the same without memory management: for each call it is given whether there is a plan ---- *)
Inductive entry := Does (plan : bool) (k : call) | Stops.
Definition given_to (e : entry) : list Z := match e with Does _ k => given k | Stops => [] end.
Definition enter (o : oracle) (e : entry) (h : heap) (t : tls) : res (answer * heap * tls) :=
  match e with Does p k => api (with_plan p o) k h t | Stops => Ok (Nothing, h, tls0) end.
Fixpoint together (o : oracle) (s : list (nat * entry)) (h : heap) (T : nat -> tls) : res (list (nat * answer) * heap * (nat -> tls)) :=
  match s with
  | [] => Ok ([], h, T)
  | (i, e) :: s => '(x, h, t) <- enter o e h (T i) ;; '(xs, h, T) <- together o s h (at_thread i t T) ;; Ok ((i, x) :: xs, h, T)
  end.
(* one thread by itself *)
Fixpoint by_itself (o : oracle) (es : list entry) (h : heap) (t : tls) : res (list answer * heap * tls) :=
  match es with
  | [] => Ok ([], h, t)
  | e :: es => '(x, h, t) <- enter o e h t ;; '(xs, h, t) <- by_itself o es h t ;; Ok (x :: xs, h, t)
  end.
Definition apart_sets (s : list (nat * entry)) : Prop :=
  (forall i e, In (i, e) s -> NoDup (given_to e)) /\
  (forall i j e f a, In (i, e) s -> In (j, f) s -> In a (given_to e) -> In a (given_to f) -> i = j).
(* the entry of an event *)
Inductive entered : event -> nat * entry -> Prop :=
| entered_call : forall asked i k p, entered (Calls asked i k) (i, Does p k)
| entered_end : forall i, entered (Ends i) (i, Stops).
(* a thread that has a plan keeps it until it ends *)
Fixpoint steady (has : bool) (es : list entry) : Prop :=
  match es with
  | [] => True
  | Does p _ :: es => (has = true -> p = true) /\ steady p es
  | Stops :: es => steady false es
  end.

(* ---- the calls of a process ---- *)
Fixpoint calls_of (es : list event) : list (nat * call) :=
  match es with [] => [] | Calls _ i k :: es => (i, k) :: calls_of es | Ends _ :: es => calls_of es end.
(* the event that goes wrong: a call whose request for a plan was starved (SpecAlloc.v), or a call with one of the two excuses of SpecSafe.v *)
Definition blamed (al : MAlloc.allocator) (o : oracle) (e : event) (s : process) (w : ub) : Prop :=
  exists asked i k, e = Calls asked i k /\
  ((w = OOB /\ asked = true /\ may_ask k = true /\ plans s i = 0 /\ SpecAlloc.starved al (memory s)) \/ excused o (sets s) k w).

(* ---- enough memory ---- *)
(* a call that is marked as not asking for a plan goes the same way with and without one *)
Fixpoint told (al : MAlloc.allocator) (o : oracle) (es : list event) (s : process) : Prop :=
  match es with
  | [] => True
  | e :: es =>
      match e with Calls false i k => may_ask k = true -> api (with_plan true o) k (sets s) (locals s i) = api (with_plan false o) k (sets s) (locals s i) | _ => True end /\
      match happens al o e s with Ok (_, _, s) => told al o es s | UB _ => True end
  end.
(* whenever a thread without a plan asks for one, malloc has all seven blocks *)
Fixpoint supplied (al : MAlloc.allocator) (o : oracle) (es : list event) (s : process) : Prop :=
  match es with
  | [] => True
  | e :: es =>
      match e with Calls true i k => may_ask k = true -> plans s i = 0 -> SpecAlloc.enough al (memory s) | _ => True end /\
      match happens al o e s with Ok (_, _, s) => supplied al o es s | UB _ => True end
  end.
(* every call has a plan *)
Definition always (e : event) : nat * entry := match e with Calls _ i k => (i, Does true k) | Ends i => (i, Stops) end.

(* ---- memory ---- *)
(* blocks do not overlap and do not contain NULL *)
Definition orderly (m : MAlloc.heap) : Prop := NoDup (MAlloc.h_live m) /\
  (forall b c, In b (MAlloc.h_live m) -> In c (MAlloc.h_live m) -> b <> c -> SpecAlloc.apart b c) /\ (forall b, In b (MAlloc.h_live m) -> 0 < fst b /\ 0 < snd b).
(* the four sample buffers of a plan and the plan itself lie in the blocks own *)
Definition plan_in (own : list (Z * Z)) (m : MAlloc.heap) (p : Z) : Prop :=
  SpecAlloc.buffer own p 5504 /\
  forall f, In f [MAlloc.at_Uw; MAlloc.at_Uw_fft; MAlloc.at_Uw_out; MAlloc.at_work] -> exists u, MAlloc.load (p + f) m = Ok u /\ SpecAlloc.buffer own u 1024.
(* how many threads ended while they had a plan *)
Fixpoint lost_plans (al : MAlloc.allocator) (o : oracle) (es : list event) (s : process) : nat :=
  match es with
  | [] => 0%nat
  | e :: es =>
      ((match e with Ends i => if (plans s i =? 0)%Z then 0 else 1 | Calls _ _ _ => 0 end) +
       (match happens al o e s with Ok (_, _, s) => lost_plans al o es s | UB _ => 0 end))%nat
  end.
