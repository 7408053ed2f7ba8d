(* Specification of the independence of threads. *)
From Coq Require Import ZArith List Bool.
From Verif Require Import Res F32 MParms MAdaptive MSynth MApi.
Import ListNotations.
Local Open Scope Z_scope.

(* the parameter sets a call is given *)
Definition given (k : call) : list Z :=
  match k with
  | Init c p e | Dataf _ _ _ _ _ c p e _ | Data _ _ _ _ _ c p e _ | Framef _ _ _ _ c p e _ | Frame _ _ _ _ c p e _ => [c; p; e]
  | Move a b | UseLast a b | Smooth a b | Speechf _ a b _ | Speech _ a b _ | Decode _ _ a b => [a; b]
  | Enhance c | AskMuting c | AskRepeat c | AskSmoothing c | Tonef _ _ c | Tonefdstar _ c _ => [c]
  | Seed _ | Noisef _ | Noise _ => []
  end.
(* the parameter sets a call may write to; the others are only read *)
Definition changed (k : call) : list Z :=
  match k with
  | Init c p e | Dataf _ _ _ _ _ c p e _ | Data _ _ _ _ _ c p e _ | Framef _ _ _ _ c p e _ | Frame _ _ _ _ c p e _ => [c; p; e]
  | Speechf _ c p _ | Speech _ c p _ | Decode _ _ c p => [c; p]
  | Move _ dst | UseLast dst _ => [dst]
  | Smooth c _ | Enhance c | Tonef _ _ c | Tonefdstar _ c _ => [c]
  | AskMuting _ | AskRepeat _ | AskSmoothing _ | Seed _ | Noisef _ | Noise _ => []
  end.
(* the entries of thread i, in order *)
Definition of_thread {A} (i : nat) (s : list (nat * A)) : list A := map snd (filter (fun x => Nat.eqb (fst x) i) s).
(* one thread by itself *)
Fixpoint alone (o : oracle) (ks : list call) (h : heap) (t : tls) : res (list answer * heap * tls) :=
  match ks with
  | [] => Ok ([], h, t)
  | k :: ks => '(x, h, t) <- api o k h t ;; '(xs, h, t) <- alone o ks h t ;; Ok (x :: xs, h, t)
  end.
(* no parameter set is passed twice to one call, and none is used by two threads *)
Definition separate (s : list (nat * call)) : Prop :=
  (forall i k, In (i, k) s -> NoDup (given k)) /\
  (forall i j k l a, In (i, k) s -> In (j, l) s -> In a (given k) -> In a (given l) -> i = j).
Definition defined {A} (r : res A) : Prop := exists x, r = Ok x.
