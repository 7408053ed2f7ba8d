(* C36. *)
From Coq Require Import ZArith List Bool.
From Verif Require Import Res F32 MParms MAdaptive MSynth MApi SpecSched SpecState PSched PStream PSynth2.
Import ListNotations.
Local Open Scope Z_scope.

(* C36: in every schedule in which no parameter set is used by two threads, each thread gets the answers, final parameter sets and final
   thread-local state it gets when it runs alone; sets that no call is given keep their contents *)
Theorem C36_threads : forall o s h T xs h' T', separate s -> run o s h T = Ok (xs, h', T') ->
  (forall i, exists hi, alone o (of_thread i s) h (T i) = Ok (of_thread i xs, hi, T' i) /\ (forall k a, In (i, k) s -> In a (given k) -> hi a = h' a)) /\
  (forall a, (forall i k, In (i, k) s -> ~ In a (given k)) -> h' a = h a).
Proof. exact threads_forward. Qed.
Print Assumptions C36_threads.
(* and the schedule is free of undefined behaviour when every thread by itself is *)
Theorem C36_defined : forall o s h T, separate s -> (forall i, defined (alone o (of_thread i s) h (T i))) -> defined (run o s h T).
Proof. exact threads_defined. Qed.
Print Assumptions C36_defined.
(* a call depends on no parameter set but those it is given, and changes no other *)
Theorem C36_footprint : forall o k h g t x h' t', (forall a, In a (given k) -> h a = g a) -> api o k h t = Ok (x, h', t') ->
  exists g', api o k g t = Ok (x, g', t') /\ (forall a, h a = g a -> h' a = g' a) /\ (forall a, ~ In a (given k) -> h' a = h a) /\ (forall a, ~ In a (given k) -> g' a = g a).
Proof. exact api_local. Qed.
Print Assumptions C36_footprint.
(* of the sets it is given a call writes only those meant for its results *)
Theorem C36_changes : forall o k h t x h' t', api o k h t = Ok (x, h', t') -> forall a, ~ In a (changed k) -> h' a = h a.
Proof. exact api_changed. Qed.
Print Assumptions C36_changes.
(* the two copying functions copy from the source to the destination *)
Theorem C36_copies : forall o k src dst h t x h' t', k = Move src dst \/ k = UseLast dst src -> api o k h t = Ok (x, h', t') -> x = Nothing /\ t' = t /\ h' dst = h src /\ forall a, a <> dst -> h' a = h a.
Proof. exact api_copied. Qed.
Print Assumptions C36_copies.
(* two threads with their own seeds: interleaved comfort noise; the second noise of thread 0 is the continuation of its own first one *)
Example C36_case :
  let h : heap := fun _ => ambe_initial in
  let s := [(0%nat, Seed 1); (1%nat, Seed 2000000); (0%nat, Init 1 2 3); (1%nat, Noise (repeat 0 160)); (1%nat, Move 4 5); (0%nat, Noise (repeat 0 160))] in
  separate s /\
  match run simple_oracle s h (fun _ => thread0) with
  | Ok (xs, h', _) => match of_thread 0 xs, of_thread 1 xs with
      | [_; _; Shorts l], [_; Shorts m; _] => (nth 1 l 0, nth 1 m 0, nth 1 l 0 =? nth 1 m 0, p_K (h' 1), p_K (h' 5)) | _, _ => (0, 0, true, 0, 0) end
  | UB _ => (0, 0, true, 0, 0) end = (-78, 51, false, 12, 0).
Proof.
  cbv zeta. split.
  - split.
    + intros i k H. cbn [In] in H. repeat (destruct H as [H|H]; [injection H as <- <-; repeat constructor; cbn; intuition congruence|]). destruct H.
    + intros i j k l a H1 H2 A1 A2. cbn [In] in H1, H2.
      repeat (destruct H1 as [H1|H1]; [injection H1 as <- <-; cbn [given In] in A1; try tauto;
        repeat (destruct H2 as [H2|H2]; [injection H2 as <- <-; cbn [given In] in A2; first [reflexivity|tauto|intuition congruence]|]); destruct H2|]). destruct H1.
  - vm_compute. reflexivity.
Qed.
(* without the separation the claim fails: thread 1 overwrites the set thread 0 asks about *)
Example C36_shared :
  let h : heap := fun a => if a =? 1 then set_repeatCount 9 ambe_initial else ambe_initial in
  let s := [(1%nat, Move 2 1); (0%nat, AskRepeat 1)] in
  match run simple_oracle s h (fun _ => thread0), alone simple_oracle (of_thread 0 s) h thread0 with
  | Ok (xs, _, _), Ok (ys, _, _) => (of_thread 0 xs, ys) | _, _ => ([], []) end = ([Number 0], [Number 1]).
Proof. vm_compute. reflexivity. Qed.
