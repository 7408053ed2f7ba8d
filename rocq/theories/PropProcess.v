(* C87, C88: threads, plans and memory. *)
From Coq Require Import ZArith List Bool Permutation SpecFloat.
From Verif Require Import Res F32 MParms MAdaptive MSynth SpecState SpecOut SpecMachine SpecAmbeMachine MApi SpecSched SpecSafe MProcess SpecProcess.
From Verif Require Import PState PStream PNyq PSafe PSafe2 PSafe3 PProcess PProcess2 PProcess3 PProcess4.
From Verif Require MAlloc SpecAlloc PAlloc.
Import ListNotations.
Local Open Scope Z_scope.

(* ---- C87 ---- *)
(* Threads share parameter sets and the memory of malloc, which may fail at any call.  A run that ends is one in which every call either has a plan
   for unvoiced synthesis or has none; a thread that has one keeps it until the thread ends. *)
Theorem C87_plans : forall al o es s xs s', (forall i, plans s i = 0) -> history_of al o es s = Ok (xs, s') ->
  exists l, Forall2 entered es l /\ together o l (sets s) (locals s) = Ok (xs, sets s', locals s') /\ forall i, steady false (of_thread i l).
Proof. exact history_plans. Qed.
Print Assumptions C87_plans.
(* An FFT that gives no numbers shows who has a plan: thread 0 at once, thread 1 when it asks again. *)
Example C87_plans_case :
  match history_of (SpecAlloc.behind 10) nano story fresh_process with
  | Ok (xs, _) => map (fun x => match x with (i, Floats l) => Some (i, existsb (fun y => match y with S754_nan => true | _ => false end) l) | _ => None end) xs
  | UB _ => [] end = [None; None; Some (0%nat, true); Some (1%nat, false); Some (1%nat, true); None; Some (0%nat, true)].
Proof. vm_compute. reflexivity. Qed.

(* Threads that share no parameter set do not notice each other: each gets the answers and the sets it gets alone, if it has a plan at the same
   calls. *)
Theorem C87_threads : forall o s h T xs h' T', apart_sets s -> together o s h T = Ok (xs, h', T') ->
  (forall i, exists hi, by_itself o (of_thread i s) h (T i) = Ok (of_thread i xs, hi, T' i) /\ (forall e a, In (i, e) s -> In a (given_to e) -> hi a = h' a)) /\
  (forall a, (forall i e, In (i, e) s -> ~ In a (given_to e)) -> h' a = h a).
Proof. exact together_forward. Qed.
Print Assumptions C87_threads.
Example C87_threads_case : apart_sets [(0%nat, Does true (Init 1 2 3)); (1%nat, Does false (Seed 5)); (1%nat, Does false (Noisef (repeat fzero 160))); (0%nat, Stops); (1%nat, Does true (Move 4 5))].
Proof.
  split.
  - intros i e H. cbn [In] in H. repeat (destruct H as [H|H]; [injection H as <- <-; cbn [given_to given]; distinct|]). destruct H.
  - intros i j e f a H1 H2 A1 A2. cbn [In] in H1, H2.
    repeat (destruct H1 as [H1|H1]; [injection H1 as <- <-; cbn [given_to given In] in A1; try tauto;
      repeat (destruct H2 as [H2|H2]; [injection H2 as <- <-; cbn [given_to given In] in A2; first [reflexivity|tauto|intuition congruence]|]); destruct H2|]). destruct H1.
Qed.

(* If malloc has the seven blocks whenever a thread asks for its plan, the whole run goes as if every call had a plan. *)
Theorem C87_enough : forall al o es s, SpecAlloc.sane al -> orderly (memory s) -> told al o es s -> supplied al o es s ->
  match history_of al o es s with
  | Ok (xs, s') => together o (map always es) (sets s) (locals s) = Ok (xs, sets s', locals s')
  | UB w => together o (map always es) (sets s) (locals s) = UB w
  end.
Proof. exact history_enough. Qed.
Print Assumptions C87_enough.
Example C87_enough_case : SpecAlloc.sane (SpecAlloc.behind 99) /\ orderly (memory fresh_process) /\
  told (SpecAlloc.behind 99) near_oracle [Calls false 0 (Init 1 2 3); Calls true 0 (speaks 1)] fresh_process /\ supplied (SpecAlloc.behind 99) near_oracle [Calls false 0 (Init 1 2 3); Calls true 0 (speaks 1)] fresh_process.
Proof. exact enough_met. Qed.

(* A careful program meets undefined behaviour in three ways only: the two of C86, and a request for a plan in which pffft_new_setup runs out
   of memory. *)
Theorem C87_safe : forall al o es s w, SpecAlloc.sane al -> good_exp2 o R2400 -> (forall a, wf_parms (sets s a)) -> (forall i, thread_ok (locals s i)) -> orderly (memory s) ->
  careful (fun _ => Raw) (calls_of es) -> Z.of_nat (length (calls_of es)) <= 357000 -> history_of al o es s = UB w ->
  exists e1 e e2 x s1, es = e1 ++ e :: e2 /\ history_of al o e1 s = Ok (x, s1) /\ happens al o e s1 = UB w /\ blamed al o e s1 w.
Proof. exact history_safe. Qed.
Print Assumptions C87_safe.
(* The same without a bound on the number of calls: after more than 357000 calls a threshold may have come too near to the end of int, as in C86_hours. *)
Theorem C87_any : forall al o es s w, SpecAlloc.sane al -> good_exp2 o R2400 -> (forall a, wf_parms (sets s a)) -> (forall i, thread_ok (locals s i)) -> orderly (memory s) ->
  careful (fun _ => Raw) (calls_of es) -> history_of al o es s = UB w ->
  exists e1 e e2 x s1, es = e1 ++ e :: e2 /\ history_of al o e1 s = Ok (x, s1) /\
    ((happens al o e s1 = UB w /\ blamed al o e s1 w) \/ (saturated (grades (calls_of e1)) (sets s1) /\ 357000 < Z.of_nat (length (calls_of e1)))).
Proof. exact history_any. Qed.
Print Assumptions C87_any.
(* the ninth block is the second one for thread 1 *)
Example C87_safe_case : how (history_of (SpecAlloc.behind 8) near_oracle story fresh_process) = Some OOB /\ how (history_of (SpecAlloc.behind 10) near_oracle story fresh_process) = None.
Proof. vm_compute. auto. Qed.
Example C87_safe_met : careful (fun _ => Raw) (calls_of story) /\ good_exp2 near_oracle R2400 /\
  orderly (memory fresh_process) /\ (forall a, wf_parms (sets fresh_process a)) /\ (forall i, thread_ok (locals fresh_process i)) /\ (forall i, plans fresh_process i = 0).
Proof. exact (conj story_careful (conj (proj1 programs_met) fresh_met)). Qed.

(* ---- C88 ---- *)
(* The claim: when no thread has a plan any more, nothing is allocated.  It is false: threads that end leave their seven blocks. *)
Theorem C88_refuted : exists al o es xs s', SpecAlloc.sane al /\ history_of al o es fresh_process = Ok (xs, s') /\ (forall i, plans s' i = 0) /\ length (MAlloc.h_live (memory s')) = 14%nat.
Proof. exact threads_leak. Qed.
Print Assumptions C88_refuted.

(* What holds: every thread with a plan has seven blocks of its own, in which the plan and its buffers lie; every thread that ended with a plan
   has left seven; and nothing else has been allocated. *)
Theorem C88_memory : forall al o es s xs s', SpecAlloc.sane al -> orderly (memory s) -> (forall i, plans s i = 0) -> history_of al o es s = Ok (xs, s') ->
  exists ths own lost, NoDup ths /\ (forall i, In i ths <-> plans s' i <> 0) /\ (forall i, In i ths -> length (own i) = 7%nat /\ plan_in (own i) (memory s') (plans s' i)) /\
  length lost = (7 * lost_plans al o es s)%nat /\ orderly (memory s') /\ Permutation (MAlloc.h_live (memory s')) (concat (map own ths) ++ lost ++ MAlloc.h_live (memory s)).
Proof. exact history_memory. Qed.
Print Assumptions C88_memory.
Example C88_memory_case :
  match history_of (SpecAlloc.behind 10) near_oracle story fresh_process with
  | Ok (_, s') => Some (map (plans s') [0%nat; 1%nat; 2%nat], length (MAlloc.h_live (memory s')), MAlloc.h_calls (memory s')) | UB _ => None end = Some ([22528; 11328; 0], 21%nat, 28) /\
  lost_plans (SpecAlloc.behind 10) near_oracle story fresh_process = 1%nat.
Proof. vm_compute. auto. Qed.

(* As long as only threads with plans make calls and none ends, memory stays as it is. *)
Theorem C88_quiet : forall al o es s xs s', history_of al o es s = Ok (xs, s') -> (forall asked i k, In (Calls asked i k) es -> plans s i <> 0) -> (forall i, ~ In (Ends i) es) ->
  memory s' = memory s /\ forall i, plans s' i = plans s i.
Proof. exact history_quiet. Qed.
Print Assumptions C88_quiet.
Example C88_quiet_case :
  match history_of (SpecAlloc.behind 0) near_oracle [Calls true 0 (speaks 1); Calls true 1 (Seed 4)] (mkprocess here threads (fun _ => 64) (MAlloc.mkheap [(16, 5568)] [] 0)) with
  | Ok (_, s') => Some (map (plans s') [0%nat; 1%nat], memory s') | UB _ => None end = Some ([64; 64], MAlloc.mkheap [(16, 5568)] [] 0).
Proof. vm_compute. reflexivity. Qed.
