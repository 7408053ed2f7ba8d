(* C85: running out of memory only costs the unvoiced part. *)
From Coq Require Import ZArith List Bool Permutation.
From Verif Require Import Res F32 Build MAlloc SpecAlloc PAlloc.
Import ListNotations.
Local Open Scope Z_scope.

(* The claim: whatever malloc answers, asking for the plan is defined.  It is false: a thread whose second or third call of malloc
   fails writes through NULL, in every build. *)
Theorem C85_refuted : exists al, sane al /\ forall b, mbe_get_fft_plan al b 0 (mkheap [] [] 0) = UB OOB.
Proof. exists (behind 1). split; [apply behind_sane|]. intros []; vm_compute; reflexivity. Qed.
Print Assumptions C85_refuted.
(* exactly these calls matter: the plan itself is allocated and then one of the two calls in pffft_new_setup fails *)
Theorem C85_unhandled : forall al b h f, sane al -> reach al b 0 h f -> starved al h -> mbe_get_fft_plan al b 0 h = UB OOB.
Proof. exact alloc_unhandled. Qed.
Print Assumptions C85_unhandled.
Example C85_unhandled_cases : starved (behind 1) (mkheap [] [] 0) /\ starved (behind 2) (mkheap [] [] 0) /\ forall b, mbe_get_fft_plan (behind 2) b 0 (mkheap [] [] 0) = UB OOB.
Proof. split; [split; [vm_compute; discriminate|left; reflexivity]|]. split; [split; [vm_compute; discriminate|right; reflexivity]|]. intros []; vm_compute; reflexivity. Qed.

(* What holds.  Every other call may fail: the request is defined, it keeps the memory in order, and there is a plan exactly if all
   seven calls of malloc succeed. *)
Theorem C85_handled : forall al b h f, sane al -> reach al b 0 h f -> ~ starved al h ->
  exists i h', mbe_get_fft_plan al b 0 h = Ok (i, h') /\ reach al b i h' f /\ (i <> 0 <-> enough al h).
Proof. exact alloc_handled. Qed.
Print Assumptions C85_handled.
Example C85_handled_met : ~ starved (behind 0) (mkheap [] [] 0) /\ ~ starved (behind 3) (mkheap [] [] 0) /\ enough (behind 9) (mkheap [] [] 0) /\ ~ enough (behind 6) (mkheap [] [] 0).
Proof.
  split; [intros [H _]; apply H; reflexivity|]. split; [intros [_ [H|H]]; vm_compute in H; discriminate H|]. split.
  - intros [|[|[|[|[|[|[|j]]]]]]] J; [vm_compute; discriminate..|]. do 7 apply Nat.succ_lt_mono in J. inversion J.
  - intros H. apply (H 6%nat); [repeat constructor|reflexivity].
Qed.
(* calls 0, 3, 4, 5 and 6 fail in turn: no plan, and no block stays allocated; call 7 is not made *)
Example C85_handled_cases : forall b, map (fun k => match mbe_get_fft_plan (behind k) b 0 (mkheap [] [] 0) with Ok (i, h) => Some (i, length (h_live h), h_calls h) | UB _ => None end) [0; 1; 2; 3; 4; 5; 6; 7] =
  [Some (0, 0%nat, 1); None; None; Some (0, 0%nat, 7); Some (0, 0%nat, 7); Some (0, 0%nat, 7); Some (0, 0%nat, 7); Some (64, 7%nat, 7)].
Proof. intros []; vm_compute; reflexivity. Qed.

(* Nothing leaks: at every moment the allocated blocks are those of the rest of the program, and the seven of the plan if there is one. *)
Theorem C85_no_leak : forall al b i h f, sane al -> reach al b i h f ->
  (i = 0 /\ Permutation (h_live h) f) \/ (i <> 0 /\ exists own, length own = 7%nat /\ Permutation (h_live h) (own ++ f)).
Proof. exact alloc_no_leak. Qed.
Print Assumptions C85_no_leak.
(* mbe_fft_plan_free gives the plan's blocks back, each once *)
Theorem C85_free : forall al b i h f, sane al -> reach al b i h f -> exists h', mbe_fft_plan_free i h = Ok h' /\ Permutation (h_live h') f.
Proof. exact alloc_free. Qed.
Print Assumptions C85_free.
Example C85_free_case : match mbe_get_fft_plan (behind 9) Sse2 0 (mkheap [] [] 0) with
  | Ok (i, h) => let '(p, h) := malloc (behind 9) 100 h in match mbe_fft_plan_free i h with Ok h => Some (p, h_live h) | UB _ => None end | UB _ => None end = Some (11264, [(11264, 100)]).
Proof. vm_compute. reflexivity. Qed.

(* The buffers of a plan are at multiples of 64, inside the plan's blocks, apart from each other, from the transform's setup and from
   every block of the rest of the program. *)
Theorem C85_usable : forall al b i h f, sane al -> reach al b i h f -> i <> 0 ->
  exists uw uf uo wk s d, load (i + at_Uw) h = Ok uw /\ load (i + at_Uw_fft) h = Ok uf /\ load (i + at_Uw_out) h = Ok uo /\ load (i + at_work) h = Ok wk /\
  load (i + at_setup) h = Ok s /\ load (s + 112) h = Ok d /\
  exists own, Permutation (h_live h) (own ++ f) /\ In (s, 136) own /\
  Forall (fun q => buffer own (fst q) (snd q) /\ apart q (s, 136) /\ forall c, In c f -> apart q c) [(d, 1024); (uw, 1024); (uf, 1024); (uo, 1024); (wk, 1024); (i, 5504)] /\
  ForallOrdPairs apart [(d, 1024); (uw, 1024); (uf, 1024); (uo, 1024); (wk, 1024); (i, 5504)].
Proof. exact alloc_usable. Qed.
Print Assumptions C85_usable.
Example C85_usable_case : match mbe_get_fft_plan (behind 9) Neon 0 (mkheap [] [] 0) with
  | Ok (i, h) => (i, [load (i + at_setup) h; load (i + at_Uw) h; load (i + at_Uw_fft) h; load (i + at_Uw_out) h; load (i + at_work) h])
  | UB _ => (0, []) end = (64, [Ok 5600; Ok 6912; Ok 8000; Ok 9088; Ok 10176]).
Proof. vm_compute. reflexivity. Qed.

(* a thread that has a plan keeps it, and allocates nothing *)
Theorem C85_once : forall al b i h, i <> 0 -> mbe_get_fft_plan al b i h = Ok (i, h).
Proof. exact alloc_once. Qed.
Print Assumptions C85_once.
Example C85_once_case : mbe_get_fft_plan (behind 0) Scalar 64 (mkheap [(16, 5568)] [] 7) = Ok (64, mkheap [(16, 5568)] [] 7).
Proof. reflexivity. Qed.
