(* Safe use of the whole interface: which undefined behaviour a caller who follows its rules can still meet. *)
From Coq Require Import ZArith List Bool Lia SpecFloat.
From Verif Require Import Res F32 MFrame MParms MAdaptive MUnvoiced MSynth MImbe MAmbe SpecEcc SpecFrame SpecState SpecOut SpecWola SpecMachine SpecAmbeMachine MApi SpecSched SpecSafe.
From Verif Require Import PState PStream PNyq PSafe PSafe2 PSafe3 PSafe4.
Import ListNotations.
Local Open Scope Z_scope.

(* Several threads share parameter sets and follow the rules of SpecSafe.v.  If the whole run has undefined behaviour, it
   comes from one call, and that call predicts from a frame of 56 harmonics, or converts a sample that is not a number in
   the scalar build. *)
Theorem C86_only : forall o s h T w,
  good_exp2 o R2400 -> (forall a, wf_parms (h a)) -> (forall i, thread_ok (T i)) -> careful (fun _ => Raw) s -> Z.of_nat (length s) <= 357000 -> run o s h T = UB w ->
  exists s1 i k s2 x h1 T1, s = s1 ++ (i, k) :: s2 /\ run o s1 h T = Ok (x, h1, T1) /\ api o k h1 (T1 i) = UB w /\ excused o h1 k w.
Proof. exact run_safe. Qed.
Print Assumptions C86_only.

(* Without a bound on the length of the run: it fails in the same two ways, or after more than 357000 calls, two hours of
   speech, in a state in which an amplitude threshold has come so near to the end of int that 6000 cannot be added. *)
Theorem C86_any : forall o s h T w,
  good_exp2 o R2400 -> (forall a, wf_parms (h a)) -> (forall i, thread_ok (T i)) -> careful (fun _ => Raw) s -> run o s h T = UB w ->
  exists s1 i k s2 x h1 T1, s = s1 ++ (i, k) :: s2 /\ run o s1 h T = Ok (x, h1, T1) /\
    ((api o k h1 (T1 i) = UB w /\ excused o h1 k w) \/ (saturated (grades s1) h1 /\ 357000 < Z.of_nat (length s1))).
Proof. exact run_any. Qed.
Print Assumptions C86_any.
(* The second case occurs: a decoder of AMBE frames with one error each. *)
Theorem C86_hours : forall k, 2147483647 < 20480 + 5700 * Z.of_nat k -> careful (fun _ => Raw) (hours k) /\ run near_oracle (hours k) here threads = UB Overflow.
Proof. exact (fun k H => conj (hours_careful k) (hours_overflow k H)). Qed.
Print Assumptions C86_hours.
Example C86_hours_case : 2147483647 < 20480 + 5700 * Z.of_nat (Z.to_nat 376748) /\ 376748 * 20 / 1000 / 60 = 125.
Proof. rewrite Z2Nat.id by lia. split; [lia|reflexivity]. Qed.

(* In the vector builds only the first of the two remains. *)
Theorem C86_vector : forall o s h T w,
  good_exp2 o R2400 -> o_simd o <> Scalar -> (forall a, wf_parms (h a)) -> (forall i, thread_ok (T i)) -> careful (fun _ => Raw) s -> Z.of_nat (length s) <= 357000 -> run o s h T = UB w ->
  w = OOB /\ exists s1 i k s2 x h1 T1 p, s = s1 ++ (i, k) :: s2 /\ run o s1 h T = Ok (x, h1, T1) /\ history k = Some p /\ p_L (h1 p) = 56.
Proof. exact run_vector. Qed.
Print Assumptions C86_vector.

(* A program that never decodes and asks for no 16-bit speech always runs to the end. *)
Theorem C86_floats : forall o s h T,
  good_exp2 o R2400 -> (forall a, wf_parms (h a)) -> (forall i, thread_ok (T i)) -> careful (fun _ => Raw) s -> Z.of_nat (length s) <= 357000 ->
  (forall i k, In (i, k) s -> history k = None /\ delivers_shorts k = false) -> exists x h1 T1, run o s h T = Ok (x, h1, T1) /\ length x = length s.
Proof. exact run_floats. Qed.
Print Assumptions C86_floats.

(* The programs of PSafe3.v: IMBE frames of 56 harmonics, of which the second reads past the arrays; speech with an FFT that
   gives no numbers; and two threads with a decoder each, which run to the end.  All three keep to the rules. *)
Example C86_case : how (run near_oracle wide_program here threads) = Some OOB /\ how (run nano nan_program here threads) = Some BadConv /\ how (run near_oracle plain_program here threads) = None.
Proof. vm_compute. auto. Qed.
Example C86_careful : careful (fun _ => Raw) wide_program /\ careful (fun _ => Raw) nan_program /\ careful (fun _ => Raw) plain_program.
Proof. exact careful_programs. Qed.
Example C86_premises : good_exp2 near_oracle R2400 /\ good_exp2 nano R2400 /\ (forall a, wf_parms (here a)) /\ (forall i, thread_ok (threads i)).
Proof. exact programs_met. Qed.
