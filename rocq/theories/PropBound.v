(* C49. *)
From Coq Require Import ZArith Reals List.
From Verif Require Import Res F32 MParms MAdaptive SpecFrame SpecState SpecMachine SpecBound PStream PBound.
Import ListNotations.
Local Open Scope Z_scope.

(* C49: from initialisation on, after any sequence of IMBE frames, every stored log amplitude is a finite number of size at most 108,
   for every cosine with values in [-1, 1] and every exp2f that is exact at small integers *)
Theorem C49_bounded : forall o a cs t r st' t', cosine_in_unit o -> exact_powers o -> Forall call_ok cs -> thread_ok t ->
  imbe_stream o a cs start t = Ok (r, st', t') -> logs_within 108 (prev_of st').
Proof. exact imbe_bounded. Qed.
Print Assumptions C49_bounded.
Example C49_case : cosine_in_unit unit_oracle /\ exact_powers unit_oracle /\
  let c := mkimbe_call (repeat 0 2 ++ [1; 1] ++ repeat 0 84) 0 0 true 3 quiet in
  match imbe_stream unit_oracle 0 [c; c] start thread0 with
  | Ok (_, st, _) => rd (p_log2Ml (prev_of st)) 1 | UB _ => Ok (S754_zero false) end = Ok (S754_finite true 16173760 (-20)).
Proof. split; [exact unit_cosine|]. split; [exact unit_powers|]. vm_compute. reflexivity. Qed.
