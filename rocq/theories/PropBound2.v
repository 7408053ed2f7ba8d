(* C68. *)
From Coq Require Import ZArith Reals List.
From Verif Require Import Res F32 MParms MAdaptive SpecFrame SpecState SpecMachine SpecAmbeMachine SpecBound PStream PAmbeStream PBound PBound2.
Import ListNotations.
Local Open Scope Z_scope.

(* C68: after any non-empty sequence of AMBE frames that starts from initialisation or takes over a state last used by IMBE, every stored log
   amplitude is a finite number of size at most 81 (2450) or 90 (2400), and the recursive gain one of size at most 14 or 11 *)
Theorem C68_bounded : forall r o a cs st t s st' t', cosine_in_unit o -> log2_in_six o -> good_exp2 o r -> Forall ambe_ok cs ->
  sane_state st -> foreign (prev_of st) = true \/ st = start_ambe -> thread_ok t -> cs <> [] ->
  ambe_stream (do_ambe r o a) cs st t = Ok (s, st', t') -> logs_within (log_size r) (prev_of st') /\ gain_within (gain_range r) (prev_of st').
Proof. exact ambe_bounded. Qed.
Print Assumptions C68_bounded.
Example C68_case : cosine_in_unit unit_oracle /\ log2_in_six unit_oracle /\ good_exp2 unit_oracle R2450 /\
  let c := mkambe_call (repeat 0 2 ++ [1; 1] ++ repeat 0 4 ++ repeat 1 4 ++ repeat 0 24 ++ [1] ++ repeat 0 12) 0 0 true 3 quiet in
  match ambe_stream (do_ambe R2450 unit_oracle 0) [c] start_ambe thread0 with
  | Ok (_, st, _) => p_gamma (prev_of st) | UB _ => S754_zero false end = S754_finite false 14416863 (-21).
Proof. split; [exact unit_cosine|]. split; [exact unit_log2|]. split; [exact I|]. vm_compute. reflexivity. Qed.
