(* Specification: parameter sets alike but for the phases of the tone oscillators. *)
From Coq Require Import ZArith List Bool.
From Verif Require Import Res F32 MParms MImbe SpecMachine SpecAmbeMachine.
Import ListNotations.
Local Open Scope Z_scope.

(* the same but for the two phases *)
Definition alike (m n : parms) : Prop := set_un 0 (set_swn 0 m) = set_un 0 (set_swn 0 n).
(* the same but also for what every frame writes before reading it: the error fields and the repeat counters *)
Definition alike_before (m n : parms) : Prop := alike (no_repeats (with_errors 0 (S754_zero false) m)) (no_repeats (with_errors 0 (S754_zero false) n)).
(* the same voice decoder: what is stored as previous and enhanced set, and what the current set carries into the next frame *)
Definition same_voice (st st' : dstate) : Prop := alike_before (cur_of st) (cur_of st') /\ alike (prev_of st) (prev_of st') /\ alike (enh_of st) (enh_of st').
Definition is_tone (c : ambe_call) : bool := match kind_of c with Tone _ => true | _ => false end.
(* results of one call: the same samples, tone frames apart, and the same status string *)
Definition same_result (x : ambe_call * ((list f32 * list Z) * (list f32 * list Z))) : Prop :=
  let '(c, ((b, s), (b', s'))) := x in s = s' /\ (is_tone c = false -> b = b').
