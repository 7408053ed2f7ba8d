(* C40: a tone frame between voice frames has no influence on them. *)
From Coq Require Import ZArith List Bool.
From Verif Require Import Res F32 MParms MImbe MAmbe SpecState SpecAdaptive SpecGen SpecMachine SpecTone SpecAmbeMachine SpecTone2 PGen PStream PAmbeStream PSim2.
Import ListNotations.
Local Open Scope Z_scope.

(* the calls after a tone frame, whatever they are, run as if the tone frame had not been there: the same undefined behaviour or the same
   status strings, the same samples in every call that is no tone, the same voice decoder afterwards and the same thread state *)
Theorem C40_continues : forall o a tc cs st t, ambe_ok tc -> Forall ambe_ok cs -> cs <> [] -> is_tone tc = true -> sane_state st -> thread_ok t ->
  match ambe_stream (do2450 o a) (tc :: cs) st t, ambe_stream (do2450 o a) cs st t with
  | Ok (r, st1, t1), Ok (r', st2, t2) => Forall same_result (combine cs (combine (tl r) r')) /\ length r = S (length cs) /\ length r' = length cs /\ same_voice st1 st2 /\ t1 = t2
  | UB w, UB w' => w = w'
  | _, _ => False
  end.
Proof. exact tone_between. Qed.
Print Assumptions C40_continues.
(* when none of them is a tone the outputs are equal *)
Theorem C40_voice : forall o a tc cs st t, ambe_ok tc -> Forall ambe_ok cs -> cs <> [] -> is_tone tc = true -> Forall (fun c => is_tone c = false) cs -> sane_state st -> thread_ok t ->
  match ambe_stream (do2450 o a) (tc :: cs) st t, ambe_stream (do2450 o a) cs st t with
  | Ok (r, st1, t1), Ok (r', st2, t2) => tl r = r' /\ same_voice st1 st2 /\ t1 = t2
  | UB w, UB w' => w = w'
  | _, _ => False
  end.
Proof. exact tone_before_voice. Qed.
Print Assumptions C40_voice.
(* a DTMF digit, a concealed frame, the digit again and an unknown tone: four results *)
Example C40_stream : Forall ambe_ok [digit; lost; digit; strange] /\ map is_tone [digit; lost; digit; strange] = [true; false; true; false] /\
  match ambe_stream (do2450 zero_oracle 1) [digit; lost; digit; strange] start_ambe thread0 with Ok (r, _, _) => length r = 4%nat | UB _ => False end.
Proof. exact tone_case. Qed.
