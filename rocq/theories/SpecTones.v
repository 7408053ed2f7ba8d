(* A build without tone synthesis next to one with it. *)
From Coq Require Import ZArith List Bool.
From Verif Require Import Res F32 MParms MApi SpecState SpecMachine SpecAmbeMachine SpecTone2.
Import ListNotations.
Local Open Scope Z_scope.

(* the same library functions and instruction set, built with DISABLE_AMBE_TONES *)
Definition without_tones (o : oracle) : oracle :=
  mkoracle (o_cosf o) (o_sinf o) (o_exp2f o) (o_log2f o) (o_expf o) (o_fft o) (o_ifft o) (o_plan o) (o_simd o) false.
(* 160 samples of positive zero *)
Definition silent : list f32 := repeat (S754_zero false) 160.
(* results of one call of the two builds: the same status string; zeros for a tone, otherwise the same samples *)
Definition silenced (x : ambe_call * ((list f32 * list Z) * (list f32 * list Z))) : Prop :=
  let '(c, ((b, s), (b', s'))) := x in s' = s /\ b' = (if is_tone c then silent else b).
(* the calls that may synthesise a tone *)
Definition may_tone (k : call) : bool :=
  match k with
  | Tonef _ _ _ | Tonefdstar _ _ _ => true
  | Dataf f _ _ _ _ _ _ _ _ | Data f _ _ _ _ _ _ _ _ => match f with DImbe => false | _ => true end
  | Framef f _ _ _ _ _ _ _ | Frame f _ _ _ _ _ _ _ => match f with F7200 | F7100 => false | _ => true end
  | _ => false
  end.
