(* The fundamental and the number of harmonics of a decoded AMBE frame. *)
From Coq Require Import ZArith Reals Lra Lia List Bool.
From Verif Require Import Res F32 MParms MAmbe SpecEcc SpecFrame SpecState SpecAmbe SpecMachine SpecAmbeMachine SpecBound SpecNum SpecNum2
  PFloat PAmbeDec PAmbeDec2 PNum6 PNum8 PNum9 PNum10 PNum11.
Local Open Scope R_scope.

Lemma decoded_pitch2450 : forall o d cur prev e bad cur' prev', is_bits 49 d -> length (p_Vl cur) = 57%nat -> ~ (tone2450 d /\ (e < 6)%Z) -> ~ erasure2450 (pitch2450 d) ->
  mbe_decodeAmbe2450ParmsInternal o d cur prev e = Ok (bad, cur', prev') -> pitched cur' /\ ff (p_w0 cur').
Proof.
  intros o d cur prev e bad cur' prev' Hd LV NT NE H. destruct (ambe2450_accepted _ _ _ _ _ _ _ _ Hd LV NT NE H) as [_ (EL & EW & _)].
  pose proof (pitch2450_range d Hd) as PR. apply (pitched2450 (pitch2450 d) cur'); [unfold erasure2450 in NE; lia|exact EW|exact EL].
Qed.
Lemma decoded_pitch2400 : forall o d cur prev bad cur' prev', is_bits 49 d -> length (p_Vl cur) = 57%nat -> (pitch2400 d < 126)%Z -> fine_exp2 o R2400 ->
  mbe_decodeAmbe2400Parms o d cur prev = Ok (bad, cur', prev') -> pitched cur' /\ ff (p_w0 cur').
Proof.
  intros o d cur prev bad cur' prev' Hd LV HB FX H. pose proof (pitch2400_range _ Hd) as PR. assert (HB' : (0 <= pitch2400 d < 126)%Z) by lia.
  destruct (ambe2400_accepted _ _ _ _ _ _ _ Hd LV HB (fine_good o R2400 FX _ HB') H) as [_ (EL & EW & _)].
  exact (pitched2400 o (pitch2400 d) cur' HB' (FX _ HB') EW EL).
Qed.
