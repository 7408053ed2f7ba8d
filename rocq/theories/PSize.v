(* Sizes of decoded AMBE frames. *)
From Coq Require Import ZArith List Bool Lia.
From Verif Require Import Res F32 TabAmbe2450 MParms MAdaptive MUnvoiced MSynth MImbe MAmbe SpecEcc SpecFrame SpecState SpecImbe SpecAmbe PState PAmbeDec PAmbeDec2 PExp2 PNyq.
Import ListNotations.
Local Open Scope Z_scope.

Lemma silence2450_decoded : forall o d cur prev e bad cur' prev', is_bits 49 d -> length (p_Vl cur) = 57%nat -> ~ (tone2450 d /\ e < 6) -> pitch2450 d = 124 \/ pitch2450 d = 125 ->
  mbe_decodeAmbe2450ParmsInternal o d cur prev e = Ok (bad, cur', prev') ->
  p_L cur' = (if pitch2450 d =? 124 then 15 else 14) /\ forall l, 1 <= l <= p_L cur' -> rd (p_Vl cur') l = Ok 0.
Proof.
  intros o d cur prev e bad cur' prev' B L NT HP E. assert (NE : ~ erasure2450 (pitch2450 d)) by (unfold erasure2450; lia).
  destruct (ambe2450_accepted o d cur prev e bad cur' prev' B L NT NE E) as [_ (EL & _ & _ & _ & V & _)].
  destruct silence2450_facts as (S1 & S2 & S3). split.
  - rewrite EL. destruct HP as [-> | ->]; [exact S1|exact S2].
  - intros l Hl. rewrite EL in Hl. rewrite (V l Hl). f_equal. apply S3, HP.
Qed.
Lemma size2450 : forall o d cur prev e bad cur' prev', is_bits 49 d -> length (p_Vl cur) = 57%nat -> ~ (tone2450 d /\ e < 6) -> ~ erasure2450 (pitch2450 d) ->
  mbe_decodeAmbe2450ParmsInternal o d cur prev e = Ok (bad, cur', prev') -> 9 <= p_L cur' <= 56.
Proof. intros o d cur prev e bad cur' prev' B L NT NE E. destruct (ambe2450_accepted o d cur prev e bad cur' prev' B L NT NE E) as [_ (-> & _)]. exact (harmonics2450_bits d B NE). Qed.
Lemma size2400 : forall o d cur prev bad cur' prev', is_bits 49 d -> length (p_Vl cur) = 57%nat -> pitch2400 d < 126 -> exp2_close o (exponent2400 (pitch2400 d)) ->
  mbe_decodeAmbe2400Parms o d cur prev = Ok (bad, cur', prev') -> 9 <= p_L cur' <= 56.
Proof. intros o d cur prev bad cur' prev' B L P X E. destruct (ambe2400_accepted o d cur prev bad cur' prev' B L P X E) as [_ (-> & _)]. exact (harmonics2400_range d B P). Qed.
