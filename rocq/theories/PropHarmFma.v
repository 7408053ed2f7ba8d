(* C97: voiced synthesis, in any build. *)
From Coq Require Import ZArith Reals List Bool.
From Verif Require Import Res F32 MParms MSynth MFft MFma MHarmFma SpecState SpecAmp SpecSynth SpecTrig SpecNum SpecGlideFma SpecHarmFma PFloat PFftErr PIdeal PNum6 PHarmFma.
Import ListNotations.
Local Open Scope R_scope.

(* C97: whatever is fused, the voiced part of a frame is the sum of its harmonics computed with real numbers; the turns of the steady harmonics do not depend on the build *)
Theorem C97_voiced : forall o M cur prev, voiced_ranges M cur -> voiced_ranges M prev -> accurate_angles o -> M <= 1e26 ->
  exists j, (forall l, (1 <= l <= 7)%Z -> Rabs (excess l (j l) (R_of (p_w0 cur)) (R_of (p_w0 prev)) (R_of (cell zero (p_PHIl cur) l)) (R_of (cell zero (p_PHIl prev) l))) <= 3.142) /\
  forall k maxl, (0 <= maxl <= 56)%Z -> exists r, voiced_c k o (p_w0 cur) (p_w0 prev) cur prev maxl (repeat zero 160) = Ok r /\ length r = 160%nat /\
  forall n, (0 <= n < 160)%Z -> exists y, rd r n = Ok y /\ ff y /\ Rabs (R_of y - real_voiced j cur prev (Z.to_nat maxl) n) <= IZR maxl * (3.1e-3 * M + 1e-35).
Proof. exact voiced_near_turns. Qed.
Print Assumptions C97_voiced.
(* C97: so two builds agree up to 0.0062 of the largest amplitude for each harmonic *)
Theorem C97_close : forall k k' o M cur prev maxl, accurate_angles o -> voiced_ranges M cur -> voiced_ranges M prev -> M <= 1e26 -> (0 <= maxl <= 56)%Z ->
  exists r r', voiced_c k o (p_w0 cur) (p_w0 prev) cur prev maxl (repeat zero 160) = Ok r /\ voiced_c k' o (p_w0 cur) (p_w0 prev) cur prev maxl (repeat zero 160) = Ok r' /\
  forall n, (0 <= n < 160)%Z -> exists y y', rd r n = Ok y /\ rd r' n = Ok y' /\ ff y /\ ff y' /\ Rabs (R_of y - R_of y') <= IZR maxl * (6.2e-3 * M + 2e-35).
Proof. exact voiced_close. Qed.
Print Assumptions C97_close.
(* C97: when nothing is fused each harmonic is that of the decoder model, for all inputs *)
Theorem C97_unfused : forall o cw0 pw0 cur prev l aout, length aout = 160%nat -> add_harmonic_c (fun _ _ => false) o cw0 pw0 cur prev l aout = add_harmonic o cw0 pw0 cur prev l aout.
Proof. exact harmonic_unfused. Qed.
Print Assumptions C97_unfused.
(* harmonic 2 voiced in both frames at a pitch of 1/8, phase 1 and amplitude 1: everything is fused *)
Example C97_case : voiced_ranges 1 one_voiced /\ cell 0%Z (p_Vl one_voiced) 2 = 1%Z /\
  exists r j, voiced_c (fun _ _ _ => true) (with_pffft (grid cos) (grid sin) ideal) (p_w0 one_voiced) (p_w0 one_voiced) one_voiced one_voiced 3 (repeat zero 160) = Ok r /\
  forall n, (0 <= n < 160)%Z -> exists y, rd r n = Ok y /\ ff y /\ Rabs (R_of y - real_voiced j one_voiced one_voiced 3 n) <= 3 * (3.1e-3 * 1 + 1e-35).
Proof.
  split; [exact one_voiced_ranges|]. split; [reflexivity|].
  destruct (C97_voiced (with_pffft (grid cos) (grid sin) ideal) 1 one_voiced one_voiced one_voiced_ranges one_voiced_ranges (ideal_angles _ _)) as (j & _ & H); [Lra.lra|].
  destruct (H (fun _ _ _ => true) 3%Z) as (r & E & _ & V); [Lia.lia|]. exists r, j. split; [exact E|exact V].
Qed.
