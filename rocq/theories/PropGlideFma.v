(* C96: interpolated harmonics, in any build. *)
From Coq Require Import ZArith Reals List Bool.
From Verif Require Import Res F32 MParms MSynth MFft MFma MGlideFma SpecTrig SpecNum SpecGlideFma PFloat PFftErr PIdeal PNum6 PGlideFma.
Import ListNotations.
Local Open Scope R_scope.

(* C96: there is a number of turns, the same for all builds, for which the frequency is corrected by half a turn a frame at most, and whatever is fused every sample gets the cosine of the interpolated phase times twice the interpolated amplitude *)
Theorem C96_glide : forall o l cw0 pw0 pc pp mc mp M, (1 <= l <= 7)%Z -> accurate_angles o -> pitch_range cw0 -> pitch_range pw0 -> range 16 pc -> range 16 pp ->
  range M mc -> range M mp -> M <= 1e30 -> exists j, Rabs (excess l j (R_of cw0) (R_of pw0) (R_of pc) (R_of pp)) <= 3.142 /\
  forall k aout, length aout = 160%nat -> Forall (range 1e30) aout -> exists r, add_interpolated_c k o aout l cw0 pw0 pc pp mc mp = Ok r /\ length r = 160%nat /\
  forall n x, (0 <= n < 160)%Z -> rd aout n = Ok x -> exists y, rd r n = Ok y /\ ff y /\
    Rabs (R_of y - (R_of x + 2 * glide_amp (R_of mc) (R_of mp) (IZR n) * cos (glide_phase l j (R_of cw0) (R_of pw0) (R_of pc) (R_of pp) (IZR n)))) <= Rabs (R_of x) * 1e-7 + M * 1.3e-3 + 1e-36.
Proof. exact glide_c_adds. Qed.
Print Assumptions C96_glide.
(* C96: the interpolated phase is the previous phase at the start of the frame and the current one, less whole turns, at its end *)
Theorem C96_ends : forall l j cw0 pw0 pc pp, glide_phase l j cw0 pw0 pc pp 0 = pp /\ glide_phase l j cw0 pw0 pc pp 160 = pc - 2 * PI * IZR j.
Proof. exact glide_ends. Qed.
Print Assumptions C96_ends.
(* C96: two builds agree up to twice the error *)
Theorem C96_close : forall k k' o l cw0 pw0 pc pp mc mp M aout, (1 <= l <= 7)%Z -> accurate_angles o -> pitch_range cw0 -> pitch_range pw0 -> range 16 pc -> range 16 pp ->
  range M mc -> range M mp -> M <= 1e30 -> length aout = 160%nat -> Forall (range 1e30) aout ->
  exists r r', add_interpolated_c k o aout l cw0 pw0 pc pp mc mp = Ok r /\ add_interpolated_c k' o aout l cw0 pw0 pc pp mc mp = Ok r' /\
  forall n x, (0 <= n < 160)%Z -> rd aout n = Ok x -> exists y y', rd r n = Ok y /\ rd r' n = Ok y' /\ ff y /\ ff y' /\
    Rabs (R_of y - R_of y') <= Rabs (R_of x) * 2e-7 + M * 2.6e-3 + 2e-36.
Proof. exact glide_c_close. Qed.
Print Assumptions C96_close.
(* C96: when nothing is fused it is the interpolated harmonic of the decoder model, for all inputs *)
Theorem C96_unfused : forall o aout l cw0 pw0 pc pp mc mp, add_interpolated_c (fun _ _ => false) o aout l cw0 pw0 pc pp mc mp = add_interpolated o aout l cw0 pw0 pc pp mc mp.
Proof. exact glide_unfused. Qed.
Print Assumptions C96_unfused.
(* harmonic 3 at a pitch of 1/8, phases 2 and 1, amplitudes 200 and 100, everything fused: half way the phase is 1.5 (and five turns) and the amplitude 150 *)
Example C96_case : exists r y, add_interpolated_c (fun _ _ => true) (with_pffft (grid cos) (grid sin) ideal) (repeat fone 160) 3 (flit 1 8) (flit 1 8) (f_of_Z 1) (f_of_Z 2) (f_of_Z 100) (f_of_Z 200) = Ok r /\
  rd r 80 = Ok y /\ ff y /\ Rabs (R_of y - (1 + 300 * cos 1.5)) <= 0.261.
Proof. apply glide_example. apply ideal_angles. Qed.
