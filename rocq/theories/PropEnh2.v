(* C69, C70: the enhanced amplitudes as formulas, and their energy. *)
From Coq Require Import ZArith List Bool Reals Lia Lra.
From Verif Require Import Res F32 MParms MAdaptive MUnvoiced MSynth SpecSynth SpecTrig SpecEnh2 PFloat PropEnh PEnh2 PEnh3 POsc2.
Import ListNotations.
Local Open Scope Z_scope.

(* C69: enhancement replaces the amplitudes 1..L by the formula and hands the energy of the frame to the smoothing stage *)
Theorem C69_formula : forall o a cur t, length (p_Ml cur) = 57%nat -> 0 <= p_L cur <= 56 ->
  mbe_spectralAmpEnhance o a cur t = Ok (set_Ml (enhanced_amplitudes o cur) cur, mbe_setPreEnhRm0 a (moment0 o cur) t).
Proof. exact enhance_formula. Qed.
Print Assumptions C69_formula.
(* C69: the cosines it uses are close to the cosines of the harmonics' angles *)
Theorem C69_cosine : forall o L w0, 0 <= L <= 56 -> trig_close o w0 -> exists tab, enh_cos_tab o L w0 = Ok tab /\
  forall l, 1 <= l <= L -> exists c, rdi tab l = Ok c /\ near c (cos (IZR l * R_of w0)) (/ 16384)%R.
Proof. exact cosines_run. Qed.
Print Assumptions C69_cosine.
(* the amplitudes 0, 1, ..., 8 of nine harmonics: the weight of harmonic 8 is limited *)
Definition ramp_oracle : oracle := mkoracle (fun _ => flit 3 4) (fun _ => flit 1 2) (fun x => x) (fun x => x) (fun x => x) (fun _ _ => fzero) (fun _ _ => fzero) true Scalar true.
Example C69_case : map (fun l => sf_trunc (fmul (f_of_Z 1000) (weight ramp_oracle ramp l))) [1; 2; 3; 4; 8] = [Some 0; Some 504; Some 696; Some 836; Some 1312] /\
  map (fun l => sf_trunc (fmul (f_of_Z 1000) (reweighted ramp_oracle ramp l))) [1; 2; 3; 4; 8] = [Some 0; Some 504; Some 1392; Some 2510; Some 8400] /\
  moment0 ramp_oracle ramp = f_of_Z 204 /\ sf_trunc (fmul (f_of_Z 1000) (restore ramp_oracle ramp)) = Some 874.
Proof. vm_compute. repeat split; reflexivity. Qed.

(* C70: if the enhanced amplitudes are finite, the frame has the same energy to one part in 100000 *)
Theorem C70_energy : forall o a cur t cur' t', length (p_Ml cur) = 57%nat -> vf (p_w0 cur) -> 0 <= p_L cur <= 56 ->
  (forall k, 1 <= k <= p_L cur -> ff (cell zero (p_Ml cur) k) /\ (Rabs (R_of (cell zero (p_Ml cur) k)) <= 1e9)%R) -> (1e-12 <= energy cur)%R ->
  mbe_spectralAmpEnhance o a cur t = Ok (cur', t') -> (forall k, 1 <= k <= p_L cur -> is_finite_sf (cell zero (p_Ml cur') k) = true) ->
  (Rabs (energy cur' - energy cur) <= energy cur / 100000)%R.
Proof. exact enhance_energy. Qed.
Print Assumptions C70_energy.
Example C70_case : vf (p_w0 ramp) /\ (forall k, 1 <= k <= 9 -> ff (cell zero (p_Ml ramp) k) /\ (Rabs (R_of (cell zero (p_Ml ramp) k)) <= 1e9)%R) /\ energy ramp = 204%R /\
  match mbe_spectralAmpEnhance ramp_oracle 1 ramp (mktls 0 0 false fzero false None 0 false) with Ok (m, _) => forallb (fun k => is_finite_sf (cell zero (p_Ml m) k)) (map Z.of_nat (seq 1 9)) | UB _ => false end = true.
Proof.
  assert (V : forall k, 1 <= k <= 9 -> cell zero (p_Ml ramp) k = f_of_Z (k - 1)).
  { intros k Hk. assert (D : k = 1 \/ k = 2 \/ k = 3 \/ k = 4 \/ k = 5 \/ k = 6 \/ k = 7 \/ k = 8 \/ k = 9) by lia. repeat (destruct D as [->|D]; [vm_compute; reflexivity|]). rewrite D. vm_compute. reflexivity. }
  assert (R : forall k, 1 <= k <= 9 -> ff (f_of_Z (k - 1)) /\ R_of (f_of_Z (k - 1)) = IZR (k - 1)) by (intros k Hk; apply of_Z_R; lia).
  split; [reflexivity|]. split; [|split].
  - intros k Hk. rewrite V by exact Hk. destruct (R k Hk) as [A B]. split; [exact A|]. rewrite B. assert (0 <= IZR (k - 1) <= 8)%R by (split; apply IZR_le; lia). rewrite Rabs_right; lra.
  - unfold energy. change (SpecAmp.upto (p_L ramp)) with [1; 2; 3; 4; 5; 6; 7; 8; 9]. cbn [fold_right]. rewrite !V by lia. rewrite !(fun k H => proj2 (R k H)) by lia. cbn -[IZR Rmult Rplus]. lra.
  - vm_compute. reflexivity.
Qed.
