(* C93: the error rate and the local energy, and the decisions taken on the error rate, when products may be fused with additions. *)
From Coq Require Import ZArith List Bool Reals Lra Lia.
From Verif Require Import Res F32 Build MParms MAdaptive MImbe MFma MRate SpecEcc SpecFrame SpecState SpecMachine SpecFma SpecRate PFloat PRate.
Import ListNotations.
Local Open Scope Z_scope.

(* C93: after any number of frames the filtered error rate is within 1e-6 of the filter with real numbers, whatever is fused *)
Theorem C93_rate_imbe : forall k i ns, Forall (fun n => 0 <= n <= 15) ns ->
  let x := rates_c k i f_365em6 ns fzero in ff x /\ (Rabs (R_of x - real_rates 0.000365 ns 0) <= 1e-6)%R.
Proof. exact rates_imbe. Qed.
Print Assumptions C93_rate_imbe.
Theorem C93_rate_ambe : forall k i ns, Forall (fun n => 0 <= n <= 6) ns ->
  let x := rates_c k i f_1064em6 ns fzero in ff x /\ (Rabs (R_of x - real_rates 0.001064 ns 0) <= 1e-6)%R.
Proof. exact rates_ambe. Qed.
Print Assumptions C93_rate_ambe.
(* C93: the local energy stays above its floor and follows the filter with real numbers to one part in 100000 of the loudest frame *)
Theorem C93_energy : forall k i M ms, (75000 <= M <= 1e35)%R -> Forall (loud M) ms ->
  let x := energies_c k i ms DEFAULT_LOCAL_ENERGY in ff x /\ (10000 <= R_of x)%R /\ (Rabs (R_of x - real_energies (map R_of ms) 75000) <= M / 100000)%R.
Proof. exact energies_start. Qed.
Print Assumptions C93_energy.
(* C93: on a clear stream every build repeats and mutes the frames that exact arithmetic repeats and mutes *)
Theorem C93_decisions : forall k o fs prev fl fl', Forall frame_ok fs -> wf_parms prev -> p_errorRate prev = fzero -> p_mutingThreshold prev = MUTING_IMBE ->
  imbe_frames_c k 0 o fs prev = Ok fl -> decided 0 (p_repeatCount prev) (map event_of fs) fl' -> fl = fl'.
Proof. exact frames_start. Qed.
Print Assumptions C93_decisions.
(* C93: without fusing these are the functions of the model *)
Theorem C93_unfused : forall i o d n cur prev c0 cv, imbe_parameters_c no_fusing i o d n cur prev c0 cv = imbe_parameters o d n cur prev c0 cv.
Proof. exact unfused_parameters. Qed.
Print Assumptions C93_unfused.
Theorem C93_unfused_energy : forall i e m, smoothing_energy_c no_fusing i e m = smoothing_energy e m.
Proof. exact unfused_energy. Qed.
Print Assumptions C93_unfused_energy.
(* C93: on other streams the builds may decide differently: after 55 frames on which they agree, a build that fuses mutes the next and one that does not fuse plays it *)
Theorem C93_identical_refuted : forall o, exists fs fl, Forall frame_ok fs /\ imbe_frames_c no_fusing 0 o fs imbe_initial = Ok (fl ++ [(false, false)]) /\
  imbe_frames_c all_fusing 0 o fs imbe_initial = Ok (fl ++ [(false, true)]).
Proof. exact decisions_refuted. Qed.
Print Assumptions C93_identical_refuted.

(* five frames with an invalid pitch code: four repeated, the fourth of them muted, and then a reset *)
Definition invalid (n : Z) : frame_c := mkframe_c (repeat 1 88) n 3 true imbe_initial.
Example C93_case : let fs := map invalid [2; 2; 2; 2; 12] in let fl := [(true, false); (true, false); (true, false); (true, true); (true, false)] in
  Forall frame_ok fs /\ decided 0 0 (map event_of fs) fl /\
  match imbe_frames_c all_fusing 0 (mkoracle (fun x => x) (fun x => x) (fun x => x) (fun x => x) (fun x => x) (fun _ _ => fzero) (fun _ _ => fzero) true Scalar true) fs imbe_initial with Ok l => l = fl | UB _ => False end.
Proof.
  assert (B : is_bits 88 (repeat 1 88)) by (split; [reflexivity|apply Forall_forall; intros b Hb; apply repeat_spec in Hb; subst; right; reflexivity]).
  cbv zeta. split; [|split; [|vm_compute; reflexivity]].
  - repeat (apply Forall_cons || apply Forall_nil); (split; [exact B|split; [cbn; lia|repeat split]]).
  - assert (P : forall r : R, must_repeat (event_of (invalid 2)) r) by (intros r; left; reflexivity). assert (P' : forall r : R, must_repeat (event_of (invalid 12)) r) by (intros r; left; reflexivity).
    assert (A : forall x y : R, (x + 0.0001 < y \/ y + 0.0001 < x)%R -> (0.0001 < Rabs (x - y))%R) by (intros x y H; unfold Rabs; destruct (Rcase_abs _); lra).
    assert (Q : (0.000002 < Rabs (0 - 0.0875))%R) by (unfold Rabs; destruct (Rcase_abs _); lra).
    cbn [map]. apply (decided_cons 0 0 _ _ true false _ _ 0 1 eq_refl); [intros _; apply A; unfold real_rate; cbn [e_errors event_of invalid fc_errors]; lra|split; auto|reflexivity|exact Q|split; [discriminate|intros [H|H]; [lia|lra]]|].
    apply (decided_cons 0 1 _ _ true false _ _ 0 2 eq_refl); [intros _; apply A; unfold real_rate; cbn [e_errors event_of invalid fc_errors]; lra|split; auto|reflexivity|exact Q|split; [discriminate|intros [H|H]; [lia|lra]]|].
    apply (decided_cons 0 2 _ _ true false _ _ 0 3 eq_refl); [intros _; apply A; unfold real_rate; cbn [e_errors event_of invalid fc_errors]; lra|split; auto|reflexivity|exact Q|split; [discriminate|intros [H|H]; [lia|lra]]|].
    apply (decided_cons 0 3 _ _ true true _ _ 0 4 eq_refl); [intros _; apply A; unfold real_rate; cbn [e_errors event_of invalid fc_errors]; lra|split; auto|reflexivity|exact Q|split; [intros _; left; lia|reflexivity]|].
    apply (decided_cons 0 4 _ _ true false _ _ (real_rate 0.000365 0 12) 0 eq_refl); [intros _; apply A; unfold real_rate; cbn [e_errors event_of invalid fc_errors]; lra|split; auto|reflexivity| | |apply decided_nil];
      unfold real_rate; [unfold Rabs; destruct (Rcase_abs _); lra|split; [discriminate|intros [H|H]; [lia|lra]]].
Qed.
