(* Property theorems C27, C28, C51 (smoothing call): error-driven adaptive smoothing. *)
From Coq Require Import ZArith List Bool.
From Verif Require Import Res F32 MParms MAdaptive PRun SpecState SpecAdaptive PAdapt.
Import ListNotations.
Local Open Scope Z_scope.

(* C27: on a clean stream the threshold is reset, voicing of bands with a finite amplitude is kept, and the amplitudes are
   kept unless their sum exceeds 20480, when they are all multiplied by 20480 / sum *)
Theorem C27_clean_stream : forall o a cur prev t cur' t',
  mbe_applyAdaptiveSmoothing o a cur prev t = Ok (cur', t') ->
  fle (p_errorRate cur) (flit 5 1000) = true -> p_errorCountTotal cur <= 4 -> 0 <= p_L cur ->
  p_amplitudeThreshold cur' = 20480 /\
  (forall l v x, rd (p_Vl cur) l = Ok v -> rd (p_Ml cur) l = Ok x -> binary32 x -> finite x -> rd (p_Vl cur') l = Ok v) /\
  (flt (flit 20480 1) (float_sum (bands (p_Ml cur) (p_L cur))) = false -> p_Ml cur' = p_Ml cur) /\
  (flt (flit 20480 1) (float_sum (bands (p_Ml cur) (p_L cur))) = true -> forall l x, 1 <= l <= p_L cur ->
     rd (p_Ml cur) l = Ok x ->
     rd (p_Ml cur') l = Ok (fmul x (fdiv (flit 20480 1) (float_sum (bands (p_Ml cur) (p_L cur)))))).
Proof. exact clean_smoothing. Qed.
Print Assumptions C27_clean_stream.

(* a loud but error-free frame: 15 bands of 2^11, sum 30720, are scaled by 2/3 *)
Example C27_case :
  match mbe_applyAdaptiveSmoothing zero_oracle 1 (set_Ml (repeat (flit 2048 1) 57) ambe_initial) ambe_initial tls0 with
  | Ok (m, _) => rd (p_Ml m) 3 = Ok (fmul (flit 2048 1) (fdiv (flit 20480 1) (flit 30720 1))) /\
                 rd (p_Ml m) 16 = Ok (flit 2048 1) /\ rd (p_Vl m) 3 = Ok 0 /\ p_amplitudeThreshold m = 20480
  | UB _ => False
  end.
Proof. vm_compute. repeat split. Qed.

(* C28 *)
Theorem C28_energy_floor : forall o a cur prev t cur' t',
  mbe_applyAdaptiveSmoothing o a cur prev t = Ok (cur', t') ->
  is_nan (p_localEnergy cur') \/ fle (flit 10000 1) (p_localEnergy cur') = true.
Proof. exact smoothing_energy_floor. Qed.
Print Assumptions C28_energy_floor.
Theorem C28_energy_number : forall o a cur prev t cur' t',
  mbe_applyAdaptiveSmoothing o a cur prev t = Ok (cur', t') ->
  binary32 (p_localEnergy prev) -> ~ is_nan (p_localEnergy prev) ->
  Forall (fun x => binary32 x /\ ~ is_nan x) (bands (p_Ml cur) (p_L cur)) ->
  binary32 (t_rm0 t) -> (pending t a = true -> fle (S754_zero false) (t_rm0 t) = true) ->
  fle (flit 10000 1) (p_localEnergy cur') = true.
Proof. exact smoothing_energy_number. Qed.
Print Assumptions C28_energy_number.
Theorem C28_never_unvoices : forall o a cur prev t cur' t' i v,
  mbe_applyAdaptiveSmoothing o a cur prev t = Ok (cur', t') -> rd (p_Vl cur) i = Ok v ->
  rd (p_Vl cur') i = Ok v \/ rd (p_Vl cur') i = Ok 1.
Proof. exact smoothing_voicing. Qed.
Print Assumptions C28_never_unvoices.
Theorem C28_other_fields : forall o a cur prev t cur' t',
  mbe_applyAdaptiveSmoothing o a cur prev t = Ok (cur', t') ->
  same_outside_smoothing cur cur' /\ length (p_Ml cur') = length (p_Ml cur) /\ length (p_Vl cur') = length (p_Vl cur) /\
  forall i, i < 1 \/ p_L cur < i -> rd (p_Ml cur') i = rd (p_Ml cur) i /\
    (forall v, rd (p_Vl cur) i = Ok v -> rd (p_Vl cur') i = Ok v).
Proof. exact smoothing_fields. Qed.
Print Assumptions C28_other_fields.

(* a noisy frame: error rate 1/8, one strong band becomes voiced, a weak one does not, the energy falls *)
Example C28_case :
  match mbe_applyAdaptiveSmoothing zero_oracle 1
          (set_errorRate (flit 1 8) (set_Ml (repeat (flit 1 1) 5 ++ repeat (flit 1000 1) 1 ++ repeat (flit 1 1) 51) ambe_initial))
          ambe_initial tls0 with
  | Ok (m, _) => rd (p_Vl m) 5 = Ok 1 /\ rd (p_Vl m) 4 = Ok 0 /\ fle (flit 10000 1) (p_localEnergy m) = true /\
                 p_amplitudeThreshold m = 26480
  | UB _ => False
  end.
Proof. vm_compute. repeat split. Qed.

(* C51, smoothing call: a pending energy for this set is consumed and cleared *)
Theorem C51_used_once : forall o a cur prev t cur' t',
  mbe_applyAdaptiveSmoothing o a cur prev t = Ok (cur', t') -> pending t a = true -> t' = clear_pending t.
Proof. exact handoff_used. Qed.
Print Assumptions C51_used_once.
(* it takes the place of the energy computed from the amplitudes *)
Theorem C51_value : forall o a cur prev t u, pending t a = true -> pending u a = false ->
  energy_sum (bands (p_Ml cur) (p_L cur)) = t_rm0 t -> 0 <= p_L cur < Z.of_nat (length (p_Ml cur)) ->
  res_rel (fun x y => fst x = fst y) (mbe_applyAdaptiveSmoothing o a cur prev t) (mbe_applyAdaptiveSmoothing o a cur prev u).
Proof. exact handoff_value. Qed.
Print Assumptions C51_value.
(* a pending energy for another set is neither used nor cleared *)
Theorem C51_other_set : forall o a cur prev t u cur' t',
  pending t a = false -> mbe_applyAdaptiveSmoothing o a cur prev t = Ok (cur', t') ->
  t' = t /\ (pending u a = false -> mbe_applyAdaptiveSmoothing o a cur prev u = Ok (cur', u)).
Proof. exact handoff_other. Qed.
Print Assumptions C51_other_set.

(* a pending energy of 10^6 for set 1 is used by set 1 and by no other set *)
Example C51_case :
  let t := set_handoff (flit 1000000 1) true (Some 1) tls0 in
  match mbe_applyAdaptiveSmoothing zero_oracle 1 ambe_initial ambe_initial t,
        mbe_applyAdaptiveSmoothing zero_oracle 2 ambe_initial ambe_initial t with
  | Ok (m, t1), Ok (m', t2) => flt (flit 120000 1) (p_localEnergy m) = true /\ t_rm0_valid t1 = false /\
                               flt (p_localEnergy m') (flit 80000 1) = true /\ t2 = t
  | _, _ => False
  end.
Proof. vm_compute. repeat split. Qed.
