(* The count of unvoiced harmonics, and a voiced frame with random phases. *)
From Coq Require Import ZArith Reals Lra List Bool Lia.
From Verif Require Import Res F32 MParms MAdaptive MUnvoiced MSynth MImbe SpecEcc SpecFrame SpecState SpecAdaptive SpecGen SpecWola SpecImbe SpecMachine SpecAmp SpecSynth PBase PFloat PAmp PStream PSynth PReal SpecTrig.
Import ListNotations.
Local Open Scope Z_scope.

Lemma count_entry0 : forall m, 0 <= p_L m <= 56 -> length (p_Vl m) = 57%nat -> cell 0 (p_Vl m) 0 = 0 ->
  unvoiced_count m = 1 + Z.of_nat (length (filter (fun l => cell 0 (p_Vl m) l =? 0) (upto (p_L m)))).
Proof.
  intros m HL HV H0. unfold unvoiced_count, upto. generalize dependent (p_Vl m). intros V HV H0. destruct V as [|v V]; [discriminate|]. change (v = 0) in H0. subst v.
  replace (Z.to_nat (p_L m + 1)) with (S (Z.to_nat (p_L m))) by lia. cbn [firstn filter Z.eqb length]. rewrite Nat2Z.inj_succ.
  assert (Q : forall n, (n <= length V)%nat -> length (filter (Z.eqb 0) (firstn n V)) = length (filter (fun l => cell 0 (0 :: V) l =? 0) (map Z.of_nat (seq 1 n)))).
  { induction n as [|n IH]; intros Hn; [reflexivity|]. rewrite seq_S, map_app, filter_app, app_length, <- IH by lia. clear IH.
    assert (E : firstn (S n) V = firstn n V ++ [nth n V 0]).
    { clear HV. revert V Hn. induction n as [|n IH]; intros [|x V] Hn; cbn [length] in Hn; try lia; [reflexivity|]. change (nth (S n) (x :: V) 0) with (nth n V 0).
      change (firstn (S (S n)) (x :: V)) with (x :: firstn (S n) V). rewrite (IH V) by lia. reflexivity. }
    rewrite E, filter_app, app_length. f_equal. cbn [map filter Nat.add]. unfold cell. rewrite Nat2Z.id. cbn [nth Nat.add]. rewrite (Z.eqb_sym 0). now destruct (nth n V 0 =? 0). }
  rewrite Q by (cbn [length] in HV; lia). lia.
Qed.
Lemma count_model : forall m, 0 <= p_L m <= 56 -> length (p_Vl m) = 57%nat -> cell 0 (p_Vl m) 0 = 0 ->
  count_unvoiced (p_L m) (p_Vl m) = Ok (1 + Z.of_nat (length (filter (fun l => cell 0 (p_Vl m) l =? 0) (upto (p_L m))))).
Proof. intros m HL HV H0. rewrite count_value by assumption. now rewrite count_entry0 by assumption. Qed.
(* pitch code 0 and all other bits 1 *)
Definition voiced_call : imbe_call := mkimbe_call (repeat 0 6 ++ repeat 1 79 ++ repeat 0 3) 0 0 true 3 (repeat (S754_zero false) 160).
Lemma voiced_random : exists c b str st' t', call_ok c /\ imbe_do zero_oracle 1 c start (mktls 0 0 false (S754_zero false) false None 0 false) = Ok (b, str, st', t') /\ str = [0] /\
  let m := cur_of st' in Forall (fun v => v = 1) (firstn 9 (skipn 1 (p_Vl m))) /\ p_L m = 9 /\ cell zero (p_PHIl m) 3 <> cell zero (p_PSIl m) 3.
Proof.
  exists voiced_call.
  assert (Q : match imbe_do zero_oracle 1 voiced_call start (mktls 0 0 false (S754_zero false) false None 0 false) with
    | Ok (b, str, st', t') => match str with [0] => forallb (Z.eqb 1) (firstn 9 (skipn 1 (p_Vl (cur_of st')))) && (p_L (cur_of st') =? 9) &&
        negb (SFeqb (cell zero (p_PHIl (cur_of st')) 3) (cell zero (p_PSIl (cur_of st')) 3)) && SFeqb (cell zero (p_PHIl (cur_of st')) 3) (cell zero (p_PHIl (cur_of st')) 3)
        | _ => false end | UB _ => false end = true) by (vm_compute; reflexivity).
  destruct (imbe_do _ _ _ _ _) as [[[[b str] st'] t']|]; [|discriminate]. destruct str as [|[| |] [|]]; try discriminate.
  exists b, [0], st', t'. apply andb_true_iff in Q as [Q Q4]. apply andb_true_iff in Q as [Q Q3]. apply andb_true_iff in Q as [Q1 Q2].
  split; [|split; [reflexivity|split; [reflexivity|]]].
  - split; [|split; [vm_compute; split; congruence|reflexivity]]. split; [reflexivity|]. cbn [ic_bits voiced_call].
    apply Forall_app; split; [|apply Forall_app; split]; apply Forall_forall; intros x Hx; apply repeat_spec in Hx; subst x; [left|right|left]; reflexivity.
  - cbv zeta. split; [|split].
    + apply Forall_forall. intros x Hx. rewrite forallb_forall in Q1. specialize (Q1 x Hx). apply Z.eqb_eq in Q1. auto.
    + now apply Z.eqb_eq.
    + intros E. rewrite E in Q3, Q4. rewrite Q4 in Q3. discriminate.
Qed.

(* 1 and x are close to the cosine and the sine of x = 2^-12 *)
Local Open Scope R_scope.
Definition simple_oracle : oracle := mkoracle (fun _ => f_of_Z 1) (fun x => x) (fun x => x) (fun x => x) (fun x => x) (fun _ _ => S754_zero false) (fun _ _ => S754_zero false) true Scalar true.
Lemma simple_zero : trig_close simple_oracle (S754_zero false).
Proof.
  destruct (of_Z_R 1) as [A B]; [lia|]. unfold trig_close.
  replace (cosf simple_oracle (S754_zero false)) with (f_of_Z 1) by (vm_compute; reflexivity). replace (sinf simple_oracle (S754_zero false)) with (S754_zero false) by (vm_compute; reflexivity). split; [exact A|]. split; [split; reflexivity|].
  rewrite B, !R_zero, cos_0, sin_0, !Rminus_diag_eq, Rabs_R0 by reflexivity. lra.
Qed.
Definition small_step : f32 := S754_finite false 8388608 (-35).
Lemma simple_small : trig_close simple_oracle small_step.
Proof.
  destruct (of_Z_R 1) as [A B]; [lia|]. unfold trig_close.
  replace (cosf simple_oracle small_step) with (f_of_Z 1) by (vm_compute; reflexivity). replace (sinf simple_oracle small_step) with small_step by (vm_compute; reflexivity). split; [exact A|]. split; [split; reflexivity|].
  rewrite B. R_val small_step. set (x := 8388608 / 34359738368). assert (X : x = / 4096) by (unfold x; lra). rewrite X. clear x X.
  assert (PI1 : 3 < PI) by (pose proof PI2_3_2; lra).
  destruct (sin_bound (/ 4096) 0) as [S1 _]; [lra|lra|]. destruct (cos_bound (/ 4096) 0) as [C1 _]; [lra|lra|].
  pose proof (COS_bound (/ 4096)) as C2. assert (S2 : sin (/ 4096) < / 4096) by (apply sin_lt_x; lra).
  unfold sin_approx, sin_term, cos_approx, cos_term in *. cbn -[INR Rinv] in *. cbn in *. split; apply Rabs_le; lra.
Qed.
