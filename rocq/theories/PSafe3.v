(* Safe use of the whole interface: corollaries and the example programs. *)
From Coq Require Import ZArith List Bool Lia SpecFloat.
From Verif Require Import Res F32 MFrame MParms MAdaptive MUnvoiced MSynth MImbe MAmbe SpecEcc SpecFrame SpecState SpecOut SpecWola SpecMachine SpecAmbeMachine MApi SpecSched SpecSafe.
From Verif Require Import PState PStream PExp2 PNyq PSafe PSafe2.
Import ListNotations.
Local Open Scope Z_scope.

Lemma run_vector : forall o s h T w,
  good_exp2 o R2400 -> o_simd o <> Scalar -> (forall a, wf_parms (h a)) -> (forall i, thread_ok (T i)) -> careful (fun _ => Raw) s -> Z.of_nat (length s) <= 357000 -> run o s h T = UB w ->
  w = OOB /\ exists s1 i k s2 x h1 T1 p, s = s1 ++ (i, k) :: s2 /\ run o s1 h T = Ok (x, h1, T1) /\ history k = Some p /\ p_L (h1 p) = 56.
Proof.
  intros o s h T w HX HS HW HT HC HN H. destruct (run_safe o s h T w HX HW HT HC HN H) as (s1 & i & k & s2 & x & h1 & T1 & E & R & A & [[-> (p & P1 & P2)]|[_ [S _]]]); [|contradiction].
  split; [reflexivity|]. exists s1, i, k, s2, x, h1, T1, p. auto.
Qed.
Lemma run_answers : forall o s h T x h1 T1, run o s h T = Ok (x, h1, T1) -> length x = length s.
Proof.
  intros o. induction s as [|[i k] s IH]; intros h T x h1 T1 H; cbn [run] in H; [injection H as <- _ _; reflexivity|].
  destruct (api o k h (T i)) as [[[a h'] t']|w]; [|discriminate H]. cbn [bind] in H.
  destruct (run o s h' (fun j => if Nat.eqb j i then t' else T j)) as [[[xs h2] T2]|w] eqn:E; [|discriminate H]. cbn [bind] in H. injection H as <- _ _. cbn [length]. f_equal. exact (IH _ _ _ _ _ E).
Qed.
Lemma run_floats : forall o s h T,
  good_exp2 o R2400 -> (forall a, wf_parms (h a)) -> (forall i, thread_ok (T i)) -> careful (fun _ => Raw) s -> Z.of_nat (length s) <= 357000 ->
  (forall i k, In (i, k) s -> history k = None /\ delivers_shorts k = false) -> exists x h1 T1, run o s h T = Ok (x, h1, T1) /\ length x = length s.
Proof.
  intros o s h T HX HW HT HC HN HF. destruct (run o s h T) as [[[x h1] T1]|w] eqn:E; [exists x, h1, T1; split; [reflexivity|exact (run_answers _ _ _ _ _ _ _ E)]|exfalso].
  destruct (run_safe o s h T w HX HW HT HC HN E) as (s1 & i & k & s2 & x & h1 & T1 & Es & R & A & X).
  destruct (HF i k) as [H1 H2]; [rewrite Es; apply in_or_app; right; left; reflexivity|]. destruct X as [[_ (p & P & _)]|(_ & _ & P)]; congruence.
Qed.

Definition here : heap := fun _ => ambe_initial.
Definition threads : nat -> tls := fun _ => thread0.
Definition how {A} (r : res A) : option ub := match r with Ok _ => None | UB w => Some w end.
(* IMBE frames of 56 harmonics: the second one reads past the arrays *)
Definition wide_program : list (nat * call) := [(0%nat, Init 1 2 3); (0%nat, Decode DImbe wide_bits 1 2); (1%nat, Seed 5); (0%nat, Move 1 2); (0%nat, Decode DImbe wide_bits 1 2)].
(* an FFT that gives no numbers *)
Definition nano : oracle := mkoracle (o_cosf near_oracle) (o_sinf near_oracle) near_exp2 (o_log2f near_oracle) (o_expf near_oracle) (fun _ _ => S754_nan) (fun _ _ => S754_nan) true Scalar true.
Definition nan_program : list (nat * call) := [(0%nat, Init 1 2 3); (0%nat, Speech (repeat 0 160) 1 2 3)].
(* two threads, two decoders, and calls in between *)
Definition plain_program : list (nat * call) :=
  [(0%nat, Init 1 2 3); (1%nat, Init 4 5 6); (1%nat, Seed 7); (0%nat, Dataf D2450 (repeat fzero 160) 0 0 (repeat 0 49) 1 2 3 3); (1%nat, Decode D2400 (repeat 0 49) 4 5); (1%nat, Enhance 4); (1%nat, Smooth 4 5);
   (0%nat, AskMuting 1); (1%nat, Move 4 5); (1%nat, Noisef (repeat fzero 160))].
Lemma wide_bits_ok : is_bits 88 wide_bits.
Proof. split; [reflexivity|]. unfold wide_bits. apply Forall_app. split; [repeat (constructor; [unfold is_bit; lia|]); constructor|]. exact (proj2 (bits_repeat 0 82 (or_introl eq_refl))). Qed.
Ltac distinct := repeat (constructor; [cbn; intuition lia|]); constructor.
Ltac filled := match goal with |- filled_in _ => unfold filled_in; cbn; discriminate | |- _ => idtac end.
Lemma careful_programs : careful (fun _ => Raw) wide_program /\ careful (fun _ => Raw) nan_program /\ careful (fun _ => Raw) plain_program.
Proof.
  assert (B : forall n, is_bits n (repeat 0 n)) by (intros n; exact (bits_repeat 0 n (or_introl eq_refl))).
  unfold wide_program, nan_program, plain_program. cbn [careful well_called well_fed]. pose proof wide_bits_ok as W. pose proof (B 49%nat) as B49.
  repeat match goal with
  | |- _ /\ _ => split
  | |- well_fed _ _ => unfold well_fed
  | |- NoDup _ => cbn [given]; distinct
  | |- filled_in _ => filled
  | |- True => exact I
  | |- is_bits _ _ => assumption
  | |- whole _ => reflexivity
  | |- _ = Ready => reflexivity
  | |- _ <= _ => lia
  end.
Qed.
Lemma programs_met : good_exp2 near_oracle R2400 /\ good_exp2 nano R2400 /\ (forall a, wf_parms (here a)) /\ (forall i, thread_ok (threads i)).
Proof.
  split; [exact near_oracle_close|]. split; [exact near_oracle_close|]. split; [intros a; apply ambe_initial_wf|intros i; apply thread0_ok].
Qed.
