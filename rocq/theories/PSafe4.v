(* Runs of any length: a run that keeps to the rules of SpecSafe fails as PSafe2 says, or an amplitude threshold has come
   near the end of the range of int, which takes more than 357000 calls. *)
From Coq Require Import ZArith List Bool Lia SpecFloat Classical.
From Verif Require Import Res F32 MFrame MParms MAdaptive MUnvoiced MSynth MImbe MAmbe SpecEcc SpecFrame SpecState SpecOut SpecWola SpecMachine SpecAmbeMachine MApi SpecSched SpecSafe.
From Verif Require Import PState PStream PNyq PAmbeStream PSafe PSafe2 PSafe3.
Import ListNotations.
Local Open Scope Z_scope.

Lemma not_saturated : forall T g h, inv T g h -> ~ saturated g h -> inv (Z.min T 2147477647) g h.
Proof.
  intros T g h HI NS a. pose proof (HI a) as H. destruct (Z_le_gt_dec T 2147477647) as [C|C]; [rewrite Z.min_l by lia; exact H|]. rewrite Z.min_r by lia.
  destruct (g a) eqn:G; cbn [holds] in *; [exact H| |]; (destruct H as [H _]; split; [exact H|]; destruct (Z_le_gt_dec (p_amplitudeThreshold (h a)) 2147477647); [assumption|]; exfalso; apply NS; exists a; rewrite G; split; [discriminate|lia]).
Qed.
Lemma saturated_late : forall T g h, inv T g h -> saturated g h -> 2147477647 < T.
Proof. intros T g h HI (a & F & S). destruct (holds_filled _ _ _ F (HI a)) as [_ B]. lia. Qed.

Lemma run_any_gen : forall o s g h T0 T w, good_exp2 o R2400 -> inv T g h -> (forall i, thread_ok (T0 i)) -> 20480 <= T -> careful g s -> run o s h T0 = UB w ->
  exists s1 i k s2 x h1 T1, s = s1 ++ (i, k) :: s2 /\ run o s1 h T0 = Ok (x, h1, T1) /\
    ((api o k h1 (T1 i) = UB w /\ excused o h1 k w) \/
     (saturated (fold_left (fun g x => after_call (snd x) g) s1 g) h1 /\ 2147477647 < T + 6000 * Z.of_nat (length s1))).
Proof.
  intros o. induction s as [|[i k] s IH]; intros g h T0 T w HX HI HT HL HC H; [discriminate H|]. cbn [careful length] in *. destruct HC as (WC & WF & HC). cbn [run] in H.
  destruct (classic (saturated g h)) as [S|S].
  - exists [], i, k, s, [], h, T0. split; [reflexivity|]. split; [reflexivity|]. right. split; [exact S|]. pose proof (saturated_late _ _ _ HI S). cbn [length]. lia.
  - pose proof (not_saturated _ _ _ HI S) as HM.
    destruct (api_safe o k g h (T0 i) (Z.min T 2147477647) HX HM (HT i) ltac:(split; lia) WC WF) as [(x & h' & t' & E & HI' & TH')|(w' & E & EX)].
    + rewrite E in H. cbn [bind] in H. destruct (run o s h' (fun j => if Nat.eqb j i then t' else T0 j)) as [[[xs h2] T2]|w2] eqn:ER; [discriminate H|]. cbn [bind] in H. injection H as ->.
      assert (HI2 : inv (T + 6000) (after_call k g) h') by (apply (inv_more (Z.min T 2147477647 + 6000)); [lia|exact HI']).
      destruct (IH (after_call k g) h' (fun j => if Nat.eqb j i then t' else T0 j) (T + 6000) w HX HI2) as (s1 & i1 & k1 & s2 & y & h1 & T1 & -> & R1 & A1); [intros j; destruct (Nat.eqb j i); auto|lia|exact HC|exact ER|].
      exists ((i, k) :: s1), i1, k1, s2, ((i, x) :: y), h1, T1. split; [reflexivity|]. split; [cbn [run]; rewrite E; cbn [bind]; rewrite R1; reflexivity|].
      destruct A1 as [A1|[A1 A2]]; [left; exact A1|right]. split; [exact A1|]. cbn [length]. lia.
    + rewrite E in H. cbn [bind] in H. injection H as ->. exists [], i, k, s, [], h, T0. split; [reflexivity|]. split; [reflexivity|]. left. auto.
Qed.
Lemma run_any : forall o s h T w, good_exp2 o R2400 -> (forall a, wf_parms (h a)) -> (forall i, thread_ok (T i)) -> careful (fun _ => Raw) s -> run o s h T = UB w ->
  exists s1 i k s2 x h1 T1, s = s1 ++ (i, k) :: s2 /\ run o s1 h T = Ok (x, h1, T1) /\
    ((api o k h1 (T1 i) = UB w /\ excused o h1 k w) \/ (saturated (grades s1) h1 /\ 357000 < Z.of_nat (length s1))).
Proof.
  intros o s h T w HX HW HT HC H. destruct (run_any_gen o s (fun _ => Raw) h T 20480 w HX) as (s1 & i & k & s2 & x & h1 & T1 & E & R & [A|[A B]]); [exact HW|exact HT|lia|exact HC|exact H| |];
    exists s1, i, k, s2, x, h1, T1; (split; [exact E|]); (split; [exact R|]); [left; exact A|right; split; [exact A|lia]].
Qed.

(* ---- hours of speech with one error in every frame ---- *)
Definition hours (k : nat) : list (nat * call) := (0%nat, Init 0 1 2) :: repeat (0%nat, Dataf D2400 (repeat fzero 160) 0 1 (repeat 0 49) 0 1 2 3) (5 + k).
Lemma stream_run : forall o b errs n d uv w m st t h T, ambe_stream (do_ambe R2400 o 0) (repeat (mkambe_call d n errs true uv b) m) st t = UB w -> (h 0, h 1, h 2) = st -> T 0%nat = t ->
  run o (repeat (0%nat, Dataf D2400 b errs n d 0 1 2 uv) m) h T = UB w.
Proof.
  intros o b errs n d uv w. induction m as [|m IH]; intros st t h T H ES ET; [discriminate H|]. cbn [repeat ambe_stream run] in *. rewrite ET. cbn [api]. rewrite ES. cbn [do_dataf]. cbn [do_ambe] in *.
  change (mbe_processAmbe2400Dataf o 0 b errs n d st uv t) with (do2400 o 0 (mkambe_call d n errs true uv b) st t).
  destruct (do2400 o 0 (mkambe_call d n errs true uv b) st t) as [[[[b1 s1] st1] t1]|w1]; cbn [bind] in *; [|congruence].
  destruct (ambe_stream (do2400 o 0) (repeat (mkambe_call d n errs true uv b) m) st1 t1) as [[[r st2] t2]|w2] eqn:E2; cbn [bind] in H; [discriminate H|]. injection H as ->.
  rewrite (IH st1 t1); [reflexivity|exact E2| |reflexivity]. destruct st1 as [[x y] z]. reflexivity.
Qed.
Lemma hours_careful : forall k, careful (fun _ => Raw) (hours k).
Proof.
  intros k. unfold hours. cbn [careful well_called well_fed]. split; [exact I|]. split; [split; [|exact I]; cbn; repeat constructor; cbn; intuition lia|].
  assert (G : forall b d, whole b -> is_bits 49 d -> forall m g, g 0 = Ready -> g 1 = Ready -> g 2 = Ready -> careful g (repeat (0%nat, Dataf D2400 b 0 1 d 0 1 2 3) m)).
  { intros b d LB HB. induction m as [|m IH]; intros g A B C; [exact I|]. cbn [repeat careful]. split; [split; [exact LB|]; split; [lia|exact HB]|].
    split; [split; [cbn; repeat constructor; cbn; intuition lia|auto]|]. apply IH; assumption. }
  apply G; [apply repeat_length|apply bits_repeat; auto|reflexivity..].
Qed.
Lemma first_call : forall f c cs s1 s2 t, f c s1 t = f c s2 t -> ambe_stream f (c :: cs) s1 t = ambe_stream f (c :: cs) s2 t.
Proof. intros f c cs s1 s2 t H. cbn [ambe_stream]. rewrite H. reflexivity. Qed.
Lemma first_switch : forall o c m t, ambe_stream (do_ambe R2400 o 0) (repeat c (S m)) start t = ambe_stream (do_ambe R2400 o 0) (repeat c (S m)) start_ambe t.
Proof.
  intros o c m t. apply (first_call (do_ambe R2400 o 0) c (repeat c m)). etransitivity; [apply begin_same, imbe_initial_wf|]. destruct begin_case as (_ & B & _). rewrite B. reflexivity.
Qed.
Lemma hours_overflow : forall k, 2147483647 < 20480 + 5700 * Z.of_nat k -> run near_oracle (hours k) here threads = UB Overflow.
Proof.
  intros k HK. unfold hours. cbn [run]. cbn [api]. rewrite init_mbe by (vm_compute; repeat split). cbn [bind].
  assert (S : run near_oracle (repeat (0%nat, Dataf D2400 (repeat fzero 160) 0 1 (repeat 0 49) 0 1 2 3) (5 + k)) (put3 0 1 2 (imbe_initial, imbe_initial, imbe_initial) here) (fun j => if Nat.eqb j 0 then threads 0%nat else threads j) = UB Overflow); [|rewrite S; reflexivity].
  apply (stream_run near_oracle _ 0 1 _ 3 Overflow (5 + k) start thread0); [|reflexivity|reflexivity].
  pose proof (ambe_overflow_start R2400 near_oracle 0 (repeat 0 49) 3 (repeat fzero 160) k thread0 near_oracle_close) as H.
  rewrite <- H; [|apply bits_repeat; auto|reflexivity|vm_compute; reflexivity|vm_compute; discriminate|exact thread0_ok|exact HK].
  apply (first_switch near_oracle _ (4 + k)).
Qed.
