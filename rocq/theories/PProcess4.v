(* Processes of any length: C87 without a bound on the number of calls. *)
From Coq Require Import ZArith List Bool Lia Classical.
From Verif Require Import Res F32 Build MFrame MParms MAdaptive MUnvoiced MSynth MImbe MAmbe SpecEcc SpecFrame SpecState SpecOut SpecWola SpecMachine SpecAmbeMachine MApi SpecSched SpecSafe MProcess SpecProcess.
From Verif Require Import PRun PState PSched PSafe PSafe2 PSafe4 PProcess.
From Verif Require MAlloc SpecAlloc PAlloc.
Import ListNotations.
Local Open Scope Z_scope.

Lemma history_any_gen : forall al o es g s T w, SpecAlloc.sane al -> good_exp2 o R2400 -> inv T g (sets s) -> (forall i, thread_ok (locals s i)) -> orderly (memory s) ->
  20480 <= T -> careful g (calls_of es) -> history_of al o es s = UB w ->
  exists e1 e e2 x s1, es = e1 ++ e :: e2 /\ history_of al o e1 s = Ok (x, s1) /\
    ((happens al o e s1 = UB w /\ blamed al o e s1 w) \/
     (saturated (fold_left (fun g x => after_call (snd x) g) (calls_of e1) g) (sets s1) /\ 2147477647 < T + 6000 * Z.of_nat (length (calls_of e1)))).
Proof.
  intros al o. induction es as [|e es IH]; intros g s T w SA HX HI HT OM HL HC H; [discriminate H|].
  destruct (classic (saturated g (sets s))) as [S|S].
  { exists [], e, es, [], s. split; [reflexivity|]. split; [reflexivity|]. right. split; [exact S|]. pose proof (saturated_late _ _ _ HI S). cbn [calls_of length]. lia. }
  pose proof (not_saturated _ _ _ HI S) as HM. cbn [history_of] in H.
  destruct (happens al o e s) as [[[j x] s1]|w1] eqn:E.
  - cbn [bind] in H. destruct (history_of al o es s1) as [[xs s2]|w2] eqn:E2; [discriminate H|]. cbn [bind] in H. injection H as ->.
    destruct e as [asked i k|i]; cbn [happens calls_of] in *.
    + cbn [careful] in HC. destruct HC as (WC & WF & HC). pose proof E as E0. apply bind_inv in E as ([p m] & F & E).
      destruct (api_safe (with_plan (negb (p =? 0)) o) k g (sets s) (locals s i) (Z.min T 2147477647) (plan_good _ _ HX) HM (HT i) ltac:(split; lia) WC WF) as [(y & h' & t' & A & HI' & TH')|(w' & A & _)]; rewrite A in E; [|discriminate E].
      cbn [bind] in E. injection E as Ej Ex Es.
      assert (HI2 : inv (T + 6000) (after_call k g) (sets s1)) by (rewrite <- Es; cbn [sets]; apply (inv_more (Z.min T 2147477647 + 6000)); [lia|exact HI']).
      destruct (IH (after_call k g) s1 (T + 6000) w SA HX HI2) as (e1 & e' & e2 & z & s3 & -> & R & B);
        [rewrite <- Es; cbn [locals]; intros n; unfold at_thread; destruct (Nat.eqb n i); auto|rewrite <- Es; cbn [memory]; exact (fetch_orderly _ _ _ _ _ _ _ _ SA OM F)|lia|exact HC|exact E2|].
      exists (Calls asked i k :: e1), e', e2, ((j, x) :: z), s3. split; [reflexivity|]. split; [cbn [history_of happens]; rewrite E0; cbn [bind]; rewrite R; reflexivity|].
      destruct B as [B|[B1 B2]]; [left; exact B|]. right. cbn [calls_of fold_left snd length]. split; [exact B1|]. rewrite Nat2Z.inj_succ. lia.
    + pose proof E as E0. injection E as Ej Ex Es.
      destruct (IH g s1 T w SA HX) as (e1 & e' & e2 & z & s3 & -> & R & B);
        [rewrite <- Es; exact HI|rewrite <- Es; cbn [locals]; intros n; unfold at_thread; destruct (Nat.eqb n i); [split; vm_compute; congruence|apply HT]|rewrite <- Es; exact OM|exact HL|exact HC|exact E2|].
      exists (Ends i :: e1), e', e2, ((j, x) :: z), s3. split; [reflexivity|]. split; [cbn [history_of happens]; rewrite E0; cbn [bind]; rewrite R; reflexivity|].
      exact B.
  - cbn [bind] in H. injection H as ->. exists [], e, es, [], s. split; [reflexivity|]. split; [reflexivity|]. left. split; [exact E|].
    destruct e as [asked i k|i]; cbn [happens calls_of] in *; [|discriminate E]. cbn [careful] in HC. destruct HC as (WC & WF & HC).
    exists asked, i, k. split; [reflexivity|]. destruct (fetch al o asked i k s) as [[p m]|w1] eqn:F.
    + right. cbn [bind] in E. destruct (api_safe (with_plan (negb (p =? 0)) o) k g (sets s) (locals s i) (Z.min T 2147477647) (plan_good _ _ HX) HM (HT i) ltac:(split; lia) WC WF) as [(y & h' & t' & A & _)|(w' & A & X)]; rewrite A in E; [discriminate E|].
      cbn [bind] in E. injection E as ->. exact X.
    + left. cbn [bind] in E. injection E as ->. exact (fetch_safe _ _ _ _ _ _ _ SA OM F).
Qed.
Lemma history_any : forall al o es s w, SpecAlloc.sane al -> good_exp2 o R2400 -> (forall a, wf_parms (sets s a)) -> (forall i, thread_ok (locals s i)) -> orderly (memory s) ->
  careful (fun _ => Raw) (calls_of es) -> history_of al o es s = UB w ->
  exists e1 e e2 x s1, es = e1 ++ e :: e2 /\ history_of al o e1 s = Ok (x, s1) /\
    ((happens al o e s1 = UB w /\ blamed al o e s1 w) \/ (saturated (grades (calls_of e1)) (sets s1) /\ 357000 < Z.of_nat (length (calls_of e1)))).
Proof.
  intros al o es s w SA HX HW HT OM HC H.
  destruct (history_any_gen al o es (fun _ => Raw) s 20480 w SA HX) as (e1 & e & e2 & x & s1 & E & R & [A|[A B]]); [exact HW|exact HT|exact OM|lia|exact HC|exact H| |];
    exists e1, e, e2, x, s1; (split; [exact E|]); (split; [exact R|]); [left; exact A|right; split; [exact A|lia]].
Qed.
