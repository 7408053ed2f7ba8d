(* Processes: what the plans do to the answers, threads, safety. *)
From Coq Require Import ZArith List Bool Lia Permutation SpecFloat.
From Verif Require Import Res F32 Build MFrame MParms MAdaptive MUnvoiced MSynth MImbe MAmbe SpecEcc SpecFrame SpecState SpecOut SpecWola SpecMachine SpecAmbeMachine MApi SpecSched SpecSafe MProcess SpecProcess.
From Verif Require Import PRun PState PSched PSafe PSafe2.
From Verif Require MAlloc SpecAlloc PAlloc.
Import ListNotations.
Local Open Scope Z_scope.

(* ---- plans ---- *)
Lemma fetch_kept : forall al o asked i k s p m, fetch al o asked i k s = Ok (p, m) -> plans s i <> 0 -> p = plans s i /\ m = memory s.
Proof.
  intros al o asked i k s p m H N. unfold fetch in H. destruct (asked && may_ask k); [|injection H as <- <-; auto].
  rewrite PAlloc.alloc_once in H by exact N. injection H as <- <-. auto.
Qed.
Lemma history_entries : forall al o es s xs s', history_of al o es s = Ok (xs, s') ->
  exists l, Forall2 entered es l /\ together o l (sets s) (locals s) = Ok (xs, sets s', locals s') /\ forall i, steady (negb (plans s i =? 0)) (of_thread i l).
Proof.
  intros al o. induction es as [|e es IH]; intros s xs s' H; cbn [history_of] in H.
  - injection H as <- <-. exists []. split; [constructor|]. split; [reflexivity|]. intros i. exact I.
  - apply bind_inv in H as ([[j x] s1] & H1 & H). apply bind_inv in H as ([ys s2] & H2 & H). injection H as <- <-.
    destruct (IH _ _ _ H2) as (l & L & R & S). destruct e as [asked i k|i]; cbn [happens] in H1.
    + apply bind_inv in H1 as ([p m] & F & H1). apply bind_inv in H1 as ([[y h] t] & A & H1). injection H1 as <- <- <-. cbn [sets locals plans] in R, S.
      exists ((i, Does (negb (p =? 0)) k) :: l). split; [constructor; [constructor|exact L]|]. split.
      * cbn [together enter]. rewrite A. cbn [bind]. rewrite R. reflexivity.
      * intros n. specialize (S n). unfold at_thread in S. destruct (Nat.eq_dec n i) as [->|N].
        -- rewrite of_thread_same. rewrite Nat.eqb_refl in S. cbn [steady]. split; [|exact S]. intros P. destruct (Z.eqb_spec (plans s i) 0) as [E|E]; [discriminate P|].
           destruct (fetch_kept _ _ _ _ _ _ _ _ F E) as [-> _]. destruct (Z.eqb_spec (plans s i) 0); [contradiction|reflexivity].
        -- rewrite of_thread_other by exact N. apply Nat.eqb_neq in N. rewrite N in S. exact S.
    + injection H1 as <- <- <-. cbn [sets locals plans] in R, S. exists ((i, Stops) :: l). split; [constructor; [constructor|exact L]|]. split.
      * cbn [together enter bind]. rewrite R. reflexivity.
      * intros n. specialize (S n). unfold at_thread in S. destruct (Nat.eq_dec n i) as [->|N].
        -- rewrite of_thread_same. rewrite Nat.eqb_refl in S. cbn [steady]. exact S.
        -- rewrite of_thread_other by exact N. apply Nat.eqb_neq in N. rewrite N in S. exact S.
Qed.

(* ---- threads ---- *)
Lemma enter_local : forall o e h g t x h' t', same_on (given_to e) h g -> enter o e h t = Ok (x, h', t') ->
  exists g', enter o e g t = Ok (x, g', t') /\ (forall a, h a = g a -> h' a = g' a) /\ (forall a, ~ In a (given_to e) -> h' a = h a) /\ (forall a, ~ In a (given_to e) -> g' a = g a).
Proof.
  intros o [p k|] h g t x h' t' S H; [exact (api_local _ _ _ _ _ _ _ _ S H)|]. cbn [enter] in *. injection H as <- <- <-. exists g. auto.
Qed.
Lemma enter_frame : forall o e h t x h' t', enter o e h t = Ok (x, h', t') -> forall a, ~ In a (given_to e) -> h' a = h a.
Proof. intros o e h t x h' t' H. destruct (enter_local o e h h t x h' t') as (g & _ & _ & F & _); [intros a _; reflexivity|exact H|exact F]. Qed.
Lemma itself_local : forall o ks h g t xs h' t', (forall k, In k ks -> same_on (given_to k) h g) -> by_itself o ks h t = Ok (xs, h', t') ->
  exists g', by_itself o ks g t = Ok (xs, g', t') /\ (forall a, h a = g a -> h' a = g' a).
Proof.
  intros o ks. induction ks as [|k ks IH]; intros h g t xs h' t' S H; cbn [by_itself] in *.
  - injection H as <- <- <-. exists g. auto.
  - apply bind_inv in H as ([[x h1] t1] & H1 & H). apply bind_inv in H as ([[ys h2] t2] & H2 & H). injection H as <- <- <-.
    destruct (enter_local o k h g t x h1 t1 (S k (or_introl eq_refl)) H1) as (g1 & G1 & A & _ & _).
    destruct (IH h1 g1 t1 ys h2 t2) as (g2 & G2 & B); [|exact H2|].
    { intros k' K a Ha. apply A. exact (S k' (or_intror K) a Ha). }
    exists g2. rewrite G1. cbn [bind]. rewrite G2. cbn [bind]. split; [reflexivity|]. intros a E. apply B, A, E.
Qed.
Lemma itself_frame : forall o ks h t xs h' t' a, by_itself o ks h t = Ok (xs, h', t') -> ~ In a (concat (map given_to ks)) -> h' a = h a.
Proof.
  intros o ks. induction ks as [|k ks IK]; intros h t xs h' t' a E I; cbn [by_itself] in E.
  - injection E as _ <- _. reflexivity.
  - apply bind_inv in E as ([[y h3] t3] & E1 & E). apply bind_inv in E as ([[ws h4] t4] & E2 & E). injection E as _ <- _. cbn [map concat] in I. rewrite in_app_iff in I.
    rewrite (IK _ _ _ _ _ _ E2) by tauto. apply (enter_frame _ _ _ _ _ _ _ E1). tauto.
Qed.
Lemma apart_tail : forall x s, apart_sets (x :: s) -> apart_sets s.
Proof. intros x s [A B]. split; intros; [eapply A|eapply B]; cbn [In]; eauto. Qed.
Lemma together_forward : forall o s h T xs h' T', apart_sets s -> together o s h T = Ok (xs, h', T') ->
  (forall i, exists hi, by_itself o (of_thread i s) h (T i) = Ok (of_thread i xs, hi, T' i) /\ (forall e a, In (i, e) s -> In a (given_to e) -> hi a = h' a)) /\
  (forall a, (forall i e, In (i, e) s -> ~ In a (given_to e)) -> h' a = h a).
Proof.
  intros o s. induction s as [|[j k] s IH]; intros h T xs h' T' SP H; cbn [together] in H.
  - injection H as <- <- <-. split; [|reflexivity]. intros i. exists h. cbn. split; [reflexivity|]. tauto.
  - apply bind_inv in H as ([[x h1] t1] & H1 & H). apply bind_inv in H as ([[ys h2] T2] & H2 & H). injection H as <- <- <-.
    pose proof (apart_tail _ _ SP) as SP'. destruct SP as [_ SD]. destruct (IH _ _ _ _ _ SP' H2) as [A B]. pose proof (enter_frame _ _ _ _ _ _ _ H1) as F.
    split.
    + intros i. destruct (Nat.eq_dec i j) as [->|N].
      * destruct (A j) as (hi & E & C). unfold at_thread in E. rewrite Nat.eqb_refl in E. exists hi. rewrite !of_thread_same. cbn [by_itself]. rewrite H1. cbn [bind]. rewrite E. cbn [bind]. split; [reflexivity|].
        intros l a [L|L] Ha; [|eapply C; eauto]. injection L as <-. destruct (in_dec Z.eq_dec a (concat (map given_to (of_thread j s)))) as [I|I].
        -- apply in_concat in I as (g & I1 & I2). apply in_map_iff in I1 as (l & <- & I1). eapply C; [apply of_thread_in, I1|exact I2].
        -- assert (Q : h2 a = h1 a).
           { apply B. intros i l L I2. destruct (Nat.eq_dec i j) as [->|N].
             - apply I. apply in_concat. exists (given_to l). split; [|exact I2]. apply in_map. unfold of_thread. apply in_map_iff. exists (j, l). split; [reflexivity|]. apply filter_In. split; [exact L|apply Nat.eqb_refl].
             - apply N. symmetry. eapply SD; [left; reflexivity|right; exact L|exact Ha|exact I2]. }
           rewrite Q. eapply itself_frame; eassumption.
      * destruct (A i) as (hi & E & C). unfold at_thread in E. apply Nat.eqb_neq in N as N'. rewrite N' in E.
        destruct (itself_local o (of_thread i s) h1 h (T i) (of_thread i ys) hi (T2 i)) as (g & G & D); [|exact E|].
        { intros l L a Ha. apply F. intros K. apply N. symmetry. eapply SD; [left; reflexivity|right; apply of_thread_in, L|exact K|exact Ha]. }
        exists g. rewrite !of_thread_other by exact N. split; [exact G|]. intros l a [L|L] Ha; [congruence|]. rewrite <- (C l a L Ha). symmetry. apply D, F. intros K. apply N. symmetry. eapply SD; [left; reflexivity|right; exact L|exact K|exact Ha].
    + intros a Ha. rewrite B by (intros i e; intros; apply (Ha i e); right; assumption). apply F. apply (Ha j). now left.
Qed.

(* ---- safety ---- *)
Lemma plan_good : forall p o, good_exp2 o R2400 -> good_exp2 (with_plan p o) R2400.
Proof. intros p o H. exact H. Qed.
Lemma fetch_safe : forall al o asked i k s w, SpecAlloc.sane al -> orderly (memory s) -> fetch al o asked i k s = UB w ->
  w = OOB /\ asked = true /\ may_ask k = true /\ plans s i = 0 /\ SpecAlloc.starved al (memory s).
Proof.
  intros al o asked i k s w SA OM H. unfold fetch in H. destruct asked; [|discriminate H]. destruct (may_ask k); [|discriminate H]. cbn [andb] in H. unfold MAlloc.mbe_get_fft_plan in H.
  destruct (Z.eqb_spec (plans s i) 0) as [E|E]; [|discriminate H]. cbn [negb] in H.
  destruct (PAlloc.alloc_spec al (o_simd o) (memory s) SA OM) as [(F & Q)|(p & h' & F & _)]; rewrite F in H; [injection H as <-|discriminate H].
  auto.
Qed.
Lemma fetch_orderly : forall al o asked i k s p m, SpecAlloc.sane al -> orderly (memory s) -> fetch al o asked i k s = Ok (p, m) -> orderly m.
Proof.
  intros al o asked i k s p m SA OM H. unfold fetch in H. destruct (asked && may_ask k); [|injection H as _ <-; exact OM]. unfold MAlloc.mbe_get_fft_plan in H.
  destruct (negb (plans s i =? 0)); [injection H as _ <-; exact OM|].
  destruct (PAlloc.alloc_spec al (o_simd o) (memory s) SA OM) as [(F & _)|(q & h' & F & W & _)]; rewrite F in H; [discriminate H|]. injection H as _ <-. exact W.
Qed.
Lemma history_safe_gen : forall al o es g s T w, SpecAlloc.sane al -> good_exp2 o R2400 -> inv T g (sets s) -> (forall i, thread_ok (locals s i)) -> orderly (memory s) ->
  20480 <= T -> T + 6000 * Z.of_nat (length (calls_of es)) <= 2147483647 -> careful g (calls_of es) -> history_of al o es s = UB w ->
  exists e1 e e2 x s1, es = e1 ++ e :: e2 /\ history_of al o e1 s = Ok (x, s1) /\ happens al o e s1 = UB w /\ blamed al o e s1 w.
Proof.
  intros al o. induction es as [|e es IH]; intros g s T w SA HX HI HT OM HL HN HC H; [discriminate H|]. cbn [history_of] in H.
  destruct (happens al o e s) as [[[j x] s1]|w1] eqn:E.
  - cbn [bind] in H. destruct (history_of al o es s1) as [[xs s2]|w2] eqn:E2; [discriminate H|]. cbn [bind] in H. injection H as ->.
    assert (G : exists g' T', inv T' g' (sets s1) /\ (forall i, thread_ok (locals s1 i)) /\ orderly (memory s1) /\ 20480 <= T' /\ T' + 6000 * Z.of_nat (length (calls_of es)) <= 2147483647 /\ careful g' (calls_of es)).
    { destruct e as [asked i k|i]; cbn [happens calls_of] in *.
      - cbn [careful length] in *. rewrite Nat2Z.inj_succ in HN. destruct HC as (WC & WF & HC). apply bind_inv in E as ([p m] & F & E).
        destruct (api_safe (with_plan (negb (p =? 0)) o) k g (sets s) (locals s i) T (plan_good _ _ HX) HI (HT i) ltac:(split; lia) WC WF) as [(y & h' & t' & A & HI' & TH')|(w' & A & _)]; rewrite A in E; [|discriminate E].
        cbn [bind] in E. injection E as <- <- <-. cbn [sets locals memory]. exists (after_call k g), (T + 6000). split; [exact HI'|]. split; [intros n; unfold at_thread; destruct (Nat.eqb n i); auto|].
        split; [exact (fetch_orderly _ _ _ _ _ _ _ _ SA OM F)|]. split; [lia|]. split; [lia|exact HC].
      - injection E as <- <- <-. cbn [sets locals memory]. exists g, T. split; [exact HI|]. split; [|auto]. intros n. unfold at_thread. destruct (Nat.eqb n i); [split; vm_compute; congruence|apply HT]. }
    destruct G as (g' & T' & G1 & G2 & G3 & G4 & G5 & G6).
    destruct (IH g' s1 T' w SA HX G1 G2 G3 G4 G5 G6 E2) as (e1 & e' & e2 & y & s3 & -> & R & X & B).
    exists (e :: e1), e', e2, ((j, x) :: y), s3. split; [reflexivity|]. split; [cbn [history_of]; rewrite E; cbn [bind]; rewrite R; reflexivity|]. auto.
  - cbn [bind] in H. injection H as ->. exists [], e, es, [], s. split; [reflexivity|]. split; [reflexivity|]. split; [exact E|].
    destruct e as [asked i k|i]; cbn [happens calls_of] in *; [|discriminate E]. cbn [careful length] in *. rewrite Nat2Z.inj_succ in HN. destruct HC as (WC & WF & HC).
    exists asked, i, k. split; [reflexivity|]. destruct (fetch al o asked i k s) as [[p m]|w1] eqn:F.
    + right. cbn [bind] in E. destruct (api_safe (with_plan (negb (p =? 0)) o) k g (sets s) (locals s i) T (plan_good _ _ HX) HI (HT i) ltac:(split; lia) WC WF) as [(y & h' & t' & A & _)|(w' & A & X)]; rewrite A in E; [discriminate E|].
      cbn [bind] in E. injection E as ->. exact X.
    + left. cbn [bind] in E. injection E as ->. exact (fetch_safe _ _ _ _ _ _ _ SA OM F).
Qed.
