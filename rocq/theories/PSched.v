From Coq Require Import ZArith List Bool Lia Arith.
From Verif Require Import Res F32 MFrame MParms MAdaptive MUnvoiced MSynth MImbe MAmbe MApi SpecSched PRun.
Import ListNotations.
Local Open Scope Z_scope.

Definition same_on (l : list Z) (h g : heap) : Prop := forall a, In a l -> h a = g a.
Lemma put_same : forall a m h, put a m h a = m.
Proof. intros. unfold put. now rewrite Z.eqb_refl. Qed.
Lemma put_other : forall a m h b, b <> a -> put a m h b = h b.
Proof. intros a m h b H. unfold put. apply Z.eqb_neq in H. now rewrite H. Qed.
Lemma put_eq : forall a m h g b, h b = g b -> put a m h b = put a m g b.
Proof. intros. unfold put. now destruct (b =? a). Qed.
Lemma put3_eq : forall c p e st h g b, h b = g b -> put3 c p e st h b = put3 c p e st g b.
Proof. intros c p e [[x y] z] h g b H. cbn [put3]. now apply put_eq, put_eq, put_eq. Qed.
Lemma put3_other : forall c p e st h b, ~ In b [c; p; e] -> put3 c p e st h b = h b.
Proof. intros c p e [[x y] z] h b H. cbn [In] in H. cbn [put3]. rewrite !put_other; tauto || (intro; subst; tauto). Qed.

(* a call depends only on the sets it is given, and changes no other *)
Lemma api_local : forall o k h g t x h' t', same_on (given k) h g -> api o k h t = Ok (x, h', t') ->
  exists g', api o k g t = Ok (x, g', t') /\ (forall a, h a = g a -> h' a = g' a) /\ (forall a, ~ In a (given k) -> h' a = h a) /\ (forall a, ~ In a (given k) -> g' a = g a).
Proof.
  intros o k h g t x h' t' S H.
  assert (R : forall a, In a (given k) -> g a = h a) by (intros; symmetry; now apply S).
  destruct k; cbn [given] in R; cbn [given]; clear S;
  (match type of H with api o ?k h t = _ => let f := eval cbv beta iota delta [api] in (api o k) in let E := fresh in assert (E : api o k = f) by reflexivity; rewrite E in H |- *; clear E; cbv beta in H |- * end);
  repeat match goal with R : forall a, In a _ -> g a = h a |- context [g ?c] => rewrite (R c) by (cbn [In]; auto) end;
  repeat match goal with H : bind ?m _ = Ok _ |- _ => destruct m eqn:?; [|discriminate H]; cbn [bind] in H |- * end;
  repeat match goal with p : (_ * _)%type |- _ => destruct p end;
  (injection H as <- <- <-; eexists; split; [reflexivity|split; [|split]]); intros ad Hz; cbn [In] in Hz; cbn [put3];
  match goal with
  | |- put _ _ (put _ _ (put _ _ _)) _ = put _ _ (put _ _ (put _ _ _)) _ => apply put_eq, put_eq, put_eq; exact Hz
  | |- put3 _ _ _ _ _ _ = put3 _ _ _ _ _ _ => apply put3_eq; exact Hz
  | |- put _ _ (put _ _ _) _ = put _ _ (put _ _ _) _ => apply put_eq, put_eq; exact Hz
  | |- put _ _ _ _ = put _ _ _ _ => apply put_eq; exact Hz
  | |- put3 _ _ _ _ _ _ = _ => apply put3_other; cbn [In]; exact Hz
  | |- put _ _ _ _ = _ => rewrite !put_other by (intro; subst; tauto); reflexivity
  | |- h ?z = g ?z => exact Hz
  | |- h ?z = h ?z => reflexivity
  | |- g ?z = g ?z => reflexivity
  end.
Qed.
Lemma alone_local : forall o ks h g t xs h' t', (forall k, In k ks -> same_on (given k) h g) -> alone o ks h t = Ok (xs, h', t') ->
  exists g', alone o ks g t = Ok (xs, g', t') /\ (forall a, h a = g a -> h' a = g' a).
Proof.
  intros o ks. induction ks as [|k ks IH]; intros h g t xs h' t' S H; cbn [alone] in *.
  - injection H as <- <- <-. exists g. auto.
  - apply bind_inv in H as ([[x h1] t1] & H1 & H). apply bind_inv in H as ([[ys h2] t2] & H2 & H). injection H as <- <- <-.
    destruct (api_local o k h g t x h1 t1 (S k (or_introl eq_refl)) H1) as (g1 & G1 & A & _ & _).
    destruct (IH h1 g1 t1 ys h2 t2) as (g2 & G2 & B); [|exact H2|].
    { intros k' K a Ha. apply A. exact (S k' (or_intror K) a Ha). }
    exists g2. rewrite G1. cbn [bind]. rewrite G2. cbn [bind]. split; [reflexivity|]. intros a E. apply B, A, E.
Qed.
Lemma of_thread_in : forall {A} i (s : list (nat * A)) k, In k (of_thread i s) -> In (i, k) s.
Proof.
  intros A i s k H. unfold of_thread in H. apply in_map_iff in H as ([j l] & E & H). cbn [snd] in E. subst l. apply filter_In in H as [H E]. cbn [fst] in E. apply Nat.eqb_eq in E. now subst j.
Qed.
Lemma of_thread_same : forall {A} i (x : A) s, of_thread i ((i, x) :: s) = x :: of_thread i s.
Proof. intros. unfold of_thread. cbn [filter fst]. now rewrite Nat.eqb_refl. Qed.
Lemma of_thread_other : forall {A} i j (x : A) s, i <> j -> of_thread i ((j, x) :: s) = of_thread i s.
Proof. intros A i j x s H. unfold of_thread. cbn [filter fst]. replace (Nat.eqb j i) with false; [reflexivity|]. symmetry. apply Nat.eqb_neq. auto. Qed.
Lemma separate_tail : forall x s, separate (x :: s) -> separate s.
Proof. intros x s [A B]. split; intros; [eapply A|eapply B]; cbn [In]; eauto. Qed.
Lemma api_frame : forall o k h t x h' t', api o k h t = Ok (x, h', t') -> forall a, ~ In a (given k) -> h' a = h a.
Proof. intros o k h t x h' t' H. destruct (api_local o k h h t x h' t') as (g & _ & _ & F & _); [intros a _; reflexivity|exact H|exact F]. Qed.

Lemma alone_frame : forall o ks h t xs h' t' a, alone o ks h t = Ok (xs, h', t') -> ~ In a (concat (map given ks)) -> h' a = h a.
Proof.
  intros o ks. induction ks as [|k ks IK]; intros h t xs h' t' a E I; cbn [alone] in E.
  - injection E as _ <- _. reflexivity.
  - apply bind_inv in E as ([[y h3] t3] & E1 & E). apply bind_inv in E as ([[ws h4] t4] & E2 & E). injection E as _ <- _. cbn [map concat] in I. rewrite in_app_iff in I.
    rewrite (IK _ _ _ _ _ _ E2) by tauto. apply (api_frame _ _ _ _ _ _ _ E1). tauto.
Qed.
Lemma threads_forward : forall o s h T xs h' T', separate s -> run o s h T = Ok (xs, h', T') ->
  (forall i, exists hi, alone o (of_thread i s) h (T i) = Ok (of_thread i xs, hi, T' i) /\ (forall k a, In (i, k) s -> In a (given k) -> hi a = h' a)) /\
  (forall a, (forall i k, In (i, k) s -> ~ In a (given k)) -> h' a = h a).
Proof.
  intros o s. induction s as [|[j k] s IH]; intros h T xs h' T' SP H; cbn [run] in H.
  - injection H as <- <- <-. split; [|reflexivity]. intros i. exists h. cbn. split; [reflexivity|]. tauto.
  - apply bind_inv in H as ([[x h1] t1] & H1 & H). apply bind_inv in H as ([[ys h2] T2] & H2 & H). injection H as <- <- <-.
    pose proof (separate_tail _ _ SP) as SP'. destruct SP as [_ SD]. destruct (IH _ _ _ _ _ SP' H2) as [A B]. pose proof (api_frame _ _ _ _ _ _ _ H1) as F.
    split.
    + intros i. destruct (Nat.eq_dec i j) as [->|N].
      * destruct (A j) as (hi & E & C). cbv beta in E. rewrite Nat.eqb_refl in E. exists hi. rewrite !of_thread_same. cbn [alone]. rewrite H1. cbn [bind]. rewrite E. cbn [bind]. split; [reflexivity|].
        intros l a [L|L] Ha; [|eapply C; eauto]. injection L as <-. destruct (in_dec Z.eq_dec a (concat (map given (of_thread j s)))) as [I|I].
        -- apply in_concat in I as (g & I1 & I2). apply in_map_iff in I1 as (l & <- & I1). eapply C; [apply of_thread_in, I1|exact I2].
        -- assert (Q : h2 a = h1 a).
           { apply B. intros i l L I2. destruct (Nat.eq_dec i j) as [->|N].
             - apply I. apply in_concat. exists (given l). split; [|exact I2]. apply in_map. unfold of_thread. apply in_map_iff. exists (j, l). split; [reflexivity|]. apply filter_In. split; [exact L|apply Nat.eqb_refl].
             - apply N. symmetry. eapply SD; [left; reflexivity|right; exact L|exact Ha|exact I2]. }
           rewrite Q. eapply alone_frame; eassumption.
      * destruct (A i) as (hi & E & C). cbv beta in E. apply Nat.eqb_neq in N as N'. rewrite N' in E.
        destruct (alone_local o (of_thread i s) h1 h (T i) (of_thread i ys) hi (T2 i)) as (g & G & D); [|exact E|].
        { intros l L a Ha. apply F. intros K. apply N. symmetry. eapply SD; [left; reflexivity|right; apply of_thread_in, L|exact K|exact Ha]. }
        exists g. rewrite !of_thread_other by exact N. split; [exact G|]. intros l a [L|L] Ha; [congruence|]. rewrite <- (C l a L Ha). symmetry. apply D, F. intros K. apply N. symmetry. eapply SD; [left; reflexivity|right; exact L|exact K|exact Ha].
    + intros a Ha. rewrite B by (intros; apply (Ha i k0); right; assumption). apply F. apply (Ha j). now left.
Qed.
Lemma threads_defined : forall o s h T, separate s -> (forall i, defined (alone o (of_thread i s) h (T i))) -> defined (run o s h T).
Proof.
  intros o s. induction s as [|[j k] s IH]; intros h T SP H; cbn [run].
  - eexists. reflexivity.
  - destruct (H j) as [[[xs g] t] E]. rewrite of_thread_same in E. cbn [alone] in E. apply bind_inv in E as ([[x h1] t1] & H1 & E). apply bind_inv in E as ([[ys h2] t2] & H2 & _).
    rewrite H1. cbn [bind]. pose proof (separate_tail _ _ SP) as SP'. destruct SP as [_ SD]. pose proof (api_frame _ _ _ _ _ _ _ H1) as F.
    destruct (IH h1 (fun j0 => if Nat.eqb j0 j then t1 else T j0) SP') as [[[zs h3] T3] R].
    + intros i. cbv beta. destruct (Nat.eqb i j) eqn:N; [apply Nat.eqb_eq in N; subst i; eexists; exact H2|]. apply Nat.eqb_neq in N.
      destruct (H i) as [[[zs g'] t'] E]. rewrite of_thread_other in E by exact N.
      destruct (alone_local o (of_thread i s) h h1 (T i) zs g' t') as (g2 & G & _); [|exact E|eexists; exact G].
      intros l L a Ha. symmetry. apply F. intros K. apply N. symmetry. eapply SD; [left; reflexivity|right; apply of_thread_in, L|exact K|exact Ha].
    + rewrite R. eexists. reflexivity.
Qed.

(* what a call writes *)
Lemma api_changed : forall o k h t x h' t', api o k h t = Ok (x, h', t') -> forall a, ~ In a (changed k) -> h' a = h a.
Proof.
  intros o k h t x h' t' H ad Hz.
  destruct k; cbn [changed In] in Hz;
  (match type of H with api o ?k h t = _ => let f := eval cbv beta iota delta [api] in (api o k) in let E := fresh in assert (E : api o k = f) by reflexivity; rewrite E in H; clear E; cbv beta in H end);
  repeat match goal with H : bind ?m _ = Ok _ |- _ => destruct m eqn:?; [|discriminate H]; cbn [bind] in H end;
  repeat match goal with p : (_ * _)%type |- _ => destruct p end;
  injection H as <- <- <-; cbn [put3];
  match goal with
  | |- put3 _ _ _ _ _ _ = _ => apply put3_other; cbn [In]; exact Hz
  | |- put _ _ _ _ = _ => rewrite !put_other by (intro; subst; tauto); reflexivity
  | |- h ?z = h ?z => reflexivity
  end.
Qed.
Lemma api_copies : forall o src dst h t, api o (Move src dst) h t = Ok (Nothing, put dst (h src) h, t) /\ api o (UseLast dst src) h t = Ok (Nothing, put dst (h src) h, t).
Proof. intros. split; reflexivity. Qed.
Lemma api_copied : forall o k src dst h t x h' t', k = Move src dst \/ k = UseLast dst src -> api o k h t = Ok (x, h', t') -> x = Nothing /\ t' = t /\ h' dst = h src /\ forall a, a <> dst -> h' a = h a.
Proof.
  intros o k src dst h t x h' t' K H. destruct (api_copies o src dst h t) as [E1 E2]. assert (E : Ok (Nothing, put dst (h src) h, t) = Ok (x, h', t')) by (destruct K as [K|K]; rewrite K in H; congruence).
  injection E as <- <- <-. split; [reflexivity|]. split; [reflexivity|]. split; [apply put_same|]. intros a N. now apply put_other.
Qed.
