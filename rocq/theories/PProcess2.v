(* Processes: memory. *)
From Coq Require Import ZArith List Bool Lia Permutation.
From Verif Require Import Res F32 Build MParms MAdaptive MSynth MApi SpecSched SpecSafe MProcess SpecProcess PRun PProcess.
From Verif Require MAlloc SpecAlloc PAlloc.
Import ListNotations.
Local Open Scope Z_scope.

Definition kept (ths : list nat) (own : nat -> list (Z * Z)) (rest : list (Z * Z)) (s : process) : Prop :=
  orderly (memory s) /\ NoDup ths /\ (forall i, In i ths <-> plans s i <> 0) /\
  (forall i, In i ths -> length (own i) = 7%nat /\ PAlloc.owned (memory s) (plans s i) (own i)) /\ Permutation (MAlloc.h_live (memory s)) (concat (map own ths) ++ rest).
Lemma own_live : forall ths own rest s i c, kept ths own rest s -> In i ths -> In c (own i) -> In c (MAlloc.h_live (memory s)).
Proof. intros ths own rest s i c (_ & _ & _ & _ & P) I C. apply (PAlloc.in_perm _ _ _ P). rewrite in_app_iff. left. apply in_concat. exists (own i). split; [apply in_map, I|exact C]. Qed.
Lemma map_other : forall {A} (i : nat) (x : A) f l, ~ In i l -> map (at_thread i x f) l = map f l.
Proof. intros A i x f l N. apply map_ext_in. intros j J. unfold at_thread. destruct (Nat.eqb_spec j i) as [->|]; [contradiction|reflexivity]. Qed.

Lemma fetch_kept_all : forall al o asked i k s p m ths own rest h t, SpecAlloc.sane al -> kept ths own rest s -> fetch al o asked i k s = Ok (p, m) ->
  exists ths' own', kept ths' own' rest (mkprocess h t (at_thread i p (plans s)) m).
Proof.
  intros al o asked i k s p m ths own rest h t SA K F.
  assert (Same : p = plans s i -> m = memory s -> exists ths' own', kept ths' own' rest (mkprocess h t (at_thread i p (plans s)) m)).
  { intros -> ->. exists ths, own. destruct K as (A & B & C & D & E). unfold kept. cbn [memory plans].
    assert (X : forall j, at_thread i (plans s i) (plans s) j = plans s j) by (intros j; unfold at_thread; destruct (Nat.eqb_spec j i) as [->|]; reflexivity).
    split; [exact A|]. split; [exact B|]. split; [intros j; rewrite X; apply C|]. split; [intros j J; rewrite X; now apply D|exact E]. }
  unfold fetch in F. destruct (asked && may_ask k); [|injection F as <- <-; apply Same; reflexivity]. unfold MAlloc.mbe_get_fft_plan in F.
  destruct (Z.eqb_spec (plans s i) 0) as [Z0|NZ]; cbn [negb] in F; [|injection F as <- <-; apply Same; reflexivity]. clear Same.
  pose proof K as KK. destruct K as (A & B & C & D & E).
  destruct (PAlloc.alloc_spec al (o_simd o) (memory s) SA A) as [(Q & _)|(q & h' & Q & W & KE & O & _)]; rewrite Q in F; [discriminate F|]. injection F as <- <-.
  assert (NI : ~ In i ths) by (rewrite C; tauto).
  assert (OTH : forall j, In j ths -> length (own j) = 7%nat /\ PAlloc.owned h' (plans s j) (own j)).
  { intros j J. destruct (D j J) as [L OW]. split; [exact L|]. apply (PAlloc.owned_keeps (memory s)); [|exact OW]. intros c IC. apply KE. exact (own_live _ _ _ _ _ _ KK J IC). }
  destruct O as [[-> P]|(PP & o7 & L7 & OW & P)].
  - exists ths, own. unfold kept. cbn [memory plans]. split; [exact W|]. split; [exact B|]. split; [|split].
    + intros j. unfold at_thread. destruct (Nat.eqb_spec j i) as [->|]; [|apply C]. split; [contradiction|lia].
    + intros j J. unfold at_thread. destruct (Nat.eqb_spec j i) as [->|]; [contradiction|now apply OTH].
    + now rewrite P.
  - exists (i :: ths), (at_thread i o7 own). unfold kept. cbn [memory plans]. split; [exact W|]. split; [now constructor|]. split; [|split].
    + intros j. unfold at_thread. cbn [In]. destruct (Nat.eqb_spec j i) as [->|N]; [split; [lia|tauto]|]. rewrite <- C. split; [intros [G|G]; [congruence|exact G]|tauto].
    + intros j. unfold at_thread. cbn [In]. destruct (Nat.eqb_spec j i) as [->|N]; [auto|]. intros [G|G]; [congruence|now apply OTH].
    + cbn [map concat]. rewrite map_other by exact NI. unfold at_thread at 1. rewrite Nat.eqb_refl. rewrite P, <- app_assoc. now apply Permutation_app_head.
Qed.
Lemma end_kept : forall ths own rest s i h t, kept ths own rest s -> exists ths' lost, length lost = (7 * (if Z.eqb (plans s i) 0 then 0 else 1))%nat /\
  kept ths' own (lost ++ rest) (mkprocess h t (at_thread i 0 (plans s)) (memory s)).
Proof.
  intros ths own rest s i h t (A & B & C & D & E). destruct (Z.eqb_spec (plans s i) 0) as [Z0|NZ].
  - exists ths, []. split; [reflexivity|]. unfold kept. cbn [memory plans app]. split; [exact A|]. split; [exact B|]. split; [|split; [|exact E]].
    + intros j. unfold at_thread. destruct (Nat.eqb_spec j i) as [->|]; [rewrite C; tauto|apply C].
    + intros j J. unfold at_thread. destruct (Nat.eqb_spec j i) as [->|]; [exfalso; now apply C in J|now apply D].
  - apply C in NZ as IT. apply in_split in IT as (l1 & l2 & ->). exists (l1 ++ l2), (own i). split; [apply D; rewrite in_app_iff; cbn; tauto|]. unfold kept. cbn [memory plans]. split; [exact A|].
    pose proof (NoDup_remove_1 _ _ _ B) as B1. pose proof (NoDup_remove_2 _ _ _ B) as B2. split; [exact B1|]. split; [|split].
    + intros j. unfold at_thread. destruct (Nat.eqb_spec j i) as [->|N]; [split; [contradiction|congruence]|]. rewrite <- C, !in_app_iff. cbn [In]. split; [tauto|]. intros [G|[G|G]]; [tauto|congruence|tauto].
    + intros j J. unfold at_thread. destruct (Nat.eqb_spec j i) as [->|]; [contradiction|]. apply D. rewrite in_app_iff in *. cbn. tauto.
    + rewrite E, !map_app, !concat_app. cbn [map concat]. rewrite <- !app_assoc. apply Permutation_app_head. apply Permutation_app_swap_app.
Qed.
Lemma history_kept : forall al o es s xs s' ths own rest, SpecAlloc.sane al -> kept ths own rest s -> history_of al o es s = Ok (xs, s') ->
  exists ths' own' lost, length lost = (7 * lost_plans al o es s)%nat /\ kept ths' own' (lost ++ rest) s'.
Proof.
  intros al o. induction es as [|e es IH]; intros s xs s' ths own rest SA K H; cbn [history_of lost_plans] in *.
  - injection H as <- <-. exists ths, own, []. auto.
  - destruct (happens al o e s) as [[[j x] s1]|w] eqn:HA; [|discriminate H]. cbn [bind] in H. apply bind_inv in H as ([ys s2] & H2 & H). injection H as <- <-. destruct e as [asked i k|i]; cbn [happens] in HA.
    + apply bind_inv in HA as ([p m] & F & HA). apply bind_inv in HA as ([[y h] t] & _ & HA). injection HA as <- <- <-.
      destruct (fetch_kept_all _ _ _ _ _ _ _ _ _ _ _ h (at_thread i t (locals s)) SA K F) as (ths1 & own1 & K1). exact (IH _ _ _ _ _ _ SA K1 H2).
    + injection HA as <- <- <-. destruct (end_kept _ _ _ _ i (sets s) (at_thread i tls0 (locals s)) K) as (ths1 & lost1 & L1 & K1).
      destruct (IH _ _ _ _ _ _ SA K1 H2) as (ths2 & own2 & lost2 & L2 & K2). exists ths2, own2, (lost2 ++ lost1). split; [rewrite app_length; lia|]. now rewrite <- app_assoc.
Qed.
Lemma owned_plan : forall m p own, length own = 7%nat -> PAlloc.owned m p own -> plan_in own m p.
Proof.
  intros h i own L7 (pb & s & d & db & u0 & l0 & u1 & l1 & u2 & l2 & u3 & l3 & (AP & Q0 & Q1 & Q2 & Q3 & Q4) & _ & F0 & F1 & F2 & F3 & ->).
  assert (LN : (length l0 + length l1 + length l2 + length l3 = 4)%nat) by (cbn in L7; rewrite !app_length in L7; cbn in L7; lia).
  assert (LE : forall u l, PAlloc.field h u l -> (length l <= 1)%nat) by (intros u l [(_ & ->) | (x & -> & _)]; cbn; lia).
  pose proof (LE _ _ F0). pose proof (LE _ _ F1). pose proof (LE _ _ F2). pose proof (LE _ _ F3). clear LE.
  destruct F0 as [(_ & ->) | (b0 & -> & A0)]; [cbn in LN; lia|]. destruct F1 as [(_ & ->) | (b1 & -> & A1)]; [cbn in LN; lia|].
  destruct F2 as [(_ & ->) | (b2 & -> & A2)]; [cbn in LN; lia|]. destruct F3 as [(_ & ->) | (b3 & -> & A3)]; [cbn in LN; lia|]. cbn [app].
  assert (BU : forall p n c own, In c own -> PAlloc.aligned h p n c -> SpecAlloc.buffer own p n).
  { intros p n c own IO (_ & _ & X & Y & Z & _). split; [exact Z|]. exists c. split; [exact IO|]. lia. }
  assert (LD : forall f0 u, 0 <= f0 -> f0 + 8 <= 5504 -> MAlloc.lookup h (i + f0) = Some u -> MAlloc.load (i + f0) h = Ok u).
  { intros f0 u Z0 Z1 Q. apply (PAlloc.load_in _ h pb); [apply AP| |exact Q]. destruct AP as (_ & _ & X & Y & _). unfold PAlloc.inb. lia. }
  split; [apply (BU i 5504 pb); [cbn; tauto|exact AP]|]. unfold MAlloc.at_Uw, MAlloc.at_Uw_fft, MAlloc.at_Uw_out, MAlloc.at_work.
  intros f [<-|[<-|[<-|[<-|[]]]]]; [exists u0|exists u1|exists u2|exists u3]; (split; [apply LD; [lia|lia|assumption]|eapply BU; [|eassumption]; cbn; tauto]).
Qed.
Lemma history_memory : forall al o es s xs s', SpecAlloc.sane al -> orderly (memory s) -> (forall i, plans s i = 0) -> history_of al o es s = Ok (xs, s') ->
  exists ths own lost, NoDup ths /\ (forall i, In i ths <-> plans s' i <> 0) /\ (forall i, In i ths -> length (own i) = 7%nat /\ plan_in (own i) (memory s') (plans s' i)) /\
  length lost = (7 * lost_plans al o es s)%nat /\ orderly (memory s') /\ Permutation (MAlloc.h_live (memory s')) (concat (map own ths) ++ lost ++ MAlloc.h_live (memory s)).
Proof.
  intros al o es s xs s' SA OM NP H. destruct (history_kept al o es s xs s' [] (fun _ => []) (MAlloc.h_live (memory s)) SA) as (ths & own & lost & L & (A & B & C & D & E)); [|exact H|].
  { split; [exact OM|]. split; [constructor|]. split; [intros i; rewrite NP; cbn; tauto|]. split; [intros i []|]. reflexivity. }
  exists ths, own, lost. split; [exact B|]. split; [exact C|]. split; [|auto]. intros i I. destruct (D i I). split; [assumption|]. now apply owned_plan.
Qed.
(* with enough memory there is always a plan *)
Lemma plan_unused : forall p o k h t, may_ask k = false -> api (with_plan p o) k h t = api (with_plan true o) k h t.
Proof.
  intros p o k h t H. destruct k; try discriminate H; cbn [api]; match goal with |- ?a = ?a => reflexivity | _ => idtac end.
  - replace (mbe_spectralAmpEnhance (with_plan p o) c (h c) t) with (mbe_spectralAmpEnhance (with_plan true o) c (h c) t) by reflexivity. reflexivity.
  - replace (mbe_applyAdaptiveSmoothing (with_plan p o) c (h c) (h p0) t) with (mbe_applyAdaptiveSmoothing (with_plan true o) c (h c) (h p0) t) by reflexivity. reflexivity.
  - replace (mbe_synthesizeTonef (with_plan p o) buf d (h c)) with (mbe_synthesizeTonef (with_plan true o) buf d (h c)) by reflexivity. reflexivity.
  - replace (mbe_synthesizeTonefdstar (with_plan p o) buf (h c) id) with (mbe_synthesizeTonefdstar (with_plan true o) buf (h c) id) by reflexivity. reflexivity.
  - replace (do_decode f (with_plan p o) d (h c) (h p0)) with (do_decode f (with_plan true o) d (h c) (h p0)) by (destruct f; reflexivity). reflexivity.
  - replace (mbe_synthesizeComfortNoise (with_plan p o) buf t) with (mbe_synthesizeComfortNoise (with_plan true o) buf t); [reflexivity|].
    unfold mbe_synthesizeComfortNoise. destruct (mbe_synthesizeComfortNoisef _ t) as [[fb t1]|]; cbn [bind]; [|reflexivity]. unfold mbe_floattoshort. cbn [with_plan o_simd]. reflexivity.
Qed.
Lemma history_enough : forall al o es s, SpecAlloc.sane al -> orderly (memory s) -> told al o es s -> supplied al o es s ->
  match history_of al o es s with Ok (xs, s') => together o (map always es) (sets s) (locals s) = Ok (xs, sets s', locals s') | UB w => together o (map always es) (sets s) (locals s) = UB w end.
Proof.
  intros al o. induction es as [|e es IH]; intros s SA OM TO SU; [reflexivity|]. cbn [history_of told supplied map together] in *. destruct TO as [TE TO]. destruct SU as [SE SU].
  destruct e as [asked i k|i]; cbn [happens always enter] in *.
  - assert (F : exists p m, fetch al o asked i k s = Ok (p, m) /\ orderly m /\ api (with_plan (negb (p =? 0)) o) k (sets s) (locals s i) = api (with_plan true o) k (sets s) (locals s i)).
    { destruct (may_ask k) eqn:MK.
      2:{ exists (plans s i), (memory s). unfold fetch. rewrite MK, andb_false_r. split; [reflexivity|]. split; [exact OM|]. now apply plan_unused. }
      destruct asked.
      2:{ exists (plans s i), (memory s). split; [reflexivity|]. split; [exact OM|]. destruct (negb _); [reflexivity|]. symmetry. now apply TE. }
      unfold fetch. rewrite MK. cbn [andb]. unfold MAlloc.mbe_get_fft_plan. destruct (Z.eqb_spec (plans s i) 0) as [Z0|NZ]; cbn [negb].
      - specialize (SE eq_refl Z0). destruct (PAlloc.alloc_spec al (o_simd o) (memory s) SA OM) as [(_ & ST)|(q & h' & Q & W & _ & _ & EN & _)].
        + exfalso. destruct ST as [_ [X|X]]; revert X; apply SE; lia.
        + exists q, h'. split; [exact Q|]. split; [exact W|]. apply EN in SE. destruct (Z.eqb_spec q 0); [contradiction|reflexivity].
      - exists (plans s i), (memory s). split; [reflexivity|]. split; [exact OM|]. destruct (Z.eqb_spec (plans s i) 0); [contradiction|reflexivity]. }
    destruct F as (p & m & FE & OM' & EA). rewrite FE in *. cbn [bind] in *. rewrite EA in TO, SU |- *. destruct (api (with_plan true o) k (sets s) (locals s i)) as [[[x h] t]|w]; [|reflexivity]. cbn [bind] in *.
    specialize (IH (mkprocess h (at_thread i t (locals s)) (at_thread i p (plans s)) m) SA OM' TO SU). destruct (history_of _ _ _ _) as [[xs s']|w]; cbn [bind sets locals] in *; rewrite IH; reflexivity.
  - cbn [bind]. specialize (IH (mkprocess (sets s) (at_thread i tls0 (locals s)) (at_thread i 0 (plans s)) (memory s)) SA OM TO SU). destruct (history_of _ _ _ _) as [[xs s']|w]; cbn [bind sets locals] in *; rewrite IH; reflexivity.
Qed.
(* when the threads that make calls have their plans, memory stays as it is *)
Lemma history_quiet : forall al o es s xs s', history_of al o es s = Ok (xs, s') -> (forall asked i k, In (Calls asked i k) es -> plans s i <> 0) -> (forall i, ~ In (Ends i) es) -> memory s' = memory s /\ forall i, plans s' i = plans s i.
Proof.
  intros al o. induction es as [|e es IH]; intros s xs s' H HP HE; cbn [history_of] in H; [injection H as <- <-; auto|].
  apply bind_inv in H as ([[j x] s1] & HA & H). apply bind_inv in H as ([ys s2] & H2 & H). injection H as <- <-. destruct e as [asked i k|i]; [|exfalso; apply (HE i); now left]. cbn [happens] in HA.
  apply bind_inv in HA as ([p m] & F & HA). apply bind_inv in HA as ([[y h] t] & _ & HA). injection HA as <- <- <-.
  assert (E : p = plans s i /\ m = memory s).
  { pose proof (HP asked i k (or_introl eq_refl)) as N. unfold fetch in F. destruct (asked && may_ask k); [|injection F as <- <-; auto]. rewrite PAlloc.alloc_once in F by exact N. injection F as <- <-. auto. }
  destruct E as [-> ->]. assert (X : forall n, at_thread i (plans s i) (plans s) n = plans s n) by (intros n; unfold at_thread; destruct (Nat.eqb_spec n i) as [->|]; reflexivity).
  destruct (IH _ _ _ H2) as [M P]; cbn [memory plans] in *.
  - intros a n l I. rewrite X. apply (HP a n l). now right.
  - intros n I. apply (HE n). now right.
  - split; [exact M|]. intros n. now rewrite P, X.
Qed.
