(* Processes: the consequences that are stated as properties, and the example. *)
From Coq Require Import ZArith List Bool Lia Permutation SpecFloat.
From Verif Require Import Res F32 MFrame MParms MAdaptive MUnvoiced MSynth MImbe MAmbe SpecEcc SpecFrame SpecState SpecOut SpecWola SpecMachine SpecAmbeMachine MApi SpecSched SpecSafe MProcess SpecProcess.
From Verif Require Import PRun PState PStream PNyq PSafe PSafe2 PSafe3 PProcess PProcess2.
From Verif Require MAlloc SpecAlloc PAlloc.
Import ListNotations.
Local Open Scope Z_scope.

Lemma history_plans : forall al o es s xs s', (forall i, plans s i = 0) -> history_of al o es s = Ok (xs, s') ->
  exists l, Forall2 entered es l /\ together o l (sets s) (locals s) = Ok (xs, sets s', locals s') /\ forall i, steady false (of_thread i l).
Proof. intros al o es s xs s' N H. destruct (history_entries _ _ _ _ _ _ H) as (l & A & B & C). exists l. split; [exact A|]. split; [exact B|]. intros i. specialize (C i). now rewrite N in C. Qed.
Lemma history_safe : forall al o es s w, SpecAlloc.sane al -> good_exp2 o R2400 -> (forall a, wf_parms (sets s a)) -> (forall i, thread_ok (locals s i)) -> orderly (memory s) ->
  careful (fun _ => Raw) (calls_of es) -> Z.of_nat (length (calls_of es)) <= 357000 -> history_of al o es s = UB w ->
  exists e1 e e2 x s1, es = e1 ++ e :: e2 /\ history_of al o e1 s = Ok (x, s1) /\ happens al o e s1 = UB w /\ blamed al o e s1 w.
Proof. intros al o es s w SA HX HW HT OM HC HN H. apply (history_safe_gen al o es (fun _ => Raw) s 20480 w SA HX); auto; lia. Qed.
Lemma history_others : forall al o es s xs s' i, (forall e, In e es -> match e with Calls _ j _ => j <> i | Ends j => j <> i end) -> history_of al o es s = Ok (xs, s') -> plans s' i = plans s i.
Proof.
  intros al o. induction es as [|e es IH]; intros s xs s' i N H; cbn [history_of] in H; [injection H as _ <-; reflexivity|].
  apply bind_inv in H as ([[j x] s1] & HA & H). apply bind_inv in H as ([ys s2] & H2 & H). injection H as <- <-. rewrite (IH _ _ _ i (fun e I => N e (or_intror I)) H2).
  specialize (N e (or_introl eq_refl)). destruct e as [asked n k|n]; cbn [happens] in HA.
  - apply bind_inv in HA as ([p m] & _ & HA). apply bind_inv in HA as ([[y h] t] & _ & HA). injection HA as _ _ <-. cbn [plans]. unfold at_thread. destruct (Nat.eqb_spec i n); [congruence|reflexivity].
  - injection HA as _ _ <-. cbn [plans]. unfold at_thread. destruct (Nat.eqb_spec i n); [congruence|reflexivity].
Qed.

(* the process at its start *)
Definition fresh_process : process := mkprocess here threads (fun _ => 0) (MAlloc.mkheap [] [] 0).
Lemma fresh_met : orderly (memory fresh_process) /\ (forall a, wf_parms (sets fresh_process a)) /\ (forall i, thread_ok (locals fresh_process i)) /\ (forall i, plans fresh_process i = 0).
Proof. destruct programs_met as (_ & _ & A & B). split; [|auto]. split; [constructor|]. split; [intros b c []|intros b []]. Qed.
Definition speaks (c : Z) : call := Speechf (repeat fzero 160) c (c + 1) 3.
(* two threads; the fourth block for the second one is not there at first.  The first one ends, and another takes its place. *)
Definition story : list event :=
  [Calls false 0 (Init 1 2 3); Calls false 1 (Init 4 5 6); Calls true 0 (speaks 1); Calls true 1 (speaks 4); Calls true 1 (speaks 4); Ends 0; Calls true 0 (speaks 1)].
Lemma story_careful : careful (fun _ => Raw) (calls_of story).
Proof.
  unfold story, speaks. cbn [calls_of careful well_called well_fed].
  repeat match goal with
  | |- _ /\ _ => split
  | |- well_fed _ _ => unfold well_fed
  | |- NoDup _ => cbn [given]; distinct
  | |- filled_in _ => filled
  | |- True => exact I
  | |- whole _ => reflexivity
  | |- _ = Ready => reflexivity
  | |- _ <= _ => lia
  end.
Qed.
(* threads that speak once and end *)
Definition passers : list event := [Calls true 0 (speaks 1); Ends 0; Calls true 0 (speaks 1); Ends 0].
Lemma passers_leak : exists xs s', history_of (SpecAlloc.behind 99) near_oracle passers fresh_process = Ok (xs, s') /\ (forall i, plans s' i = 0) /\ length (MAlloc.h_live (memory s')) = 14%nat.
Proof.
  assert (V : match history_of (SpecAlloc.behind 99) near_oracle passers fresh_process with Ok (_, s') => (plans s' 0%nat, length (MAlloc.h_live (memory s'))) | UB _ => (1, 0%nat) end = (0, 14%nat)) by (vm_compute; reflexivity).
  destruct (history_of (SpecAlloc.behind 99) near_oracle passers fresh_process) as [[xs s']|w] eqn:E; [|discriminate V]. injection V as V0 V1. exists xs, s'. split; [reflexivity|]. split; [|exact V1].
  intros i. destruct (Nat.eq_dec i 0) as [->|N]; [exact V0|]. rewrite (history_others (SpecAlloc.behind 99) near_oracle passers fresh_process xs s' i); [reflexivity| |exact E]. intros e IE. unfold passers in IE. cbn [In] in IE. destruct IE as [<-|[<-|[<-|[<-|[]]]]]; congruence.
Qed.
Lemma threads_leak : exists al o es xs s', SpecAlloc.sane al /\ history_of al o es fresh_process = Ok (xs, s') /\ (forall i, plans s' i = 0) /\ length (MAlloc.h_live (memory s')) = 14%nat.
Proof. destruct passers_leak as (xs & s' & E & P & L). exists (SpecAlloc.behind 99), near_oracle, passers, xs, s'. split; [apply PAlloc.behind_sane|]. auto. Qed.
Lemma two_told : forall al o c k s x s1, happens al o (Calls false 0 c) s = Ok (x, s1) -> may_ask c = false -> told al o [Calls false 0 c; Calls true 0 k] s.
Proof.
  intros al o c k s [i x] s1 H N. cbn [told]. rewrite H. split; [rewrite N; discriminate|]. split; [exact I|]. destruct (happens al o (Calls true 0 k) s1) as [[[? ?] ?]|]; exact I.
Qed.
Lemma two_supplied : forall al o c k s x s1, happens al o (Calls false 0 c) s = Ok (x, s1) -> SpecAlloc.enough al (memory s1) -> supplied al o [Calls false 0 c; Calls true 0 k] s.
Proof.
  intros al o c k s [i x] s1 H N. cbn [supplied]. rewrite H. split; [exact I|]. split; [intros _ _; exact N|]. destruct (happens al o (Calls true 0 k) s1) as [[[? ?] ?]|]; exact I.
Qed.
Lemma init_happens : forall al o c p e s, (exists st, mbe_initMbeParms (sets s c) (sets s p) (sets s e) = Ok st) -> exists x s1, happens al o (Calls false 0 (Init c p e)) s = Ok (x, s1) /\ memory s1 = memory s.
Proof. intros al o c p e s [st E]. cbn [happens fetch andb bind api]. rewrite E. cbn [bind]. do 2 eexists. split; reflexivity. Qed.
Lemma enough_met : SpecAlloc.sane (SpecAlloc.behind 99) /\ orderly (memory fresh_process) /\
  told (SpecAlloc.behind 99) near_oracle [Calls false 0 (Init 1 2 3); Calls true 0 (speaks 1)] fresh_process /\ supplied (SpecAlloc.behind 99) near_oracle [Calls false 0 (Init 1 2 3); Calls true 0 (speaks 1)] fresh_process.
Proof.
  split; [apply PAlloc.behind_sane|]. split; [apply fresh_met|].
  destruct (init_happens (SpecAlloc.behind 99) near_oracle 1 2 3 fresh_process) as (x & s1 & H & M).
  { assert (V : match mbe_initMbeParms ambe_initial ambe_initial ambe_initial with Ok _ => true | UB _ => false end = true) by (vm_compute; reflexivity).
    cbn [sets fresh_process]. unfold here. destruct (mbe_initMbeParms ambe_initial ambe_initial ambe_initial) as [st|]; [now exists st|discriminate V]. }
  split; [exact (two_told _ _ _ _ _ _ _ H eq_refl)|]. apply (two_supplied _ _ _ _ _ _ _ H). rewrite M. clear. cbn [memory fresh_process].
  intros [|[|[|[|[|[|[|j]]]]]]] J; [vm_compute; discriminate..|]. clear - J. lia.
Qed.
