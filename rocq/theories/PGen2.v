(* The generator facts of PGen stated of the modelled functions. *)
From Coq Require Import ZArith List Bool Lia.
From Verif Require Import Res F32 MParms MAdaptive MUnvoiced SpecGen SpecGen2 PBase PRun PGen.
Import ListNotations.
Local Open Scope Z_scope.

Lemma draw_state : forall t, t_seeded (fst (mbe_java_random_next_bits 24 t)) = true /\
  t_seed48 (fst (mbe_java_random_next_bits 24 t)) = java_step (java_pre t).
Proof. intros t. rewrite java_draw. split; reflexivity. Qed.
Lemma draws_state : forall n t, t_seeded t = true -> t_seeded (draws n t) = true /\ t_seed48 (draws n t) = Nat.iter n java_step (t_seed48 t).
Proof.
  induction n as [|n IH]; intros t S; [split; [exact S|reflexivity]|]. destruct (IH t S) as [A B].
  change (draws (Datatypes.S n) t) with (fst (mbe_java_random_next_bits 24 (draws n t))).
  change (Nat.iter (Datatypes.S n) java_step (t_seed48 t)) with (java_step (Nat.iter n java_step (t_seed48 t))).
  destruct (draw_state (draws n t)) as [C D]. split; [exact C|]. rewrite D. unfold java_pre. rewrite A, B. reflexivity.
Qed.
Lemma draws_period : forall n t, t_seeded t = true -> 0 <= t_seed48 t < 2 ^ 48 -> (t_seed48 (draws n t) = t_seed48 t <-> Z.of_nat n mod 2 ^ 48 = 0).
Proof. intros n t S H. rewrite (proj2 (draws_state n t S)). apply java_period, H. Qed.
Lemma draws_all : forall t y, t_seeded t = true -> 0 <= t_seed48 t < 2 ^ 48 -> 0 <= y < 2 ^ 48 -> exists n, Z.of_nat n < 2 ^ 48 /\ t_seed48 (draws n t) = y.
Proof. intros t y S H Y. destruct (java_all _ y H Y) as (n & A & B). exists n. split; [exact A|]. rewrite (proj2 (draws_state n t S)). exact B. Qed.
Lemma of_Z_inj : forall x y, 0 <= x < 53125 -> 0 <= y < 53125 -> f_of_Z x = f_of_Z y -> x = y.
Proof. intros x y X Y E. pose proof (u32_of_Z x X) as A. rewrite E, (u32_of_Z y Y) in A. congruence. Qed.
Lemma noise_period : forall buf n s b f, 0 <= s < 53125 -> length buf = n -> mbe_generate_noise_lcg buf (Z.of_nat n) (f_of_Z s) = Ok (b, f) -> (f = f_of_Z s <-> Z.of_nat n mod 53125 = 0).
Proof.
  intros buf n s b f S L H. rewrite noise_lcg_ok in H by assumption. injection H as _ <-. rewrite <- (lcg_period s n S). fold (lcg_state s n).
  split; [intro E; apply of_Z_inj in E; [exact E|apply lcg_state_range, S|exact S]|congruence].
Qed.
Lemma noise_all : forall s y, 0 <= s < 53125 -> 0 <= y < 53125 -> exists n, Z.of_nat n < 53125 /\ forall buf, length buf = n -> exists b, mbe_generate_noise_lcg buf (Z.of_nat n) (f_of_Z s) = Ok (b, f_of_Z y).
Proof.
  intros s y S Y. destruct (lcg_all s y S Y) as (n & A & B). exists n. split; [exact A|]. intros buf L. rewrite noise_lcg_ok by assumption. unfold lcg_state at 2. rewrite B. eauto.
Qed.
Lemma nth_buffer : forall s n k, (k < n)%nat -> nth k (map (noise_buffer s) (seq 0 n)) [] = noise_buffer s k.
Proof. intros s n k H. rewrite (nth_indep _ [] (noise_buffer s O)) by (rewrite map_length, seq_length; exact H). rewrite map_nth, seq_nth by exact H. reflexivity. Qed.
Lemma stream_overlap : forall n seed ov t bs f ov' t', cold seed = true -> 0 <= cold_seed t < 53125 -> noise_buffers n seed ov t = Ok (bs, f, ov', t') ->
  forall k, (S k < n)%nat -> skipn 160 (nth k bs []) = firstn 96 (nth (S k) bs []) /\ length (nth k bs []) = 256%nat.
Proof.
  intros n seed ov t bs f ov' t' C S H k K. destruct n as [|n]; [lia|]. destruct (noise_stream n seed ov t C S) as (f1 & ov1 & t1 & E). assert (B : bs = map (noise_buffer (cold_seed t)) (seq 0 (Datatypes.S n))) by congruence. clear H E. subst bs.
  rewrite !nth_buffer by lia. split; [apply buffer_overlap|]. unfold noise_buffer. rewrite map_length, seq_length. reflexivity.
Qed.
Lemma stream_values : forall n seed ov t bs f ov' t', cold seed = true -> 0 <= cold_seed t < 53125 -> noise_buffers n seed ov t = Ok (bs, f, ov', t') ->
  Forall (Forall (fun x => exists z, 0 <= z < 53125 /\ x = f_of_Z z /\ sf_trunc x = Some z)) bs.
Proof.
  intros n seed ov t bs f ov' t' C S H. destruct n as [|n]; [cbn in H; injection H as <- _ _ _; constructor|]. destruct (noise_stream n seed ov t C S) as (f1 & ov1 & t1 & E). assert (B : bs = map (noise_buffer (cold_seed t)) (seq 0 (Datatypes.S n))) by congruence. clear H E. subst bs.
  apply Forall_forall. intros b Hb. apply in_map_iff in Hb as (k & <- & _). apply Forall_forall. intros x Hx. unfold noise_buffer in Hx. apply in_map_iff in Hx as (i & <- & _).
  destruct (noise_at_int (cold_seed t) (160 * (Z.of_nat k - 1) + Z.of_nat i - 96) S) as (z & Z1 & -> & Z2). eauto.
Qed.
