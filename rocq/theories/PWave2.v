(* Tone frames of the synthesiser and of decoder calls are sinusoids. *)
From Coq Require Import ZArith Reals Lra Lia List Bool.
From Verif Require Import Res F32 MParms MSynth MAmbe SpecEcc SpecFrame SpecState SpecMachine SpecAmbe SpecAmbeMachine SpecTone SpecTrig SpecNum SpecWave PRun PFloat PTone PSpeech PAmbeMachine PAmbeStream PIdeal PWave.
Import ListNotations.
Local Open Scope R_scope.

Lemma nth_nonneg : forall l n, Forall (fun x => 0 <= x)%Z l -> (0 <= nth n l 0)%Z.
Proof. intros l. induction l as [|x l IH]; intros [|n] H; cbn [nth]; try lia; inversion H; subst; auto. Qed.
Lemma hz_range : forall id hz, tone_hz id = Some hz -> (0 <= fst hz)%Z /\ (0 <= snd hz)%Z.
Proof.
  assert (P : forall a b, (0 <= a)%Z -> (0 <= b)%Z -> forall hz, Some (a, b) = Some hz -> (0 <= fst hz)%Z /\ (0 <= snd hz)%Z) by (intros a b A B hz E; injection E as <-; auto).
  assert (N : forall l n, Forall (fun x => 0 <= x)%Z l -> (0 <= 100 * nth n l 0)%Z) by (intros l n H; pose proof (nth_nonneg l n H); lia).
  intros id hz. unfold tone_hz. destruct (_ && _)%bool eqn:B; [apply P; lia|]. destruct (key_at id) as [[r c]|].
  - apply P; apply N; repeat constructor; lia.
  - destruct (key_at (id - 16)) as [[r c]|]; [apply P; apply N; repeat constructor; lia|]. do 4 (destruct (_ =? _)%Z; [apply P; lia|]). discriminate.
Qed.
Lemma angles_turn : forall o, accurate_angles o -> accurate_turn o.
Proof. intros o A x F H. apply A; [exact F|lra]. Qed.
Lemma samples_sound : forall o id hz ad p1 p2 n, accurate_turn o -> tone_hz id = Some hz -> (0 <= ad <= 127)%Z ->
  sounds hz ad p1 p2 n (map (fun i => tone_sample o hz ad p1 p2 (Z.of_nat i)) (seq 0 n)).
Proof.
  intros o id hz ad p1 p2 n AT HZ HA. destruct (hz_range id hz HZ) as [H1 H2]. split; [now rewrite map_length, seq_length|]. intros i Hi.
  rewrite (nth_indep _ fzero (tone_sample o hz ad p1 p2 (Z.of_nat 0))) by (now rewrite map_length, seq_length). rewrite map_nth with (f := fun i => tone_sample o hz ad p1 p2 (Z.of_nat i)), seq_nth by exact Hi. cbn [plus].
  split; [apply (sample_wave o AT hz ad p1 p2 (Z.of_nat i) HA)|]. rewrite INR_IZR_INZ. apply sample_near; auto. lia.
Qed.
Lemma frames_sound : forall o id hz ad fs cur, o_tones o = true -> accurate_turn o -> tone_hz id = Some hz -> (0 <= ad <= 127)%Z ->
  Forall (fun x => is_bits 49 (fst x) /\ length (snd x) = 160%nat /\ tone_id (fst x) = id) fs -> Forall (fun x => tone_amp (fst x) = ad) fs ->
  exists bufs cur', tone_frames o fs cur = Ok (bufs, cur') /\ sounds hz ad (to_u32 (p_swn cur)) (to_u32 (p_un cur)) (160 * length fs) (concat bufs).
Proof.
  intros o id hz ad fs cur HT AT HZ HA HF HD. destruct (tone_samples o id hz ad fs cur HT HZ HF HD) as (bufs & cur' & E & C). exists bufs, cur'. split; [exact E|]. rewrite C. eapply samples_sound; eassumption.
Qed.
Lemma dstar_sound : forall o id hz bufs cur, o_tones o = true -> accurate_turn o -> (5 <= id <= 122)%Z -> tone_hz id = Some hz -> Forall (fun b => length b = 160%nat) bufs ->
  exists r cur', dstar_frames o id bufs cur = Ok (r, cur') /\ sounds hz 103 (to_u32 (p_swn cur)) (to_u32 (p_un cur)) (160 * length bufs) (concat r).
Proof.
  intros o id hz bufs cur HT AT HI HZ HF. destruct (dstar_stream o id hz bufs cur HT HI HZ HF) as (cur' & E & _). eexists _, cur'. split; [exact E|]. rewrite frames_concat. eapply samples_sound; [exact AT|exact HZ|lia].
Qed.

(* ---- consecutive tone calls ---- *)
Lemma tone_calls : forall o a hz ad p1 p2 cs st t k, o_tones o = true -> Forall (fun c => ambe_ok c /\ kind_of c = Tone hz /\ tone_amp (ac_bits c) = ad) cs -> sane_state st -> foreign (prev_of st) = false ->
  to_u32 (p_swn (cur_of st)) = ((p1 + phase_step (fst hz) * (160 * Z.of_nat k)) mod 2 ^ 32)%Z -> to_u32 (p_un (cur_of st)) = ((p2 + phase_step (snd hz) * (160 * Z.of_nat k)) mod 2 ^ 32)%Z ->
  exists r st', ambe_stream (do2450 o a) cs st t = Ok (r, st', t) /\ map fst r = map (fun f => tone_frame o hz p1 p2 f ad) (seq k (length cs)).
Proof.
  intros o a hz ad p1 p2 cs. induction cs as [|c cs IH]; intros st t k HT HF SS FO E1 E2.
  - exists [], st. split; reflexivity.
  - apply Forall_cons_iff in HF as [((Hd & Hn & LB) & K & HA) HF]. destruct st as [[c0 p0] e0]. pose proof SS as (SC & SP & SE). cbn [prev_of cur_of] in *.
    cbn [ambe_stream]. unfold do2450 at 1. rewrite (tone_process o a (ac_buf c) (ac_errors c) (ac_bits c) (c0, p0, e0) (ac_uv c) (ac_c0 c) (ac_known c) t c0 p0 e0 hz Hd LB (proj1 SP)); [|apply begin_own; exact FO|exact K].
    unfold tone_heard, tone_turned. rewrite HT. cbn [bind]. rewrite E1, E2, HA, tone_frame_shift. set (x := stored_phase _ _ _). set (y := stored_phase _ _ _). set (m := no_repeats _).
    destruct (IH (set_un x (set_swn y m), p0, e0) t (S k) HT HF) as (r & st' & ER & EM).
    + split; [apply sane_phases, sane_no_repeats, sane_with_errors; assumption|split; assumption].
    + exact FO.
    + unfold cur_of. cbn [p_swn set_un set_swn]. unfold y. apply stored_next.
    + unfold cur_of. cbn [p_un set_un set_swn]. unfold x. apply stored_next.
    + rewrite ER. cbn [bind]. eexists _, st'. split; [reflexivity|]. cbn [map fst length seq]. f_equal. exact EM.
Qed.
Lemma tone_of : forall d n hz, kind2450 d n = Tone hz -> tone_hz (tone_id d) = Some hz.
Proof. intros d n hz H. unfold kind2450 in H. destruct (_ && _)%bool; [|destruct (_ || _)%bool; discriminate H]. destruct (tone_hz (tone_id d)) as [h|]; [now injection H as ->|discriminate H]. Qed.
Lemma calls_sound : forall o a hz ad cs st t, o_tones o = true -> accurate_turn o -> Forall (fun c => ambe_ok c /\ kind_of c = Tone hz /\ tone_amp (ac_bits c) = ad) cs -> sane_state st -> foreign (prev_of st) = false ->
  exists r st', ambe_stream (do2450 o a) cs st t = Ok (r, st', t) /\ sounds hz ad (to_u32 (p_swn (cur_of st))) (to_u32 (p_un (cur_of st))) (160 * length cs) (concat (map fst r)).
Proof.
  intros o a hz ad cs st t HT AT HF SS FO. destruct (tone_calls o a hz ad (to_u32 (p_swn (cur_of st))) (to_u32 (p_un (cur_of st))) cs st t 0 HT HF SS FO) as (r & st' & E & M).
  - change (160 * Z.of_nat 0)%Z with 0%Z. rewrite Z.mul_0_r, Z.add_0_r. unfold to_u32. change (2 ^ 32)%Z with 4294967296%Z. rewrite Z.mod_mod by lia. reflexivity.
  - change (160 * Z.of_nat 0)%Z with 0%Z. rewrite Z.mul_0_r, Z.add_0_r. unfold to_u32. change (2 ^ 32)%Z with 4294967296%Z. rewrite Z.mod_mod by lia. reflexivity.
  - exists r, st'. split; [exact E|]. rewrite M, frames_concat. destruct cs as [|c cs]; [split; [reflexivity|intros i Hi; cbn in Hi; lia]|].
    apply Forall_cons_iff in HF as [((Hd & _) & K & HA) _]. eapply samples_sound; [exact AT|exact (tone_of _ _ _ K)|]. rewrite <- HA. apply tone_amp_range, Hd.
Qed.
