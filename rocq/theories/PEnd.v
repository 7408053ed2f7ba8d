(* Proofs about the frame process calls end to end. *)
From Coq Require Import ZArith List Bool Lia.
From Verif Require Import Res F32 MEcc MFrame MParms MImbe MAmbe SpecEcc PBase PEcc PHam SpecFrame PLoop PFrameAmbe PFrameImbe PFrame7200 PConv PFrame7100 SpecState SpecMachine SpecAmbeMachine SpecEnd PRun.
Import ListNotations.
Local Open Scope Z_scope.

Lemma frames_datas : forall F D e0 e (P : reception -> Prop),
  (forall r st t, P r -> match D r st t with
     | Ok (b, s, st', t') => exists x, F r st t = Ok x /\ fo_aout x = b /\ fo_str x = s /\ fo_errs x = e0 r /\ fo_errs2 x = e r /\ fo_st x = st' /\ fo_tls x = t'
     | UB u => F r st t = UB u end) ->
  forall rs st t, Forall P rs -> frames F rs st t = datas D e0 e rs st t.
Proof.
  intros F D e0 e P H. induction rs as [|r rs IH]; intros st t HF; [reflexivity|].
  inversion HF as [|x l Hr Hrs]; subst. specialize (H r st t Hr). cbn [frames datas].
  destruct (D r st t) as [[[[b s] st'] t']|u].
  - destruct H as (x & -> & <- & <- & <- & <- & <- & <-). cbn [bind]. now rewrite IH.
  - rewrite H. reflexivity.
Qed.

Lemma set_cur_4 : forall c st, set_cur_errorCount4 c st = (set_errorCount4 c (cur_of st), prev_of st, enh_of st).
Proof. intros c [[x y] z]. reflexivity. Qed.

Lemma one7200 : forall o a r st t, imbe7200_received r -> match meant7200 o a r st t with
     | Ok (b, s, st', t') => exists x, frame7200 o a r st t = Ok x /\ fo_aout x = b /\ fo_str x = s /\ fo_errs x = imbe7200_first r /\ fo_errs2 x = imbe7200_all r /\ fo_st x = st' /\ fo_tls x = t'
     | UB u => frame7200 o a r st t = UB u end.
Proof.
  intros o a r st t ([L B] & HE & HS & HG & HC & LD).
  destruct (imbe7200_recovers _ _ _ _ L HE HS HG HC LD) as (fr' & E).
  unfold frame7200, mbe_processImbe7200x4400Framef. rewrite E. cbn [bind]. rewrite set_cur_4.
  unfold meant7200, imbe_do, imbe7200_all, imbe7200_first, imbe7200_fifth. cbn [ic_buf ic_errors ic_bits ic_uv ic_c0 ic_c0_known].
  destruct (mbe_processImbe4400Dataf_withC0 _ _ _ _ _ _ _ _ _ _) as [[[[b s] st'] t']|u]; [|reflexivity].
  eexists. split; [reflexivity|]. repeat split.
Qed.

Lemma one7100 : forall o a r st t, imbe7100_received r -> match meant7100 o a r st t with
     | Ok (b, s, st', t') => exists x, frame7100 o a r st t = Ok x /\ fo_aout x = b /\ fo_str x = s /\ fo_errs x = imbe7100_first r /\ fo_errs2 x = imbe7100_all r /\ fo_st x = st' /\ fo_tls x = t'
     | UB u => frame7100 o a r st t = UB u end.
Proof.
  intros o a r st t ([L B] & HE & HS & HG & HC & LD).
  destruct (imbe7100_recovers _ _ _ _ L HE HS HG HC LD) as (fr' & E).
  unfold frame7100, mbe_processImbe7100x4400Framef. rewrite E. cbn [bind]. rewrite set_cur_4.
  unfold meant7100, imbe_do, imbe7100_all, imbe7100_first, imbe7100_fifth. cbn [ic_buf ic_errors ic_bits ic_uv ic_c0 ic_c0_known].
  destruct (mbe_processImbe4400Dataf_withC0 _ _ _ _ _ _ _ _ _ _) as [[[[b s] st'] t']|u]; [|reflexivity].
  eexists. split; [reflexivity|]. repeat split.
Qed.

(* the exact count of the first AMBE word *)
Lemma c0_count : forall r0 r1 r2 r3, row 24 24 r0 -> exists r0' errs cw,
  mbe_eccAmbe3600C0_common [r0; r1; r2; r3] = Ok ([r0'; r1; r2; r3], errs)
  /\ golay_word cw /\ hdist (skipn 1 r0) cw <= 3
  /\ errs = (let n := hdist (skipn 12 r0) (skipn 11 cw) in if 0 <? n then n else if Z.odd (fold_right Z.add 0 r0) then 1 else 0).
Proof.
  intros r0 r1 r2 r3 R0. destruct (row24_split r0 R0) as (p & l & -> & Hp & Hl).
  destruct (ambe_c0_closed p l r1 r2 r3 Hp Hl) as (cw & e & Hcw & Hd & Hu & He & Hr & Hob & Heq).
  change (skipn 1 (p :: l)) with l. change (skipn 12 (p :: l)) with (skipn 11 l).
  assert (Et : total l = fold_right Z.add 0 l) by (clear; induction l as [|x l IH]; [reflexivity|cbn; now rewrite IH]).
  cbn [fold_right]. rewrite <- Et. cbv zeta.
  destruct (e =? 0) eqn:E0.
  - apply Z.eqb_eq in E0.
    destruct (Z.odd (p + total l)); eexists _, _, cw; (split; [exact Heq|]); rewrite <- He, E0; auto.
  - apply Z.eqb_neq in E0. assert (Q : 0 <? e = true) by (apply Z.ltb_lt; lia). eexists _, _, cw; (split; [exact Heq|]); rewrite <- He, Q; auto.
Qed.

Lemma ambe_exact : forall r, ambe_received r ->
  exists fr', ambe_frame_ecc (rx_got r) (rx_scratch r) = Ok (fr', ambe_first r, ambe_all r, rx_params r).
Proof.
  intros [d sent got d0 uv buf] ([L B] & HE & HG & HC & LD). unfold ambe_first, ambe_all, ambe_first. cbn [rx_params rx_sent rx_got rx_scratch] in *.
  destruct (ambe_recovers _ _ _ _ L HE HG HC LD) as (fr' & errs & errs2 & E & He & Hp & Hz & H2).
  assert (Q : errs = (let n := ambe_c0_flips sent got in if 0 <? n then n else if Z.odd (fold_right Z.add 0 (nth 0 got [])) then 1 else 0)).
  { destruct HG as (r0 & r1 & r2 & r3 & -> & R0 & _). destruct (c0_count r0 r1 r2 r3 R0) as (r0' & e & cw & Ec & Wc & Hd & Hc).
    unfold ambe_frame_ecc in E. rewrite Ec in E. cbn [bind] in E.
    destruct (ambe_c0_full r0 r1 r2 r3 R0) as (r0'' & e' & cw' & E' & _ & Wc' & Hd' & Hu' & _).
    destruct HE as (s0 & s1 & s2 & s3 & c1 & -> & Ws & _). destruct HC as (t0 & t1 & t2 & t3 & q0 & q1 & q2 & q3 & Es & Eq & Hc0 & _).
    injection Es as <- <- <- <-. injection Eq as <- <- <- <-.
    assert (cw = skipn 1 s0) as -> by (rewrite (Hu' _ Wc Hd), (Hu' _ Ws Hc0); reflexivity).
    unfold ambe_c0_flips. cbn [nth]. rewrite skipn_skipn' in Hc. cbn [Nat.add] in Hc.
    apply bind_inv in E as (f1 & _ & E). apply bind_inv in E as ([d' e2] & _ & E). congruence. }
  exists fr'. rewrite E, H2. cbv zeta in Q |- *. rewrite <- Q. reflexivity.
Qed.

Lemma one2450 : forall o a r st t, ambe_received r -> match do2450 o a (ambe_meant r) st t with
     | Ok (b, s, st', t') => exists x, frame2450 o a r st t = Ok x /\ fo_aout x = b /\ fo_str x = s /\ fo_errs x = ambe_first r /\ fo_errs2 x = ambe_all r /\ fo_st x = st' /\ fo_tls x = t'
     | UB u => frame2450 o a r st t = UB u end.
Proof.
  intros o a r st t HR. destruct (ambe_exact r HR) as (fr' & E).
  unfold frame2450, mbe_processAmbe3600x2450Framef. rewrite E. cbn [bind].
  unfold do2450, ambe_meant. cbn [ac_buf ac_errors ac_bits ac_uv ac_c0 ac_known].
  destruct (mbe_processAmbe2450Dataf_internal _ _ _ _ _ _ _ _ _ _) as [[[[b s] st'] t']|u]; [|reflexivity].
  eexists. split; [reflexivity|]. repeat split.
Qed.
Lemma one2400 : forall o a r st t, ambe_received r -> match do2400 o a (ambe_meant r) st t with
     | Ok (b, s, st', t') => exists x, frame2400 o a r st t = Ok x /\ fo_aout x = b /\ fo_str x = s /\ fo_errs x = ambe_first r /\ fo_errs2 x = ambe_all r /\ fo_st x = st' /\ fo_tls x = t'
     | UB u => frame2400 o a r st t = UB u end.
Proof.
  intros o a r st t HR. destruct (ambe_exact r HR) as (fr' & E).
  unfold frame2400, mbe_processAmbe3600x2400Framef. rewrite E. cbn [bind].
  unfold do2400, ambe_meant. cbn [ac_buf ac_errors ac_bits ac_uv ac_c0 ac_known].
  destruct (mbe_processAmbe2400Dataf _ _ _ _ _ _ _ _ _) as [[[[b s] st'] t']|u]; [|reflexivity].
  eexists. split; [reflexivity|]. repeat split.
Qed.

Lemma run7200 : forall o a rs st t, Forall imbe7200_received rs ->
  frames (frame7200 o a) rs st t = datas (meant7200 o a) imbe7200_first imbe7200_all rs st t.
Proof. intros o a rs st t H. exact (frames_datas _ _ _ _ _ (one7200 o a) rs st t H). Qed.
Lemma run7100 : forall o a rs st t, Forall imbe7100_received rs ->
  frames (frame7100 o a) rs st t = datas (meant7100 o a) imbe7100_first imbe7100_all rs st t.
Proof. intros o a rs st t H. exact (frames_datas _ _ _ _ _ (one7100 o a) rs st t H). Qed.
Lemma run2450 : forall o a rs st t, Forall ambe_received rs ->
  frames (frame2450 o a) rs st t = datas (fun r => do2450 o a (ambe_meant r)) ambe_first ambe_all rs st t.
Proof. intros o a rs st t H. exact (frames_datas _ _ _ _ _ (one2450 o a) rs st t H). Qed.
Lemma run2400 : forall o a rs st t, Forall ambe_received rs ->
  frames (frame2400 o a) rs st t = datas (fun r => do2400 o a (ambe_meant r)) ambe_first ambe_all rs st t.
Proof. intros o a rs st t H. exact (frames_datas _ _ _ _ _ (one2400 o a) rs st t H). Qed.

(* ---- any frame ---- *)
Lemma any7200 : forall o a fr d0 buf uv st t, imbe7200_frame fr -> length d0 = 88%nat ->
  exists d c0 n c4, is_bits 88 d /\ 0 <= c0 <= 3 /\ c0 <= n <= 15 /\ 0 <= c4 <= 1 /\
    amounts_to (mbe_processImbe7200x4400Framef o a buf fr d0 st uv t)
      (imbe_do o a (mkimbe_call d n c0 true uv buf) (set_errorCount4 c4 (cur_of st), prev_of st, enh_of st) t) c0 n d.
Proof.
  intros o a fr d0 buf uv st t HF L. destruct (imbe7200_bounds fr d0 HF L) as (fr' & c0 & n & c4 & d & E & B & H0 & H2 & H4).
  exists d, c0, n, c4. do 4 (split; [assumption|]). unfold mbe_processImbe7200x4400Framef. rewrite E. cbn [bind]. rewrite set_cur_4.
  unfold imbe_do, amounts_to. cbn [ic_buf ic_errors ic_bits ic_uv ic_c0 ic_c0_known].
  destruct (mbe_processImbe4400Dataf_withC0 _ _ _ _ _ _ _ _ _ _) as [[[[b s] st'] t']|u]; [|reflexivity].
  eexists. split; [reflexivity|]. repeat split.
Qed.
Lemma any7100 : forall o a fr d0 buf uv st t, imbe7100_frame fr -> length d0 = 88%nat ->
  exists d c0 n c4, is_bits 88 d /\ 0 <= c0 <= 3 /\ c0 <= n <= 14 /\ 0 <= c4 <= 1 /\
    amounts_to (mbe_processImbe7100x4400Framef o a buf fr d0 st uv t)
      (imbe_do o a (mkimbe_call d n c0 true uv buf) (set_errorCount4 c4 (cur_of st), prev_of st, enh_of st) t) c0 n d.
Proof.
  intros o a fr d0 buf uv st t HF L. destruct (imbe7100_bounds fr d0 HF L) as (fr' & c0 & n & c4 & d & E & B & H0 & H2 & H4).
  exists d, c0, n, c4. do 4 (split; [assumption|]). unfold mbe_processImbe7100x4400Framef. rewrite E. cbn [bind]. rewrite set_cur_4.
  unfold imbe_do, amounts_to. cbn [ic_buf ic_errors ic_bits ic_uv ic_c0 ic_c0_known].
  destruct (mbe_processImbe4400Dataf_withC0 _ _ _ _ _ _ _ _ _ _) as [[[[b s] st'] t']|u]; [|reflexivity].
  eexists. split; [reflexivity|]. repeat split.
Qed.
Lemma any2450 : forall o a fr d0 buf uv st t, ambe_frame fr -> length d0 = 49%nat ->
  exists d c0 n, is_bits 49 d /\ 0 <= c0 <= 3 /\ c0 <= n <= 6 /\
    amounts_to (mbe_processAmbe3600x2450Framef o a buf fr d0 st uv t) (do2450 o a (mkambe_call d n c0 true uv buf) st t) c0 n d.
Proof.
  intros o a fr d0 buf uv st t HF L. destruct (ambe_bounds fr d0 HF L) as (fr' & c0 & n & d & E & B & H0 & H2).
  exists d, c0, n. do 3 (split; [assumption|]). unfold mbe_processAmbe3600x2450Framef. rewrite E. cbn [bind].
  unfold do2450, amounts_to. cbn [ac_buf ac_errors ac_bits ac_uv ac_c0 ac_known].
  destruct (mbe_processAmbe2450Dataf_internal _ _ _ _ _ _ _ _ _ _) as [[[[b s] st'] t']|u]; [|reflexivity].
  eexists. split; [reflexivity|]. repeat split.
Qed.
Lemma any2400 : forall o a fr d0 buf uv st t, ambe_frame fr -> length d0 = 49%nat ->
  exists d c0 n, is_bits 49 d /\ 0 <= c0 <= 3 /\ c0 <= n <= 6 /\
    amounts_to (mbe_processAmbe3600x2400Framef o a buf fr d0 st uv t) (do2400 o a (mkambe_call d n c0 true uv buf) st t) c0 n d.
Proof.
  intros o a fr d0 buf uv st t HF L. destruct (ambe_bounds fr d0 HF L) as (fr' & c0 & n & d & E & B & H0 & H2).
  exists d, c0, n. do 3 (split; [assumption|]). unfold mbe_processAmbe3600x2400Framef. rewrite E. cbn [bind].
  unfold do2400, amounts_to. cbn [ac_buf ac_errors ac_bits ac_uv ac_c0 ac_known].
  destruct (mbe_processAmbe2400Dataf _ _ _ _ _ _ _ _ _) as [[[[b s] st'] t']|u]; [|reflexivity].
  eexists. split; [reflexivity|]. repeat split.
Qed.

(* ---- concrete receptions with errors ---- *)
Definition hit (k n : nat) (r : list Z) : list Z := firstn k r ++ map (Z.sub 1) (slice k n r) ++ skipn (k + n) r.
Lemma row_check : forall w n r, Nat.eqb (length r) w && forallb (fun b => (b =? 0) || (b =? 1)) (firstn n r) = true -> row w n r.
Proof.
  intros w n r H. apply andb_true_iff in H. destruct H as [H1 H2]. split; [now apply Nat.eqb_eq|].
  apply Forall_forall. intros x Hx. rewrite forallb_forall in H2. specialize (H2 x Hx). apply orb_true_iff in H2.
  destruct H2 as [H2|H2]; apply Z.eqb_eq in H2; unfold is_bit; auto.
Qed.
Lemma zero_word : golay_word (repeat 0 23).
Proof. split; [apply is_bits_check; reflexivity|]. exists 0. split; [lia|reflexivity]. Qed.
Definition ambe_zero : list (list Z) := [repeat 0 24; scramble (keybits 0 23) (repeat 0 23) ++ [0]; repeat 0 24; repeat 0 24].
Definition ambe_hit : reception := mkrx (repeat 0 49) ambe_zero
  [hit 10 3 (repeat 0 24); hit 20 3 (nth 1 ambe_zero []); repeat 0 24; repeat 0 24] (repeat 0 49) 3 (repeat fzero 160).
Lemma ambe_hit_ok : ambe_received ambe_hit /\ ambe_first ambe_hit = 1 /\ ambe_all ambe_hit = 4.
Proof.
  split; [|split; vm_compute; reflexivity]. unfold ambe_received, ambe_hit. cbn [rx_params rx_sent rx_got rx_scratch].
  split; [apply is_bits_check; reflexivity|]. split.
  { eexists _, _, _, _, (repeat 0 23). split; [reflexivity|]. split; [exact zero_word|]. split; [reflexivity|]. split; [exact zero_word|].
    repeat split; vm_compute; reflexivity. }
  split. { eexists _, _, _, _. split; [reflexivity|]. split; [|split; [|split]]; apply row_check; vm_compute; reflexivity. }
  split; [|reflexivity]. eexists _, _, _, _, _, _, _, _. split; [reflexivity|]. split; [reflexivity|].
  split; [vm_compute; discriminate|]. split; [vm_compute; discriminate|]. split; reflexivity.
Qed.

Definition imbe7200_zero : list (list Z) := imbe7200_scramble (repeat (repeat 0 23) 8).
Definition imbe7200_hit : reception := mkrx (repeat 0 88) imbe7200_zero
  [hit 10 3 (nth 0 imbe7200_zero []); hit 20 3 (nth 1 imbe7200_zero []); nth 2 imbe7200_zero []; hit 4 1 (nth 3 imbe7200_zero []);
   hit 7 1 (nth 4 imbe7200_zero []); hit 1 1 (nth 5 imbe7200_zero []); nth 6 imbe7200_zero []; hit 9 9 (nth 7 imbe7200_zero [])] (repeat 0 88) 3 (repeat fzero 160).
Lemma imbe7200_hit_ok : imbe7200_received imbe7200_hit /\ imbe7200_first imbe7200_hit = 2 /\ imbe7200_fifth imbe7200_hit = 1 /\ imbe7200_all imbe7200_hit = 7.
Proof.
  split; [|repeat split; vm_compute; reflexivity]. unfold imbe7200_received, imbe7200_hit. cbn [rx_params rx_sent rx_got rx_scratch].
  split; [apply is_bits_check; reflexivity|]. split.
  { exists (repeat (repeat 0 23) 8). split; [|reflexivity]. eexists _, _, _, _, _, _, _, _. split; [reflexivity|].
    repeat (split; [first [exact zero_word|reflexivity|split; [apply is_bits_check; reflexivity|reflexivity]]|]). reflexivity. }
  split. { eexists _, _, _, _, _, _, _, _. split; [reflexivity|]. repeat (split; [apply row_check; vm_compute; reflexivity|]). apply row_check; vm_compute; reflexivity. }
  split. { eexists _, _, _, _, _, _, _, _. split; [reflexivity|]. repeat (split; [apply row_check; vm_compute; reflexivity|]). apply row_check; vm_compute; reflexivity. }
  split; [|reflexivity]. do 16 eexists. split; [reflexivity|]. split; [reflexivity|].
  repeat (split; [vm_compute; discriminate|]). reflexivity.
Qed.

Definition imbe7100_zero : list (list Z) := imbe7100_scramble (repeat (repeat 0 24) 7).
Definition imbe7100_hit : reception := mkrx (repeat 0 88) imbe7100_zero
  [hit 12 3 (nth 0 imbe7100_zero []); hit 20 3 (nth 1 imbe7100_zero []); nth 2 imbe7100_zero []; hit 4 1 (nth 3 imbe7100_zero []);
   hit 7 1 (nth 4 imbe7100_zero []); hit 1 1 (nth 5 imbe7100_zero []); nth 6 imbe7100_zero []] (repeat 0 88) 3 (repeat fzero 160).
Lemma imbe7100_hit_ok : imbe7100_received imbe7100_hit /\ imbe7100_first imbe7100_hit = 3 /\ imbe7100_fifth imbe7100_hit = 1 /\ imbe7100_all imbe7100_hit = 8.
Proof.
  split; [|repeat split; vm_compute; reflexivity]. unfold imbe7100_received, imbe7100_hit. cbn [rx_params rx_sent rx_got rx_scratch].
  split; [apply is_bits_check; reflexivity|]. split.
  { exists (repeat (repeat 0 24) 7). split; [|reflexivity]. eexists _, _, _, _, _, _, _. split; [reflexivity|].
    repeat (split; [first [exact zero_word|reflexivity|split; [apply is_bits_check; reflexivity|exists 0; split; [lia|reflexivity]]]|]). reflexivity. }
  split. { eexists _, _, _, _, _, _, _. split; [reflexivity|]. repeat (split; [apply row_check; vm_compute; reflexivity|]). apply row_check; vm_compute; reflexivity. }
  split. { eexists _, _, _, _, _, _, _. split; [reflexivity|]. repeat (split; [apply row_check; vm_compute; reflexivity|]). apply row_check; vm_compute; reflexivity. }
  split; [|reflexivity]. do 14 eexists. split; [reflexivity|]. split; [reflexivity|].
  repeat (split; [vm_compute; discriminate|]). reflexivity.
Qed.
