(* Proofs about initialisation, copying, the version string and the status string. *)
From Coq Require Import ZArith List Bool Lia.
From Verif Require Import Res F32 MEcc MFrame MParms MAdaptive MUnvoiced MSynth MImbe MAmbe PRun SpecState.
Import ListNotations.
Local Open Scope Z_scope.

(* ---- initialisation ---- *)

Definition filled {A} (n : nat) (k : Z) (v : A) (a : list A) : Prop :=
  length a = n /\ forall i, 0 <= i < k -> rd a i = Ok v.

Lemma filled_step : forall {A} n k (v : A) a, filled n k v a -> 0 <= k < Z.of_nat n ->
  exists a', wr a k v = Ok a' /\ filled n (k + 1) v a'.
Proof.
  intros A n k v a [L H] Hk. exists (set_nth (Z.to_nat k) v a).
  assert (W : wr a k v = Ok (set_nth (Z.to_nat k) v a)) by (apply wr_ok; lia).
  split; [exact W|]. split; [rewrite set_nth_length; exact L|]. intros i Hi.
  destruct (Z.eq_dec i k) as [->|N]; [exact (rd_wr_same _ _ _ _ W)|].
  rewrite (rd_wr_other _ _ i _ _ W) by lia. apply H. lia.
Qed.

Lemma filled_all : forall {A} n (v : A) a, filled n (Z.of_nat n) v a -> a = repeat v n.
Proof.
  intros A n v a [L H]. apply list_eq_nth; [rewrite repeat_length; exact L|]. intros i Hi.
  specialize (H (Z.of_nat i) ltac:(lia)). apply rd_inv in H as [_ H]. rewrite Nat2Z.id in H. rewrite H.
  symmetry. rewrite L in Hi. clear - Hi. revert i Hi. induction n as [|n IH]; intros [|i] Hi; cbn; try lia; [reflexivity|].
  apply IH. lia.
Qed.

Lemma filled_zero : forall {A} n (v : A) a, length a = n -> filled n 0 v a.
Proof. intros A n v a L. split; [exact L|]. intros i Hi. lia. Qed.

Definition with_bands (m : parms) (a : list f32) (b : list Z) (c d e : list f32) : parms :=
  set_PSIl e (set_PHIl d (set_log2Ml c (set_Vl b (set_Ml a m)))).

Lemma init_bands_ok : forall m, wf_parms m -> init_bands m =
  Ok (with_bands m (repeat fone 57) (repeat 0 57) (repeat fzero 57) (repeat fzero 57) (repeat fzero 57)).
Proof.
  intros m (LV & LM & LG & LP & LS & _). unfold init_bands.
  destruct (for_up_ok (fun k m' => exists a b c d e, m' = with_bands m a b c d e /\
      filled 57 k fone a /\ filled 57 k 0 b /\ filled 57 k fzero c /\ filled 57 k fzero d /\ filled 57 k fzero e)
    (fun (l : Z) (m0 : parms) =>
      a <- wr (p_Ml m0) l fone ;; b <- wr (p_Vl m0) l 0 ;; c <- wr (p_log2Ml m0) l fzero ;;
      d <- wr (p_PHIl m0) l fzero ;; e <- wr (p_PSIl m0) l fzero ;;
      Ok (set_PSIl e (set_PHIl d (set_log2Ml c (set_Vl b (set_Ml a m0)))))) 0 57 m) as (m' & Hm' & HP); [lia| | |].
  - intros k m' Hk (a & b & c & d & e & -> & Fa & Fb & Fc & Fd & Fe).
    destruct (filled_step _ _ _ _ Fa) as (a' & Wa & Fa'); [lia|].
    destruct (filled_step _ _ _ _ Fb) as (b' & Wb & Fb'); [lia|].
    destruct (filled_step _ _ _ _ Fc) as (c' & Wc & Fc'); [lia|].
    destruct (filled_step _ _ _ _ Fd) as (d' & Wd & Fd'); [lia|].
    destruct (filled_step _ _ _ _ Fe) as (e' & We & Fe'); [lia|].
    exists (with_bands m a' b' c' d' e'). split.
    + unfold with_bands. cbn [p_Ml p_Vl p_log2Ml p_PHIl p_PSIl set_Ml set_Vl set_log2Ml set_PHIl set_PSIl].
      rewrite Wa, Wb, Wc, Wd, We. reflexivity.
    + exists a', b', c', d', e'. repeat (split; [first [reflexivity|assumption]|]); assumption.
  - exists (p_Ml m), (p_Vl m), (p_log2Ml m), (p_PHIl m), (p_PSIl m).
    split; [destruct m; reflexivity|]. repeat split; try assumption; intros; lia.
  - rewrite Hm'. destruct HP as (a & b & c & d & e & -> & Fa & Fb & Fc & Fd & Fe).
    apply (filled_all 57) in Fa, Fb, Fc, Fd, Fe. subst. reflexivity.
Qed.

Lemma default_w0_val : default_w0 = S754_finite false 9721209 (-27). Proof. vm_compute. reflexivity. Qed.
Lemma default_L_val : L_of_w0 (S754_finite false 9721209 (-27)) = Ok 39. Proof. vm_compute. reflexivity. Qed.

Lemma init_mbe : forall cur prev enh, wf_parms prev ->
  mbe_initMbeParms cur prev enh = Ok (imbe_initial, imbe_initial, imbe_initial).
Proof.
  intros cur prev enh W. unfold mbe_initMbeParms. cbn [p_w0 set_w0]. rewrite default_w0_val, default_L_val.
  cbn [bind]. rewrite init_bands_ok by exact W. cbn [bind]. destruct prev. reflexivity.
Qed.

Lemma init_ambe : forall cur prev enh, wf_parms prev ->
  mbe_initAmbeParms_common cur prev enh = Ok (ambe_initial, ambe_initial, ambe_initial).
Proof.
  intros cur prev enh W. unfold mbe_initAmbeParms_common. rewrite init_bands_ok by exact W. cbn [bind].
  replace ambe_default_w0 with (S754_finite false 10349030 (-24)) by (vm_compute; reflexivity).
  destruct prev. reflexivity.
Qed.

Lemma imbe_initial_wf : wf_parms imbe_initial. Proof. repeat split; reflexivity. Qed.
Lemma ambe_initial_wf : wf_parms ambe_initial. Proof. repeat split; reflexivity. Qed.

(* ---- version string ---- *)

Lemma snprintf_spec : forall s (pre str : list Z) size, Z.of_nat (length pre) <= size - 1 ->
  (length str >= Z.to_nat size - length pre)%nat -> 1 <= size ->
  snprintf_s (pre ++ str) (Z.of_nat (length pre)) size s =
  Ok (pre ++ firstn (Z.to_nat (size - 1) - length pre) s ++ [0]
        ++ skipn (Nat.min (Z.to_nat (size - 1) - length pre) (length s) + 1) str).
Proof.
  assert (W0 : forall pre (str : list Z) v, str <> [] ->
    wr (pre ++ str) (Z.of_nat (length pre)) v = Ok (pre ++ v :: skipn 1 str)).
  { intros pre str v Hs. destruct str as [|x str]; [congruence|].
    rewrite wr_ok by (rewrite app_length; cbn; lia). f_equal. rewrite Nat2Z.id. clear.
    induction pre as [|y pre IH]; cbn; [reflexivity|]. now rewrite IH. }
  induction s as [|c s IH]; intros pre str size Hp Hs Hsz; cbn [snprintf_s].
  - assert (str <> []) by (intros ->; cbn in Hs; lia). rewrite W0 by assumption.
    rewrite firstn_nil. cbn [length]. rewrite Nat.min_0_r. reflexivity.
  - assert (Hne : str <> []) by (intros ->; cbn in Hs; lia).
    destruct (Z.of_nat (length pre) <? size - 1) eqn:E.
    + apply Z.ltb_lt in E. rewrite W0 by assumption. cbn [bind].
      destruct str as [|x str]; [congruence|]. cbn [skipn].
      replace (pre ++ c :: str) with ((pre ++ [c]) ++ str) by (rewrite <- app_assoc; reflexivity).
      replace (Z.of_nat (length pre) + 1) with (Z.of_nat (length (pre ++ [c]))) by (rewrite app_length; cbn; lia).
      assert (Lc : length (pre ++ [c]) = S (length pre)) by (rewrite app_length; cbn; lia).
      rewrite IH; [|lia| |lia].
      * rewrite Lc. replace (Z.to_nat (size - 1) - length pre)%nat with (S (Z.to_nat (size - 1) - S (length pre))) by lia.
        cbn [firstn length Nat.min Nat.add skipn]. rewrite <- app_assoc. reflexivity.
      * cbn [length] in Hs. lia.
    + apply Z.ltb_ge in E. rewrite W0 by assumption.
      replace (Z.to_nat (size - 1) - length pre)%nat with 0%nat by lia. reflexivity.
Qed.

Lemma version_spec : forall version str, (32 <= length str)%nat ->
  mbe_printVersion version str = Ok (firstn 31 version ++ [0] ++ skipn (Nat.min 31 (length version) + 1) str).
Proof.
  intros version str H. unfold mbe_printVersion. pose proof (snprintf_spec version [] str 32) as S.
  cbn [length app] in S. change (Z.of_nat 0) with 0 in S. rewrite S; [reflexivity|lia|lia|lia].
Qed.

(* ---- status strings ---- *)

(* replace the condition c of an if in H by its value; only iota steps are left to the kernel *)
Ltac pick H c v tac := let E := fresh "E" in assert (E : c = v) by tac; rewrite E in H; clear E; cbv iota in H.

Lemma imbe_status : forall o a aout errs2 d st uv c0 cv t aout' str st' t',
  mbe_processImbe4400Dataf_withC0 o a aout errs2 d st uv c0 cv t = Ok (aout', str, st', t') ->
  status_string imbe_markers errs2 str.
Proof.
  intros o a aout errs2 d [[cur prev] enh] uv c0 cv t aout' str st' t' H.
  unfold mbe_processImbe4400Dataf_withC0 in H.
  apply bind_inv in H as ([[[c p] rep] mut] & _ & H).
  apply bind_inv in H as ([c1 t1] & _ & H).
  apply bind_inv in H as ([[[a2 c2] e2] t2] & _ & H).
  injection H as <- <- <- <-. unfold status_string.
  exists ((if rep then [ch_R] else []) ++ (if mut then [ch_M] else [])). split.
  - destruct rep, mut; cbn; tauto.
  - unfold eq_run, ch_eq. now rewrite <- app_assoc.
Qed.

Lemma ambe_bad_values_2450 : forall o d cur prev e bad cur' prev',
  mbe_decodeAmbe2450ParmsInternal o d cur prev e = Ok (bad, cur', prev') -> bad = 0 \/ bad = 2 \/ bad = 7.
Proof.
  intros o d cur prev e bad cur' prev' H. unfold mbe_decodeAmbe2450ParmsInternal in H.
  apply bind_inv in H as (tv & _ & H). apply bind_inv in H as (b0 & _ & H).
  destruct (tv && (e <? 6)); [injection H as <- _ _; tauto|].
  destruct ((120 <=? b0) && (b0 <=? 123)); [injection H as <- _ _; tauto|].
  destruct ((b0 =? 126) || (b0 =? 127)); [injection H as <- _ _; tauto|].
  apply bind_inv in H as ([c u] & _ & H).
  do 7 apply bind_inv in H as (? & _ & H).
  apply bind_inv in H as ([c2 p2] & _ & H). injection H as <- _ _. tauto.
Qed.

Lemma ambe2450_status : forall o a aout errs2 d st uv c0 cv t aout' str st' t',
  mbe_processAmbe2450Dataf_internal o a aout errs2 d st uv c0 cv t = Ok (aout', str, st', t') ->
  status_string ambe_markers errs2 str.
Proof.
  intros o a aout errs2 d [[cur prev] enh] uv c0 cv t aout' str st' t' H.
  unfold mbe_processAmbe2450Dataf_internal in H.
  apply bind_inv in H as ([[cu pr] en] & _ & H).
  apply bind_inv in H as ([[bad c1] p1] & Hd & H). apply ambe_bad_values_2450 in Hd.
  apply bind_inv in H as ([c2 mark] & Hm & H).
  apply bind_inv in H as ([[[a3 mark3] s3] t3] & Hs & H).
  injection H as <- <- <- <-. exists mark3. split; [|reflexivity].
  destruct (bad =? 2) eqn:B2.
  { apply bind_inv in Hm as (c3 & _ & Hm). injection Hm as _ <-.
    pick Hs (bad =? 0) false lia. pick Hs (bad =? 7) false lia.
    apply bind_inv in Hs as ([a4 t4] & _ & Hs). injection Hs as _ <- _ _. cbn. tauto. }
  destruct (bad =? 7) eqn:B7.
  { pick Hm ((bad =? 3) || true) true ltac:(destruct (bad =? 3); reflexivity). injection Hm as _ <-.
    pick Hs (bad =? 0) false lia. apply bind_inv in Hs as (v & _ & Hs). destruct v.
    + apply bind_inv in Hs as ([a4 t4] & _ & Hs). injection Hs as _ <- _ _. cbn. tauto.
    + destruct (negb (mbe_isMaxFrameRepeat p1)).
      * apply bind_inv in Hs as ([[[a4 s4] e4] t4] & _ & Hs). injection Hs as _ <- _ _. cbn. tauto.
      * apply bind_inv in Hs as ([[a4 s4] t4] & _ & Hs). injection Hs as _ <- _ _. cbn. tauto. }
  pick Hm ((bad =? 3) || false) false lia. pick Hs (bad =? 0) true lia.
  destruct (ambe2450_repeat_required errs2 c0 cv).
  - apply bind_inv in Hm as (c3 & _ & Hm). injection Hm as <- <-.
    destruct (p_repeat c3 <=? 3);
      apply bind_inv in Hs as ([[a4 s4] t4] & _ & Hs); injection Hs as _ <- _ _; cbn; tauto.
  - injection Hm as <- <-. pick Hs (p_repeat (clear_repeat c1) <=? 3) true reflexivity.
    apply bind_inv in Hs as ([[a4 s4] t4] & _ & Hs). injection Hs as _ <- _ _. cbn. tauto.
Qed.

Lemma ambe2400_bad_values : forall o d cur prev bad cur' prev',
  mbe_decodeAmbe2400Parms o d cur prev = Ok (bad, cur', prev') -> bad = 0 \/ bad = 3 \/ 5 <= bad <= 122.
Proof.
  intros o d cur prev bad cur' prev' H. unfold mbe_decodeAmbe2400Parms in H.
  apply bind_inv in H as (b0 & _ & H). destruct (Z.land b0 126 =? 126).
  - apply bind_inv in H as (b1 & _ & H).
    destruct ((5 <=? b1) && (b1 <=? 122)) eqn:E; [injection H as <- _ _; lia|].
    destruct ((128 <=? b1) && (b1 <=? 163)); [injection H as <- _ _; tauto|].
    apply bind_inv in H as (V & _ & H). injection H as <- _ _. tauto.
  - apply bind_inv in H as ([c u] & _ & H).
    do 7 apply bind_inv in H as (? & _ & H).
    apply bind_inv in H as ([c2 p2] & _ & H). injection H as <- _ _. tauto.
Qed.

Lemma ambe2400_status : forall o a aout errs errs2 d st uv t aout' str st' t',
  mbe_processAmbe2400Dataf o a aout errs errs2 d st uv t = Ok (aout', str, st', t') ->
  status_string ambe_markers errs2 str.
Proof.
  intros o a aout errs errs2 d [[cur prev] enh] uv t aout' str st' t' H.
  unfold mbe_processAmbe2400Dataf in H.
  apply bind_inv in H as ([[cu pr] en] & _ & H).
  apply bind_inv in H as ([[bad c1] p1] & Hd & H). apply ambe2400_bad_values in Hd.
  apply bind_inv in H as ([[[a2 c2] p2] mark] & Hm & H).
  apply bind_inv in H as ([[[a3 mark3] s3] t3] & Hs & H).
  injection H as <- <- <- <-. exists mark3. split; [|reflexivity].
  assert (B2 : (bad =? 2) = false) by lia. rewrite B2 in Hm, Hs.
  destruct (bad =? 0) eqn:B0.
  - pick Hm (bad =? 3) false lia.
    pick Hm ((7 <=? bad) && (bad <=? 122) && (errs <? 2) && (errs2 <? 3)) false lia.
    destruct (3 <? errs2).
    + apply bind_inv in Hm as (c3 & _ & Hm). injection Hm as _ <- _ <-.
      destruct (p_repeat c3 <=? 3);
        apply bind_inv in Hs as ([[a4 s4] t4] & _ & Hs); injection Hs as _ <- _ _; cbn; tauto.
    + injection Hm as _ <- _ <-. pick Hs (p_repeat (clear_repeat c1) <=? 3) true reflexivity.
      apply bind_inv in Hs as ([[a4 s4] t4] & _ & Hs). injection Hs as _ <- _ _. cbn. tauto.
  - apply bind_inv in Hs as ([[a4 s4] t4] & _ & Hs). injection Hs as _ <- _ _.
    destruct (bad =? 3); [injection Hm as _ _ _ <-; cbn; tauto|].
    destruct ((7 <=? bad) && (bad <=? 122) && (errs <? 2) && (errs2 <? 3)).
    + apply bind_inv in Hm as ([a5 c5] & _ & Hm). injection Hm as _ _ _ <-. cbn. tauto.
    + destruct (3 <? errs2); [|injection Hm as _ _ _ <-; cbn; tauto].
      apply bind_inv in Hm as (c5 & _ & Hm). injection Hm as _ _ _ <-. cbn. tauto.
Qed.

Lemma status_length : forall ms n s, (forall m, In m ms -> (length m <= 2)%nat) -> status_string ms n s ->
  (length s <= Z.to_nat n + 3)%nat.
Proof.
  intros ms n s Hm (m & Hin & ->). rewrite !app_length, repeat_length. apply Hm in Hin. cbn. lia.
Qed.
Lemma imbe_markers_short : forall m, In m imbe_markers -> (length m <= 2)%nat.
Proof. intros m [<-|[<-|[<-|[<-|[]]]]]; cbn; lia. Qed.
Lemma ambe_markers_short : forall m, In m ambe_markers -> (length m <= 2)%nat.
Proof. intros m [<-|[<-|[<-|[<-|[<-|[]]]]]]; cbn; lia. Qed.

(* ---- frame entry points ---- *)
From Verif Require Import SpecFrame PFrame7100.

Lemma frame2450_status : forall o a aout fr d st uv t r, ambe_frame fr -> length d = 49%nat ->
  mbe_processAmbe3600x2450Framef o a aout fr d st uv t = Ok r ->
  status_string ambe_markers (fo_errs2 r) (fo_str r) /\ 0 <= fo_errs r <= 3 /\ fo_errs r <= fo_errs2 r <= 6.
Proof.
  intros o a aout fr d st uv t r Hf Hd H. unfold mbe_processAmbe3600x2450Framef in H.
  destruct (ambe_bounds fr d Hf Hd) as (fr' & e & e2 & d' & He & _ & B1 & B2). rewrite He in H. cbn [bind] in H.
  apply bind_inv in H as ([[[a1 s1] st1] t1] & Hp & H). injection H as <-. cbn [fo_errs2 fo_errs fo_str].
  split; [exact (ambe2450_status _ _ _ _ _ _ _ _ _ _ _ _ _ _ Hp)|]. split; assumption.
Qed.
Lemma frame2400_status : forall o a aout fr d st uv t r, ambe_frame fr -> length d = 49%nat ->
  mbe_processAmbe3600x2400Framef o a aout fr d st uv t = Ok r ->
  status_string ambe_markers (fo_errs2 r) (fo_str r) /\ 0 <= fo_errs r <= 3 /\ fo_errs r <= fo_errs2 r <= 6.
Proof.
  intros o a aout fr d st uv t r Hf Hd H. unfold mbe_processAmbe3600x2400Framef in H.
  destruct (ambe_bounds fr d Hf Hd) as (fr' & e & e2 & d' & He & _ & B1 & B2). rewrite He in H. cbn [bind] in H.
  apply bind_inv in H as ([[[a1 s1] st1] t1] & Hp & H). injection H as <-. cbn [fo_errs2 fo_errs fo_str].
  split; [exact (ambe2400_status _ _ _ _ _ _ _ _ _ _ _ _ _ Hp)|]. split; assumption.
Qed.
Lemma frame7200_status : forall o a aout fr d st uv t r, imbe7200_frame fr -> length d = 88%nat ->
  mbe_processImbe7200x4400Framef o a aout fr d st uv t = Ok r ->
  status_string imbe_markers (fo_errs2 r) (fo_str r) /\ 0 <= fo_errs r <= 3 /\ fo_errs r <= fo_errs2 r <= 15.
Proof.
  intros o a aout fr d st uv t r Hf Hd H. unfold mbe_processImbe7200x4400Framef in H.
  destruct (imbe7200_bounds fr d Hf Hd) as (fr' & e & e2 & c4 & d' & He & _ & B1 & B2 & _). rewrite He in H. cbn [bind] in H.
  apply bind_inv in H as ([[[a1 s1] st1] t1] & Hp & H). injection H as <-. cbn [fo_errs2 fo_errs fo_str].
  split; [exact (imbe_status _ _ _ _ _ _ _ _ _ _ _ _ _ _ Hp)|]. split; assumption.
Qed.
Lemma frame7100_status : forall o a aout fr d st uv t r, imbe7100_frame fr -> length d = 88%nat ->
  mbe_processImbe7100x4400Framef o a aout fr d st uv t = Ok r ->
  status_string imbe_markers (fo_errs2 r) (fo_str r) /\ 0 <= fo_errs r <= 3 /\ fo_errs r <= fo_errs2 r <= 14.
Proof.
  intros o a aout fr d st uv t r Hf Hd H. unfold mbe_processImbe7100x4400Framef in H.
  destruct (imbe7100_bounds fr d Hf Hd) as (fr' & e & e2 & c4 & d' & He & _ & B1 & B2 & _). rewrite He in H. cbn [bind] in H.
  apply bind_inv in H as ([[[a1 s1] st1] t1] & Hp & H). injection H as <-. cbn [fo_errs2 fo_errs fo_str].
  split; [exact (imbe_status _ _ _ _ _ _ _ _ _ _ _ _ _ _ Hp)|]. split; assumption.
Qed.

Definition bounded_status (max1 max2 : Z) {S} (r : frame_out S) : Prop :=
  (length (fo_str r) <= Z.to_nat (fo_errs2 r) + 3)%nat /\ 0 <= fo_errs r <= 3 /\ fo_errs r <= fo_errs2 r <= max1
  /\ Z.of_nat (length (fo_str r)) <= max2.
Lemma bounded_status_of : forall ms max1 {S} (r : frame_out S), (forall m, In m ms -> (length m <= 2)%nat) ->
  status_string ms (fo_errs2 r) (fo_str r) /\ 0 <= fo_errs r <= 3 /\ fo_errs r <= fo_errs2 r <= max1 ->
  bounded_status max1 (max1 + 3) r.
Proof.
  intros ms max1 S r Hm (Hs & H1 & H2). pose proof (status_length _ _ _ Hm Hs) as HL. unfold bounded_status. lia.
Qed.
Lemma frame2450_bounded : forall o a aout fr d st uv t r, ambe_frame fr -> length d = 49%nat ->
  mbe_processAmbe3600x2450Framef o a aout fr d st uv t = Ok r -> bounded_status 6 9 r.
Proof. intros. apply (bounded_status_of ambe_markers 6); [exact ambe_markers_short|]. eapply frame2450_status; eassumption. Qed.
Lemma frame2400_bounded : forall o a aout fr d st uv t r, ambe_frame fr -> length d = 49%nat ->
  mbe_processAmbe3600x2400Framef o a aout fr d st uv t = Ok r -> bounded_status 6 9 r.
Proof. intros. apply (bounded_status_of ambe_markers 6); [exact ambe_markers_short|]. eapply frame2400_status; eassumption. Qed.
Lemma frame7200_bounded : forall o a aout fr d st uv t r, imbe7200_frame fr -> length d = 88%nat ->
  mbe_processImbe7200x4400Framef o a aout fr d st uv t = Ok r -> bounded_status 15 18 r.
Proof. intros. apply (bounded_status_of imbe_markers 15); [exact imbe_markers_short|]. eapply frame7200_status; eassumption. Qed.
Lemma frame7100_bounded : forall o a aout fr d st uv t r, imbe7100_frame fr -> length d = 88%nat ->
  mbe_processImbe7100x4400Framef o a aout fr d st uv t = Ok r -> bounded_status 14 17 r.
Proof. intros. apply (bounded_status_of imbe_markers 14); [exact imbe_markers_short|]. eapply frame7100_status; eassumption. Qed.
