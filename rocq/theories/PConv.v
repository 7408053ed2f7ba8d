(* The 7100 to 7200 parameter conversion (imbe7100x4400.c:256-317). *)
From Coq Require Import ZArith List Bool Lia Permutation.
From Verif Require Import Res F32 MEcc MFrame SpecEcc SpecFrame PBase PEcc PHam PLoop PFrameAmbe PFrameImbe.
Import ListNotations.
Local Open Scope Z_scope.

Definition convert_tail (K : Z) (d : list Z) : res (list Z) :=
  let tmp := fresh 88 in
  c <- rd d 0 ;; tmp <- wr tmp 87 (Some c) ;;
  c <- rd d 42 ;; tmp <- wr tmp (48 + K) (Some c) ;;
  c <- rd d 43 ;; tmp <- wr tmp (49 + K) (Some c) ;;
  '(tmp, _, _) <- for_up 0 K (fun _ '(tmp, j, k) =>
      c <- rd d k ;; tmp <- wr tmp j (Some c) ;; Ok (tmp, j + 1, k + 1)) (tmp, 48, 44) ;;
  tmp <- convert_while 88 K d tmp 0 1 ;;
  t <- for_up 0 88 (fun i d => c <- rdi tmp i ;; wr d i c) d ;;
  Ok t.

Lemma convert_split : forall d, mbe_convertImbe7100to7200 d
  = (b0 <- read_b0 d [1; 2; 3; 4; 5; 6; 86; 87] ;;
     L <- imbe_L_of_w0 (imbe_w0_of_b0 b0) ;; K <- imbe_K_of_L L ;; convert_tail K d).
Proof. reflexivity. Qed.

Lemma band_table : forallb (fun b0 => match imbe_L_of_w0 (imbe_w0_of_b0 b0) with
    | Ok L => (L =? imbe_harmonics b0) && match imbe_K_of_L L with
       | Ok K => (K =? imbe_bands b0) && (3 <=? K) && (K <=? 12) | UB _ => false end
    | UB _ => false end) (zrange 256) = true.
Proof. vm_compute. reflexivity. Qed.

Lemma harmonics_of_b0 : forall b0, 0 <= b0 < 256 ->
  imbe_L_of_w0 (imbe_w0_of_b0 b0) = Ok (imbe_harmonics b0) /\ imbe_K_of_L (imbe_harmonics b0) = Ok (imbe_bands b0)
  /\ 3 <= imbe_bands b0 <= 12.
Proof.
  intros b0 H. pose proof (zrange_forallb 256 _ band_table b0 H) as E. cbv beta in E.
  destruct (imbe_L_of_w0 (imbe_w0_of_b0 b0)) as [L|]; [|discriminate E].
  apply andb_prop in E. destruct E as [E1 E]. apply Z.eqb_eq in E1. subst L.
  destruct (imbe_K_of_L (imbe_harmonics b0)) as [K|]; [|discriminate E].
  apply andb_prop in E. destruct E as [E E3]. apply andb_prop in E. destruct E as [E1 E2]. apply Z.eqb_eq in E1. subst K.
  rewrite Z.leb_le in E2, E3. auto.
Qed.

Lemma read_pitch7100 : forall d, is_bits 88 d -> read_b0 d [1; 2; 3; 4; 5; 6; 86; 87] = Ok (pitch7100 d).
Proof.
  intros d [L B]. unfold pitch7100. rewrite <- (strtol2_bits (slice 1 6 d ++ slice 86 2 d) []).
  - do 88 (destruct d as [|? d]; [discriminate L|]). destruct d; [reflexivity|discriminate L].
  - apply Forall_app. split; apply Forall_firstn, Forall_skipn, B.
  - intros E. apply (f_equal (@length Z)) in E. rewrite app_length, !slice_length in E by lia. discriminate E.
Qed.

Lemma read_pitch7200 : forall d, is_bits 88 d -> read_b0 d [0; 1; 2; 3; 4; 5; 85; 86] = Ok (pitch7200 d).
Proof.
  intros d [L B]. unfold pitch7200. rewrite <- (strtol2_bits (slice 0 6 d ++ slice 85 2 d) []).
  - do 88 (destruct d as [|? d]; [discriminate L|]). destruct d; [reflexivity|discriminate L].
  - apply Forall_app. split; apply Forall_firstn, Forall_skipn, B.
  - intros E. apply (f_equal (@length Z)) in E. rewrite app_length, !slice_length in E by lia. discriminate E.
Qed.

Lemma pitch7100_range : forall d, is_bits 88 d -> 0 <= pitch7100 d < 256.
Proof.
  intros d [L B]. apply (is_bits_val_range 8). split.
  - rewrite rev_length, app_length, !slice_length by lia. reflexivity.
  - apply Forall_rev, Forall_app. split; apply Forall_firstn, Forall_skipn, B.
Qed.

Lemma pitch7200_range : forall d, is_bits 88 d -> 0 <= pitch7200 d < 256.
Proof.
  intros d [L B]. apply (is_bits_val_range 8). split.
  - rewrite rev_length, app_length, !slice_length by lia. reflexivity.
  - apply Forall_rev, Forall_app. split; apply Forall_firstn, Forall_skipn, B.
Qed.

Ltac by_K K H := assert (K = 3 \/ K = 4 \/ K = 5 \/ K = 6 \/ K = 7 \/ K = 8 \/ K = 9 \/ K = 10 \/ K = 11 \/ K = 12)
  as [->|[->|[->|[->|[->|[->|[->|[->|[->| ->]]]]]]]]] by lia.

Lemma convert_tail_spec : forall K d, length d = 88%nat -> 3 <= K <= 12 ->
  convert_tail K d = Ok (reorder7200 (Z.to_nat K) d).
Proof.
  intros K d L H. do 88 (destruct d as [|? d]; [discriminate L|]). destruct d; [|discriminate L]. clear L.
  by_K K H; vm_compute; reflexivity.
Qed.

Lemma convert_spec : forall d, is_bits 88 d ->
  mbe_convertImbe7100to7200 d = Ok (reorder7200 (Z.to_nat (imbe_bands (pitch7100 d))) d).
Proof.
  intros d Hd. destruct (harmonics_of_b0 _ (pitch7100_range d Hd)) as (E1 & E2 & H).
  rewrite convert_split, read_pitch7100 by exact Hd. cbn [bind]. rewrite E1. cbn [bind]. rewrite E2. cbn [bind].
  apply convert_tail_spec; [apply Hd|exact H].
Qed.

(* reorder7200 as a choice of positions *)
Lemma slice_map : forall {A B} (f : A -> B) off n l, slice off n (map f l) = map f (slice off n l).
Proof. intros. unfold slice. now rewrite skipn_map, firstn_map. Qed.

Lemma reorder_map : forall {A B} (f : A -> B) K l, reorder7200 K (map f l) = map f (reorder7200 K l).
Proof. intros. unfold reorder7200. now rewrite !slice_map, !map_app. Qed.

Lemma list_as_map : forall (d : list Z), d = map (fun p => nth p d 0) (seq 0 (length d)).
Proof.
  intros d. apply nth_ext with (d := 0) (d' := 0); [now rewrite map_length, seq_length|].
  intros n Hn. transitivity (nth n (map (fun p => nth p d 0) (seq 0 (length d))) ((fun p => nth p d 0) 0%nat)).
  - rewrite (map_nth (fun p => nth p d 0)), seq_nth by exact Hn. reflexivity.
  - apply nth_indep. now rewrite map_length, seq_length.
Qed.

Lemma reorder_positions : forall K, 3 <= K <= 12 ->
  Permutation (reorder7200 (Z.to_nat K) (seq 0 88)) (seq 0 88).
Proof.
  intros K H. apply NoDup_Permutation_bis.
  - pose proof (fun l => NoDup_map_inv Z.of_nat l) as N. apply N. clear N.
    by_K K H; (match goal with |- NoDup ?l =>
      let r := eval vm_compute in l in change l with r; rewrite <- (eq_refl : nodup Z.eq_dec r = r); apply NoDup_nodup end).
  - by_K K H; apply Nat.leb_le; reflexivity.
  - intros x Hx. apply in_seq.
    assert (F : forallb (fun x => (0 <=? x)%nat && (x <? 0 + 88)%nat) (reorder7200 (Z.to_nat K) (seq 0 88)) = true)
      by (by_K K H; reflexivity).
    rewrite forallb_forall in F. specialize (F x Hx). apply andb_prop in F. destruct F as [F1 F2].
    apply Nat.leb_le in F1. apply Nat.ltb_lt in F2. lia.
Qed.

Lemma reorder_bits : forall K d, 3 <= K <= 12 -> is_bits 88 d -> is_bits 88 (reorder7200 (Z.to_nat K) d).
Proof.
  intros K d H [L B]. split.
  - unfold reorder7200. rewrite !app_length, !slice_length by lia. lia.
  - unfold reorder7200. repeat (apply Forall_app; split); apply Forall_firstn, Forall_skipn, B.
Qed.

Lemma reorder_pitch : forall K d, 3 <= K <= 12 -> length d = 88%nat -> pitch7200 (reorder7200 (Z.to_nat K) d) = pitch7100 d.
Proof.
  intros K d H L. unfold pitch7200, pitch7100. do 2 f_equal.
  do 88 (destruct d as [|? d]; [discriminate L|]). destruct d; [|discriminate L]. clear L.
  by_K K H; reflexivity.
Qed.

Lemma reorder_inj : forall K (d d' : list Z), 3 <= K <= 12 -> length d = 88%nat -> length d' = 88%nat ->
  reorder7200 (Z.to_nat K) d = reorder7200 (Z.to_nat K) d' -> d = d'.
Proof.
  intros K d d' H L L' E. rewrite (list_as_map d), (list_as_map d') in E. rewrite L, L', !reorder_map in E.
  rewrite (list_as_map d), (list_as_map d'), L, L'. apply map_ext_in. intros p Hp.
  pose proof (Permutation_in p (Permutation_sym (reorder_positions K H)) Hp) as Hq.
  revert E Hq. generalize (reorder7200 (Z.to_nat K) (seq 0 88)). clear. intros l.
  induction l as [|q l IH]; [intros _ []|]. cbn [map]. intros E. injection E as E1 E2. intros [->|Hq]; auto.
Qed.

Lemma convert_full : forall d, is_bits 88 d -> exists out pos,
  mbe_convertImbe7100to7200 d = Ok out /\ is_bits 88 out
  /\ Permutation pos (seq 0 88) /\ out = map (fun p => nth p d 0) pos
  /\ pitch7200 out = pitch7100 d
  /\ out = reorder7200 (Z.to_nat (imbe_bands (pitch7100 d))) d.
Proof.
  intros d Hd. destruct (harmonics_of_b0 _ (pitch7100_range d Hd)) as (_ & _ & H).
  exists (reorder7200 (Z.to_nat (imbe_bands (pitch7100 d))) d), (reorder7200 (Z.to_nat (imbe_bands (pitch7100 d))) (seq 0 88)).
  set (K := imbe_bands (pitch7100 d)) in *. split; [now apply convert_spec|]. split; [now apply reorder_bits|].
  split; [now apply reorder_positions|]. split.
  - rewrite (list_as_map d) at 1. now rewrite reorder_map, (proj1 Hd).
  - split; [|reflexivity]. apply reorder_pitch; [exact H|apply Hd].
Qed.

Lemma convert_inj : forall d d' out, is_bits 88 d -> is_bits 88 d' ->
  mbe_convertImbe7100to7200 d = Ok out -> mbe_convertImbe7100to7200 d' = Ok out -> d = d'.
Proof.
  intros d d' out Hd Hd' E E'. rewrite convert_spec in E, E' by assumption.
  assert (E1 : reorder7200 (Z.to_nat (imbe_bands (pitch7100 d))) d = out) by congruence.
  assert (E2 : reorder7200 (Z.to_nat (imbe_bands (pitch7100 d'))) d' = out) by congruence. clear E E'.
  destruct (harmonics_of_b0 _ (pitch7100_range d Hd)) as (_ & _ & H).
  destruct (harmonics_of_b0 _ (pitch7100_range d' Hd')) as (_ & _ & H').
  assert (Ep : pitch7100 d = pitch7100 d').
  { rewrite <- (reorder_pitch _ d H (proj1 Hd)), <- (reorder_pitch _ d' H' (proj1 Hd')). congruence. }
  rewrite <- Ep in E2. apply (reorder_inj (imbe_bands (pitch7100 d))); [exact H|apply Hd|apply Hd'|congruence].
Qed.
