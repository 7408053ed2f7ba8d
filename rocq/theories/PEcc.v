(* Proofs about the block codes (ecc.c). *)
From Coq Require Import ZArith List Bool Lia.
From Verif Require Import Res TabEcc TabEccLut MEcc SpecEcc PBase.
Import ListNotations.
Local Open Scope Z_scope.

(* ---------- closed form of mbe_checkGolayBlock ---------- *)

(* exclusive or of the generators selected by bits pos, pos-1, ... of v *)
Fixpoint encsel (gs : list Z) (pos : Z) (v : Z) : Z :=
  match gs with
  | [] => 0
  | g :: gs' => Z.lxor (if Z.testbit v pos then g else 0) (encsel gs' (pos - 1) v)
  end.

Definition synd (v : Z) : Z := Z.lxor (encsel golayGenerator 22 v) (Z.land v 2047).

Lemma land_pow2 : forall v k, 0 <= k -> (Z.land v (2 ^ k) =? 0) = negb (Z.testbit v k).
Proof.
  intros v k Hk. destruct (Z.testbit v k) eqn:E.
  - apply Z.eqb_neq. intros H. assert (Ht : Z.testbit (Z.land v (2 ^ k)) k = true).
    { rewrite Z.land_spec, E, Z.pow2_bits_true by lia. reflexivity. }
    rewrite H, Z.bits_0 in Ht. discriminate.
  - apply Z.eqb_eq. apply Z.bits_inj'. intros n Hn. rewrite Z.land_spec, Z.bits_0.
    destruct (Z.eq_dec n k) as [-> | Hne]; [rewrite E; reflexivity|].
    rewrite Z.pow2_bits_false by lia. apply andb_false_r.
Qed.

Lemma shiftr_pow2 : forall k, 0 < k -> Z.shiftr (2 ^ k) 1 = 2 ^ (k - 1).
Proof.
  intros k Hk. rewrite Z.shiftr_div_pow2 by lia. change (2 ^ 1) with 2.
  replace (2 ^ k) with (2 ^ (k - 1) * 2).
  - apply Z.div_mul. lia.
  - replace k with (Z.succ (k - 1)) at 2 by lia. rewrite Z.pow_succ_r by lia. lia.
Qed.

Lemma golay_loop : forall v n i ecc, (n + i = length golayGenerator)%nat ->
  loop n (Z.of_nat i) 1 (fun i '(ecc, mask) =>
      g <- rd golayGenerator i ;;
      Ok ((if negb (Z.land v mask =? 0) then Z.lxor ecc g else ecc), Z.shiftr mask 1))
    (ecc, 2 ^ (22 - Z.of_nat i))
  = Ok (Z.lxor ecc (encsel (skipn i golayGenerator) (22 - Z.of_nat i) v), 2 ^ 10).
Proof.
  intros v. induction n as [|n IH]; intros i ecc Hn; change (length golayGenerator) with 12%nat in Hn.
  - assert (i = 12)%nat by lia. subst i. cbn [loop skipn encsel golayGenerator]. rewrite Z.lxor_0_r. reflexivity.
  - cbn [loop].
    assert (Hs : exists g, rd golayGenerator (Z.of_nat i) = Ok g
                 /\ skipn i golayGenerator = g :: skipn (S i) golayGenerator).
    { do 12 (destruct i as [|i]; [eexists; split; reflexivity|]). lia. }
    destruct Hs as (g & Hrd & Hsk). rewrite Hrd, Hsk. cbn [bind encsel].
    rewrite land_pow2, negb_involutive by lia. rewrite shiftr_pow2 by lia.
    replace (22 - Z.of_nat i - 1) with (22 - Z.of_nat (S i)) by lia.
    replace (Z.of_nat i + 1) with (Z.of_nat (S i)) by lia.
    rewrite IH by (change (length golayGenerator) with 12%nat; lia).
    f_equal. f_equal. destruct (Z.testbit v (22 - Z.of_nat i)).
    + now rewrite Z.lxor_assoc.
    + now rewrite Z.lxor_0_l.
Qed.

Lemma checkGolay_synd : forall v, 0 <= v < 2 ^ 32 ->
  mbe_checkGolayBlock v = (g <- rd golayMatrix (synd v) ;; Ok (Z.lxor (Z.shiftr v 11) g)).
Proof.
  intros v Hv. unfold mbe_checkGolayBlock.
  replace (to_u32 v) with v by (unfold to_u32; rewrite Z.mod_small; [reflexivity|exact Hv]).
  unfold for_up. change (Z.to_nat (12 - 0)) with 12%nat. change 0x400000 with (2 ^ (22 - 0)).
  pose proof (golay_loop v 12 0 0 eq_refl) as E. change (Z.of_nat 0) with 0 in E. rewrite E.
  reflexivity.
Qed.

(* ---------- linearity ---------- *)

Ltac xor_ac :=
  apply Z.bits_inj'; intros ? ?; rewrite !Z.lxor_spec;
  repeat match goal with |- context [Z.testbit ?x ?n] => destruct (Z.testbit x n) end; reflexivity.

Lemma encsel_lxor : forall gs pos a b,
  encsel gs pos (Z.lxor a b) = Z.lxor (encsel gs pos a) (encsel gs pos b).
Proof.
  induction gs as [|g gs IH]; intros pos a b; cbn [encsel]; [reflexivity|].
  rewrite IH, Z.lxor_spec.
  generalize (encsel gs (pos - 1) a) (encsel gs (pos - 1) b). intros x y.
  destruct (Z.testbit a pos), (Z.testbit b pos); cbn [xorb]; rewrite ?Z.lxor_0_l; xor_ac.
Qed.

Lemma land_lxor : forall a b m, Z.land (Z.lxor a b) m = Z.lxor (Z.land a m) (Z.land b m).
Proof.
  intros a b m. apply Z.bits_inj'. intros n Hn. rewrite !Z.land_spec, !Z.lxor_spec, !Z.land_spec.
  destruct (Z.testbit a n), (Z.testbit b n), (Z.testbit m n); reflexivity.
Qed.

Lemma synd_lxor : forall a b, synd (Z.lxor a b) = Z.lxor (synd a) (synd b).
Proof.
  intros a b. unfold synd. rewrite encsel_lxor, land_lxor.
  generalize (encsel golayGenerator 22 a) (encsel golayGenerator 22 b) (Z.land a 2047) (Z.land b 2047).
  intros x y z w. rewrite !Z.lxor_assoc. f_equal. rewrite <- !Z.lxor_assoc. now rewrite (Z.lxor_comm y z).
Qed.

Lemma encsel_range : forall gs pos v, Forall (fun g => 0 <= g < 2 ^ 11) gs -> 0 <= encsel gs pos v < 2 ^ 11.
Proof.
  induction gs as [|g gs IH]; intros pos v H; cbn [encsel]; [lia|].
  inversion H as [|? ? Hg Hgs]; subst. apply lxor_range; [destruct (Z.testbit v pos); lia|apply IH; assumption|lia].
Qed.

Lemma gen_small : Forall (fun g => 0 <= g < 2 ^ 11) golayGenerator.
Proof. repeat (constructor; [lia|]); constructor. Qed.

Lemma synd_range : forall v, 0 <= v -> 0 <= synd v < 2048.
Proof.
  intros v Hv. unfold synd. change 2048 with (2 ^ 11). apply lxor_range.
  - apply encsel_range, gen_small.
  - change 2047 with (Z.ones 11). rewrite Z.land_ones by lia. apply Z.mod_pos_bound. lia.
  - lia.
Qed.

(* a word splits into data and check part *)
Lemma split_word : forall v, 0 <= v -> v = Z.lxor (Z.shiftl (Z.shiftr v 11) 11) (Z.land v 2047).
Proof.
  intros v Hv. apply Z.bits_inj'. intros n Hn. rewrite Z.lxor_spec, Z.land_spec.
  change 2047 with (Z.ones 11).
  destruct (Z.lt_ge_cases n 11) as [H | H].
  - rewrite Z.shiftl_spec_low, Z.ones_spec_low by lia. now rewrite andb_true_r, xorb_false_l.
  - rewrite Z.shiftl_spec, Z.shiftr_spec, Z.ones_spec_high by lia.
    rewrite andb_false_r, xorb_false_r. f_equal. lia.
Qed.

Lemma synd_low : forall v, 0 <= v -> synd (Z.land v 2047) = Z.land v 2047.
Proof.
  intros v Hv. unfold synd.
  assert (H : encsel golayGenerator 22 (Z.land v 2047) = 0).
  { cbn [encsel golayGenerator].
    assert (Hb : forall n, 11 <= n -> Z.testbit (Z.land v 2047) n = false).
    { intros n Hn. rewrite Z.land_spec. change 2047 with (Z.ones 11).
      rewrite Z.ones_spec_high by lia. apply andb_false_r. }
    rewrite !Hb by lia. reflexivity. }
  rewrite H, Z.lxor_0_l, <- Z.land_assoc. reflexivity.
Qed.

Local Opaque synd encsel Z.shiftl Z.shiftr.
(* ---------- the parity of the data bits, computed bit by bit ---------- *)

Fixpoint encr (rs : list Z) (d : Z) : Z :=
  match rs with
  | [] => 0
  | g :: rs' => Z.lxor (if Z.odd d then g else 0) (encr rs' (Z.div2 d))
  end.

Lemma encsel_app : forall a b pos v,
  encsel (a ++ b) pos v = Z.lxor (encsel a pos v) (encsel b (pos - Z.of_nat (length a)) v).
Proof.
  induction a as [|g a IH]; intros b pos v.
  - cbn [app length]. rewrite Z.sub_0_r. symmetry. apply Z.lxor_0_l.
  - cbn [app length].
    change (encsel (g :: a ++ b) pos v) with (Z.lxor (if Z.testbit v pos then g else 0) (encsel (a ++ b) (pos - 1) v)).
    change (encsel (g :: a) pos v) with (Z.lxor (if Z.testbit v pos then g else 0) (encsel a (pos - 1) v)).
    rewrite IH, Z.lxor_assoc. do 3 f_equal. lia.
Qed.

Lemma encsel_div2 : forall gs pos v, Z.of_nat (length gs) <= pos + 1 ->
  encsel gs (pos + 1) v = encsel gs pos (Z.div2 v).
Proof.
  induction gs as [|g gs IH]; intros pos v H; [reflexivity|]. cbn [length] in H. rewrite Nat2Z.inj_succ in H.
  change (encsel (g :: gs) (pos + 1) v) with (Z.lxor (if Z.testbit v (pos + 1) then g else 0) (encsel gs (pos + 1 - 1) v)).
  change (encsel (g :: gs) pos (Z.div2 v))
    with (Z.lxor (if Z.testbit (Z.div2 v) pos then g else 0) (encsel gs (pos - 1) (Z.div2 v))).
  rewrite <- IH by lia. rewrite Z.div2_spec, Z.shiftr_spec by lia.
  replace (pos + 1 - 1) with (pos - 1 + 1) by lia. reflexivity.
Qed.

Lemma encsel_rev : forall rs v, encsel (rev rs) (Z.of_nat (length rs) - 1) v = encr rs v.
Proof.
  induction rs as [|g rs IH]; intros v; [reflexivity|].
  cbn [rev length encr]. rewrite encsel_app, rev_length, Nat2Z.inj_succ.
  replace (Z.succ (Z.of_nat (length rs)) - 1) with (Z.of_nat (length rs) - 1 + 1) by lia.
  rewrite encsel_div2 by (rewrite rev_length; lia). rewrite IH.
  replace (Z.of_nat (length rs) - 1 + 1 - Z.of_nat (length rs)) with 0 by lia.
  change (encsel [g] 0 v) with (Z.lxor (if Z.testbit v 0 then g else 0) 0).
  rewrite Z.lxor_0_r, Z.lxor_comm, Z.bit0_odd. reflexivity.
Qed.

Definition rgen : list Z := Eval vm_compute in rev golayGenerator.

Lemma encsel_shift : forall gs pos d, Z.of_nat (length gs) <= pos + 1 ->
  encsel gs (pos + 11) (Z.shiftl d 11) = encsel gs pos d.
Proof.
  induction gs as [|g gs IH]; intros pos d H; [reflexivity|]. cbn [length] in H. rewrite Nat2Z.inj_succ in H.
  change (encsel (g :: gs) (pos + 11) (Z.shiftl d 11))
    with (Z.lxor (if Z.testbit (Z.shiftl d 11) (pos + 11) then g else 0) (encsel gs (pos + 11 - 1) (Z.shiftl d 11))).
  change (encsel (g :: gs) pos d) with (Z.lxor (if Z.testbit d pos then g else 0) (encsel gs (pos - 1) d)).
  rewrite Z.shiftl_spec by lia.
  replace (pos + 11 - 11) with pos by lia. replace (pos + 11 - 1) with (pos - 1 + 11) by lia.
  rewrite IH by lia. reflexivity.
Qed.

Lemma synd_data : forall d, synd (Z.shiftl d 11) = encr rgen d.
Proof.
  intros d. change (synd (Z.shiftl d 11))
    with (Z.lxor (encsel golayGenerator (11 + 11) (Z.shiftl d 11)) (Z.land (Z.shiftl d 11) 2047)).
  rewrite encsel_shift by (vm_compute; congruence).
  assert (H0 : Z.land (Z.shiftl d 11) 2047 = 0).
  { apply Z.bits_inj'. intros n Hn. rewrite Z.land_spec, Z.bits_0. change 2047 with (Z.ones 11).
    destruct (Z.lt_ge_cases n 11) as [H | H].
    - now rewrite Z.shiftl_spec_low by lia.
    - rewrite Z.ones_spec_high by lia. apply andb_false_r. }
  rewrite H0, Z.lxor_0_r. rewrite <- (encsel_rev rgen d).
  change (rev rgen) with golayGenerator. reflexivity.
Qed.

Lemma synd_lowr : forall l, 0 <= l < 2 ^ 11 -> synd l = l.
Proof.
  intros l Hl. assert (E : Z.land l 2047 = l).
  { change 2047 with (Z.ones 11). rewrite Z.land_ones by lia. apply Z.mod_small. lia. }
  rewrite <- E at 1. rewrite synd_low by lia. exact E.
Qed.

Lemma synd_0 : synd 0 = 0.
Proof. apply synd_lowr. lia. Qed.

(* ---------- the finite facts about the tables ---------- *)

Definition epat_okc (sg : Z * Z) : bool :=
  let (s, g) := sg in
  (0 <=? g) && (g <? 4096) && (popZ g + popZ (Z.lxor s (encr rgen g)) <=? 3).

Lemma epat_all : forallb epat_okc (combine (zrange 2048) golayMatrix) = true.
Proof. vm_compute. reflexivity. Qed.

Lemma golayMatrix_length : length golayMatrix = 2048%nat.
Proof. vm_compute. reflexivity. Qed.

Lemma mindist_all : forallb (fun d => (d =? 0) || (7 <=? popZ d + popZ (encr rgen d))) (zrange 4096) = true.
Proof. vm_compute. reflexivity. Qed.

(* the error pattern the table corrects for a syndrome *)
Definition gm (s : Z) : Z := nth (Z.to_nat s) golayMatrix 0.
Definition epat (s : Z) : Z := Z.lxor (Z.shiftl (gm s) 11) (Z.lxor s (synd (Z.shiftl (gm s) 11))).

Lemma gm_facts : forall s, 0 <= s < 2048 ->
  rd golayMatrix s = Ok (gm s) /\ 0 <= gm s < 4096
  /\ popZ (gm s) + popZ (Z.lxor s (encr rgen (gm s))) <= 3.
Proof.
  intros s Hs. unfold rd, gm. destruct (s <? 0) eqn:E; [apply Z.ltb_lt in E; lia|].
  assert (Hlt : (Z.to_nat s < length golayMatrix)%nat) by (rewrite golayMatrix_length; lia).
  split.
  { destruct (nth_error golayMatrix (Z.to_nat s)) eqn:En.
    - f_equal. symmetry. apply nth_error_nth. exact En.
    - apply nth_error_None in En. lia. }
  assert (Hin : In (s, nth (Z.to_nat s) golayMatrix 0) (combine (zrange 2048) golayMatrix)).
  { assert (Hl : length (zrange 2048) = length golayMatrix)
      by (unfold zrange; rewrite zfrom_length, golayMatrix_length; reflexivity).
    pose proof (combine_nth (zrange 2048) golayMatrix (Z.to_nat s) 0 0 Hl) as Hc.
    unfold zrange in Hc at 2. rewrite zfrom_nth in Hc by lia. rewrite Z2Nat.id, Z.add_0_l in Hc by lia.
    rewrite <- Hc. apply nth_In. rewrite combine_length, Hl. lia. }
  pose proof epat_all as H. rewrite forallb_forall in H. specialize (H _ Hin). unfold epat_okc in H.
  rewrite !andb_true_iff in H. destruct H as [[H1 H2] H3].
  apply Z.leb_le in H1. apply Z.ltb_lt in H2. apply Z.leb_le in H3. split; [lia|exact H3].
Qed.

(* words put together from data and check bits *)
Lemma word_weight : forall d l, 0 <= d < 2 ^ 12 -> 0 <= l < 2 ^ 11 ->
  weight 23 (Z.lxor (Z.shiftl d 11) l) = popZ d + popZ l.
Proof.
  intros d l Hd Hl. change 23%nat with (12 + 11)%nat. rewrite weight_split.
  assert (E1 : Z.shiftr (Z.lxor (Z.shiftl d 11) l) (Z.of_nat 11) = d).
  { change (Z.of_nat 11) with 11. rewrite Z.shiftr_lxor, Z.shiftr_shiftl_l by lia.
    change (11 - 11) with 0. rewrite Z.shiftl_0_r. rewrite (Z.shiftr_div_pow2 l) by lia.
    rewrite Z.div_small by lia. apply Z.lxor_0_r. }
  rewrite E1. rewrite (weight_popZ 12 d) by exact Hd. f_equal.
  rewrite <- (weight_popZ 11 l) by exact Hl.
  assert (Hext : forall n a b, (forall i, (i < n)%nat -> Z.testbit a (Z.of_nat i) = Z.testbit b (Z.of_nat i)) ->
    weight n a = weight n b).
  { induction n as [|n IH]; intros a b H; [reflexivity|]. cbn [weight]. rewrite (H n) by lia. f_equal.
    apply IH. intros i Hi. apply H. lia. }
  apply Hext. intros i Hi. rewrite Z.lxor_spec, Z.shiftl_spec_low by lia. apply xorb_false_l.
Qed.

Lemma epat_spec : forall s, 0 <= s < 2048 ->
  rd golayMatrix s = Ok (gm s) /\ synd (epat s) = s /\ weight 23 (epat s) <= 3
  /\ Z.shiftr (epat s) 11 = gm s /\ 0 <= epat s < 2 ^ 23.
Proof.
  intros s Hs. destruct (gm_facts s Hs) as (Hrd & Hg & Hp). split; [exact Hrd|]. clear Hrd. unfold epat.
  revert Hg Hp. generalize (gm s). intros g Hg Hp.
  rewrite synd_data.
  assert (Hl : 0 <= Z.lxor s (encr rgen g) < 2 ^ 11).
  { apply lxor_range; [lia| |lia]. rewrite <- synd_data. apply synd_range. apply Z.shiftl_nonneg. lia. }
  split.
  { rewrite synd_lxor, synd_data, (synd_lowr _ Hl).
    rewrite (Z.lxor_comm s), lxor_cancel. reflexivity. }
  split; [rewrite word_weight by lia; exact Hp|]. split.
  { rewrite Z.shiftr_lxor, Z.shiftr_shiftl_l by lia. change (11 - 11) with 0. rewrite Z.shiftl_0_r.
    rewrite (Z.shiftr_div_pow2 (Z.lxor s _)) by lia. rewrite Z.div_small by exact Hl. apply Z.lxor_0_r. }
  apply lxor_range; [|lia|lia].
  pose proof (shiftl_range g 12 11 ltac:(lia) ltac:(lia) ltac:(lia)) as H. exact H.
Qed.

(* codewords are exactly the words with syndrome zero *)
Lemma poly_range : 0 <= golay_poly < 2 ^ (11 + 1).
Proof. vm_compute. split; congruence. Qed.

Lemma codeword_synd : forall c, golay_codeword c -> synd c = 0 /\ 0 <= c < 2 ^ 23.
Proof.
  intros c (q & Hq & ->). split.
  - apply clmul_linear_0; [apply synd_0|apply synd_lxor|]. intros i Hi.
    do 12 (destruct i as [|i]; [vm_compute; reflexivity|]). lia.
  - pose proof (clmul_range golay_poly 11 12 q ltac:(lia) poly_range) as H. exact H.
Qed.

Lemma synd0_codeword : forall v, 0 <= v < 2 ^ 23 -> synd v = 0 -> golay_codeword v.
Proof.
  intros v Hv Hs.
  destruct (clmul_div golay_poly 11 ltac:(lia) poly_range ltac:(reflexivity) 12 v Hv) as (q & r & Hq & Hr & E).
  assert (Hc : golay_codeword (clmul 12 q golay_poly)) by (exists q; split; [exact Hq|reflexivity]).
  destruct (codeword_synd _ Hc) as [Hcs _].
  rewrite E, synd_lxor, Hcs, Z.lxor_0_l, (synd_lowr r Hr) in Hs. subst r.
  rewrite Z.lxor_0_r in E. rewrite E. exact Hc.
Qed.

Lemma synd0_split : forall v, 0 <= v -> synd v = 0 ->
  v = Z.lxor (Z.shiftl (Z.shiftr v 11) 11) (encr rgen (Z.shiftr v 11)).
Proof.
  intros v Hv Hs. rewrite <- synd_data. pose proof (split_word v Hv) as E. revert E.
  generalize (Z.shiftl (Z.shiftr v 11) 11). intros h E.
  pose proof (synd_lxor h (Z.land v 2047)) as H1. pose proof (synd_low v Hv) as H2.
  revert E H1 H2. generalize (Z.land v 2047). intros l E H1 H2.
  rewrite <- E, Hs, H2 in H1. symmetry in H1. apply Z.lxor_eq in H1. rewrite H1. exact E.
Qed.

Lemma codeword_facts : forall c, golay_codeword c -> synd c = 0 /\ 0 <= c < 2 ^ 23 /\ (c = 0 \/ 7 <= weight 23 c).
Proof.
  intros c Hc. destruct (codeword_synd c Hc) as [Hs Hr]. split; [exact Hs|]. split; [exact Hr|].
  assert (Hd : 0 <= Z.shiftr c 11 < 4096).
  { rewrite Z.shiftr_div_pow2 by lia. split; [apply Z.div_pos; lia|apply Z.div_lt_upper_bound; lia]. }
  pose proof (synd0_split c ltac:(lia) Hs) as E. revert E Hd. generalize (Z.shiftr c 11). intros d E Hd.
  pose proof (zrange_forallb 4096 _ mindist_all d Hd) as H. cbv beta in H.
  apply orb_true_iff in H. destruct H as [H | H].
  - left. apply Z.eqb_eq in H. subst d. rewrite E. vm_compute. reflexivity.
  - right. apply Z.leb_le in H. rewrite E, word_weight; [exact H|exact Hd|].
    rewrite <- synd_data. apply synd_range. apply Z.shiftl_nonneg. lia.
Qed.

Lemma codeword_lxor : forall a b, golay_codeword a -> golay_codeword b -> golay_codeword (Z.lxor a b).
Proof.
  intros a b Ha Hb. destruct (codeword_facts a Ha) as (Sa & Ra & _). destruct (codeword_facts b Hb) as (Sb & Rb & _).
  apply synd0_codeword; [apply lxor_range; lia|]. now rewrite synd_lxor, Sa, Sb.
Qed.

(* codewords at distance at most 3 from the same word coincide *)
Lemma codeword_unique : forall v a b, golay_codeword a -> golay_codeword b ->
  weight 23 (Z.lxor v a) <= 3 -> weight 23 (Z.lxor v b) <= 3 -> a = b.
Proof.
  intros v a b Ha Hb Wa Wb.
  destruct (codeword_facts _ (codeword_lxor a b Ha Hb)) as (_ & _ & [H | H]).
  - now apply Z.lxor_eq.
  - assert (E : Z.lxor a b = Z.lxor (Z.lxor v a) (Z.lxor v b)).
    { rewrite (Z.lxor_comm v a), Z.lxor_assoc, lxor_cancel. reflexivity. }
    pose proof (weight_lxor_le 23 (Z.lxor v a) (Z.lxor v b)) as HW. rewrite <- E in HW. lia.
Qed.

(* the codeword the decoder chooses *)
Definition gnear (v : Z) : Z := Z.lxor v (epat (synd v)).

Lemma gnear_spec : forall v, 0 <= v < 2 ^ 23 ->
  golay_codeword (gnear v) /\ weight 23 (Z.lxor v (gnear v)) <= 3
  /\ mbe_checkGolayBlock v = Ok (golay_data (gnear v)).
Proof.
  intros v Hv. pose proof (synd_range v ltac:(lia)) as Hs.
  destruct (epat_spec _ Hs) as (Hrd & He & Hw & Hd & Hr). unfold gnear. split; [|split].
  - apply synd0_codeword; [apply lxor_range; lia|]. rewrite synd_lxor, He. apply Z.lxor_nilpotent.
  - rewrite lxor_cancel. exact Hw.
  - rewrite checkGolay_synd by lia. rewrite Hrd. cbn [bind]. unfold golay_data.
    rewrite Z.shiftr_lxor, Hd. reflexivity.
Qed.

Lemma checkGolay_corrects : forall c v, golay_codeword c -> 0 <= v < 2 ^ 23 ->
  weight 23 (Z.lxor v c) <= 3 -> mbe_checkGolayBlock v = Ok (golay_data c).
Proof.
  intros c v Hc Hv Hw. destruct (gnear_spec v Hv) as (Hg & Hgw & ->).
  f_equal. f_equal. apply (codeword_unique v); assumption.
Qed.

(* ---------- the bit-array version ---------- *)

Lemma pack_step : forall b acc, is_bit b -> 0 <= acc < 2 ^ 31 ->
  Z.lor (to_u32 (Z.shiftl acc 1)) (Z.land b 1) = b + 2 * acc.
Proof.
  intros b acc Hb Ha. unfold to_u32. rewrite Z.shiftl_mul_pow2 by lia. change (2 ^ 1) with 2.
  rewrite Z.mod_small by lia.
  replace (Z.land b 1) with b by (destruct Hb as [-> | ->]; reflexivity).
  rewrite (Z.mul_comm acc 2).
  apply Z.bits_inj'. intros n Hn. rewrite Z.lor_spec.
  destruct (Z.eq_dec n 0) as [-> | Hn0].
  - rewrite Z.testbit_even_0. destruct Hb as [-> | ->].
    + now rewrite Z.add_0_l, Z.testbit_even_0.
    + now rewrite (Z.add_comm 1), Z.testbit_odd_0.
  - replace n with (Z.succ (n - 1)) by lia. rewrite Z.testbit_even_succ by lia.
    destruct Hb as [-> | ->].
    + rewrite Z.add_0_l, Z.testbit_even_succ, Z.bits_0 by lia. apply orb_false_r.
    + rewrite (Z.add_comm 1), Z.testbit_odd_succ by lia.
      change 1 with (2 ^ 0). rewrite (Z.pow2_bits_false 0) by lia. apply orb_false_r.
Qed.

Lemma rd_nth : forall (l : list Z) i, (i < length l)%nat -> rd l (Z.of_nat i) = Ok (nth i l 0).
Proof.
  intros l i Hi. unfold rd. destruct (Z.of_nat i <? 0) eqn:E; [apply Z.ltb_lt in E; lia|].
  rewrite Nat2Z.id. destruct (nth_error l i) eqn:En.
  - f_equal. symmetry. apply nth_error_nth. exact En.
  - apply nth_error_None in En. lia.
Qed.

Lemma skipn_nth_cons : forall {A} (d : A) l k, (k < length l)%nat -> skipn k l = nth k l d :: skipn (S k) l.
Proof.
  intros A d. induction l as [|x l IH]; intros k Hk; [cbn in Hk; lia|].
  destruct k as [|k]; [reflexivity|]. cbn [nth]. change (skipn (S k) (x :: l)) with (skipn k l).
  change (skipn (S (S k)) (x :: l)) with (skipn (S k) l). apply IH. cbn in Hk. lia.
Qed.

Lemma Forall_skipn : forall {A} (P : A -> Prop) n l, Forall P l -> Forall P (skipn n l).
Proof.
  induction n as [|n IH]; intros l H; [exact H|]. destruct l; [constructor|].
  cbn [skipn]. apply IH. now inversion H.
Qed.

Lemma Forall_firstn : forall {A} (P : A -> Prop) n l, Forall P l -> Forall P (firstn n l).
Proof.
  induction n as [|n IH]; intros l H; [constructor|]. destruct l; [constructor|].
  cbn [firstn]. inversion H; subst. constructor; [assumption|]. now apply IH.
Qed.

Lemma pack_loop : forall l k, Forall is_bit l -> (k <= length l <= 31)%nat ->
  loop k (Z.of_nat k - 1) (-1) (fun i block =>
    c <- rd l i ;; Ok (Z.lor (to_u32 (Z.shiftl block 1)) (Z.land c 1))) (val (skipn k l)) = Ok (val l).
Proof.
  intros l. induction k as [|k IH]; intros Hb Hk; [reflexivity|].
  cbn [loop]. replace (Z.of_nat (S k) - 1) with (Z.of_nat k) by lia.
  rewrite rd_nth by lia. cbn [bind].
  assert (Hbit : is_bit (nth k l 0)).
  { rewrite Forall_forall in Hb. apply Hb. apply nth_In. lia. }
  rewrite pack_step; [|exact Hbit|].
  - replace (nth k l 0 + 2 * val (skipn (S k) l)) with (val (skipn k l)).
    + apply IH; [exact Hb|lia].
    + rewrite (skipn_nth_cons 0 l k) by lia. reflexivity.
  - pose proof (val_range (skipn (S k) l) (Forall_skipn _ _ _ Hb)) as Hr.
    rewrite skipn_length in Hr. split; [lia|].
    eapply Z.lt_le_trans; [apply Hr|]. apply Z.pow_le_mono_r; lia.
Qed.

Lemma pack_bits_val : forall n l, is_bits n l -> (n <= 31)%nat -> pack_bits (Z.of_nat n) l = Ok (val l).
Proof.
  intros n l [Hl Hb] Hn. unfold pack_bits, for_down.
  replace (Z.to_nat (Z.of_nat n - 1 - 0 + 1)) with n by lia.
  pose proof (pack_loop l n Hb ltac:(lia)) as H.
  rewrite skipn_all2 in H by lia. exact H.
Qed.

(* unpacking the 12 data bits: all 4096 values *)
Definition opt_eqb (a b : option Z) : bool :=
  match a, b with Some x, Some y => x =? y | None, None => true | _, _ => false end.
Fixpoint list_eqb {A} (eqb : A -> A -> bool) (a b : list A) : bool :=
  match a, b with
  | [], [] => true
  | x :: a', y :: b' => eqb x y && list_eqb eqb a' b'
  | _, _ => false
  end.

Lemma opt_eqb_eq : forall a b, opt_eqb a b = true -> a = b.
Proof. intros [x|] [y|] H; try discriminate; [apply Z.eqb_eq in H; now subst|reflexivity]. Qed.

Lemma list_eqb_eq : forall {A} (eqb : A -> A -> bool), (forall x y, eqb x y = true -> x = y) ->
  forall a b, list_eqb eqb a b = true -> a = b.
Proof.
  intros A eqb He. induction a as [|x a IH]; intros [|y b] H; try discriminate; [reflexivity|].
  cbn [list_eqb] in H. apply andb_true_iff in H. destruct H as [H1 H2].
  f_equal; [apply He; exact H1|apply IH; exact H2].
Qed.

(* unpacking the top bits of a block *)
Lemma unpack_bit : forall T b, 0 <= T -> to_char (Z.shiftr (Z.land b (2 ^ T)) T) = Z.b2z (Z.testbit b T).
Proof.
  intros T b HT. assert (E : Z.shiftr (Z.land b (2 ^ T)) T = Z.b2z (Z.testbit b T)).
  { apply Z.bits_inj'. intros n Hn. rewrite Z.shiftr_spec, Z.land_spec by lia.
    destruct (Z.eq_dec n 0) as [-> | Hne].
    - rewrite Z.pow2_bits_true by lia. rewrite andb_true_r. symmetry. apply Z.b2z_bit0.
    - rewrite Z.pow2_bits_false by lia. rewrite andb_false_r. symmetry.
      destruct (Z.testbit b T); [|apply Z.bits_0].
      change (Z.b2z true) with (2 ^ 0). apply Z.pow2_bits_false. lia. }
  rewrite E. destruct (Z.testbit b T); reflexivity.
Qed.

Lemma shl_bit : forall b n, 1 <= n < 32 -> Z.testbit (to_u32 (Z.shiftl b 1)) n = Z.testbit b (n - 1).
Proof.
  intros b n Hn. unfold to_u32. change 4294967296 with (2 ^ 32). rewrite Z.mod_pow2_bits_low by lia.
  rewrite Z.shiftl_spec by lia. reflexivity.
Qed.

Lemma set_nth_app : forall {A} (a : list A) x v t, set_nth (length a) v (a ++ x :: t) = a ++ v :: t.
Proof. intros A. induction a as [|y a IH]; intros x v t; [reflexivity|]. cbn [length app set_nth]. now rewrite IH. Qed.

Lemma wr_app : forall {A} (a : list A) x v t, wr (a ++ x :: t) (Z.of_nat (length a)) v = Ok (a ++ v :: t).
Proof.
  intros A a x v t. unfold wr. destruct (Z.of_nat (length a) <? 0) eqn:E; [apply Z.ltb_lt in E; lia|].
  rewrite Nat2Z.id. rewrite app_length. cbn [length].
  destruct (Nat.ltb_spec (length a) (length a + S (length t))); [|lia]. now rewrite set_nth_app.
Qed.

Lemma unpack_loop : forall T n off block tail, 0 <= T < 32 -> Z.of_nat n <= T + 1 ->
  exists b, loop n (Z.of_nat (off + n) - 1) (-1) (fun i '(out, block) =>
      out' <- wr out i (Some (to_char (Z.shiftr (Z.land block (2 ^ T)) T))) ;;
      Ok (out', to_u32 (Z.shiftl block 1))) (repeat None (off + n) ++ tail, block)
  = Ok (repeat None off ++ map (fun i => Some (Z.b2z (Z.testbit block (T - Z.of_nat n + 1 + Z.of_nat i)))) (seq 0 n) ++ tail, b).
Proof.
  intros T. induction n as [|n IH]; intros off block tail HT Hn.
  - exists block. cbn [loop seq map app]. replace (off + 0)%nat with off by lia. reflexivity.
  - cbn [loop]. replace (Z.of_nat (off + S n) - 1) with (Z.of_nat (length (repeat (@None Z) (off + n))))
      by (rewrite repeat_length; lia).
    replace (off + S n)%nat with ((off + n) + 1)%nat by lia. rewrite repeat_app, <- app_assoc. cbn [repeat app].
    rewrite wr_app. cbn [bind].
    rewrite unpack_bit by lia. rewrite repeat_length.
    destruct (IH off (to_u32 (Z.shiftl block 1)) (Some (Z.b2z (Z.testbit block T)) :: tail) HT ltac:(lia)) as (b & Hb).
    replace (Z.of_nat (off + n) + -1) with (Z.of_nat (off + n) - 1) by lia.
    rewrite Hb. exists b. f_equal. f_equal. f_equal.
    rewrite seq_S, map_app, <- app_assoc. cbn [map app]. f_equal.
    + apply map_ext_in. intros i Hi. apply in_seq in Hi. rewrite shl_bit by lia. do 3 f_equal. lia.
    + do 4 f_equal. lia.
Qed.

Lemma bits_of_testbit : forall n v, bits_of n v = map (fun i => Z.b2z (Z.testbit v (Z.of_nat i))) (seq 0 n).
Proof.
  induction n as [|n IH]; intros v; [reflexivity|]. cbn [bits_of seq map]. f_equal.
  - rewrite <- Z.bit0_mod. reflexivity.
  - rewrite IH, <- seq_shift, map_map. apply map_ext. intros i. rewrite Nat2Z.inj_succ.
    rewrite <- Z.div2_div, Z.div2_spec, Z.shiftr_spec by lia. do 2 f_equal.
Qed.

Definition unpack12 (d : Z) : res (list (option Z) * Z) :=
  for_down 22 11 (fun i '(out, block) =>
      out' <- wr out i (Some (to_char (Z.shiftr (Z.land block 2048) 11))) ;;
      Ok (out', to_u32 (Z.shiftl block 1))) (fresh 23, d).

Lemma unpack12_spec : forall d, exists b, unpack12 d = Ok (repeat None 11 ++ map Some (bits_of 12 d), b).
Proof.
  intros d. destruct (unpack_loop 11 12 11 d [] ltac:(lia) ltac:(lia)) as (b & Hb). exists b.
  rewrite bits_of_testbit, map_map. rewrite !app_nil_r in Hb. exact Hb.
Qed.

(* the loops after unpacking, for arbitrary input and data bits *)
Lemma golay_tail : forall inp bits, length inp = 23%nat -> length bits = 12%nat ->
  (out <- for_down 10 0 (fun i out => c <- rd inp i ;; wr out i (Some c)) (repeat None 11 ++ map Some bits) ;;
   errs <- for_down 22 11 (fun i errs =>
      o <- rdi out i ;; c <- rd inp i ;;
      Ok (if negb (o =? c) then Z.succ errs else errs)) 0 ;;
   out <- all_init out ;;
   Ok (out, errs)) = Ok (firstn 11 inp ++ bits, hdist bits (skipn 11 inp)).
Proof.
  intros inp bits Hi Hb.
  do 23 (destruct inp as [|? inp]; [discriminate|]). destruct inp; [|discriminate].
  do 12 (destruct bits as [|? bits]; [discriminate|]). destruct bits; [|discriminate].
  clear Hi Hb.
  match goal with |- _ = Ok (_, ?h) => set (rhs := h) end.
  cbv -[Z.eqb Z.succ negb rhs].
  f_equal. f_equal. subst rhs. cbn [hdist skipn].
  assert (Hif : forall (b : bool) e, (if negb b then Z.succ e else e) = e + (if b then 0 else 1)).
  { intros [|] e; cbn [negb]; lia. }
  rewrite !Hif. lia.
Qed.

(* closed form of mbe_golay2312 *)
Lemma golay2312_closed : forall l, is_bits 23 l ->
  mbe_golay2312 l = Ok (firstn 11 l ++ bits_of 12 (golay_data (gnear (val l))),
                        hdist (bits_of 12 (golay_data (gnear (val l)))) (skipn 11 l)).
Proof.
  intros l Hl. assert (Hr : 0 <= val l < 2 ^ 23).
  { destruct Hl as [Hlen Hb]. pose proof (val_range l Hb) as H. rewrite Hlen in H. exact H. }
  destruct (gnear_spec (val l) Hr) as (Hcw & _ & Hchk).
  destruct (codeword_facts _ Hcw) as (_ & Hcr & _).
  assert (Hd : 0 <= golay_data (gnear (val l)) < 4096).
  { unfold golay_data. rewrite Z.shiftr_div_pow2 by lia.
    split; [apply Z.div_pos; lia|apply Z.div_lt_upper_bound; lia]. }
  revert Hchk Hd. generalize (golay_data (gnear (val l))). intros d Hchk Hd.
  unfold mbe_golay2312. change 23 with (Z.of_nat 23) at 1. rewrite (pack_bits_val 23 l Hl) by lia. cbn [bind]. rewrite Hchk. cbn [bind].
  replace (to_u32 d) with d by (unfold to_u32; rewrite Z.mod_small by lia; reflexivity).
  destruct (unpack12_spec d) as (b & Hu). unfold unpack12 in Hu. rewrite Hu. cbn [bind].
  apply golay_tail; [apply Hl|apply bits_of_bits].
Qed.

Lemma bits_of_skipn : forall k n v, skipn k (bits_of (k + n) v) = bits_of n (v / 2 ^ Z.of_nat k).
Proof.
  induction k as [|k IH]; intros n v.
  - cbn [skipn plus]. change (2 ^ Z.of_nat 0) with 1. now rewrite Z.div_1_r.
  - cbn [plus bits_of skipn]. rewrite IH. f_equal.
    rewrite Nat2Z.inj_succ, Z.pow_succ_r by lia. rewrite Z.div_div by lia. reflexivity.
Qed.

Lemma hdist_app : forall a b c d, length a = length c -> hdist (a ++ b) (c ++ d) = hdist a c + hdist b d.
Proof.
  induction a as [|x a IH]; intros b c d H; destruct c as [|y c]; try discriminate H; [reflexivity|].
  cbn [app hdist]. rewrite IH by now injection H. lia.
Qed.

Lemma hdist_comm : forall a b, hdist a b = hdist b a.
Proof.
  induction a as [|x a IH]; intros [|y b]; cbn [hdist]; try reflexivity. rewrite IH, Z.eqb_sym. reflexivity.
Qed.

Lemma hdist_refl : forall a, hdist a a = 0.
Proof. induction a as [|x a IH]; [reflexivity|]. cbn [hdist]. rewrite Z.eqb_refl. lia. Qed.

Lemma hdist_0_eq : forall a b, length a = length b -> hdist a b = 0 -> a = b.
Proof.
  induction a as [|x a IH]; intros [|y b] L H; try discriminate L; [reflexivity|]. cbn [hdist] in H.
  pose proof (hdist_nonneg a b) as Hn. destruct (x =? y) eqn:E; [|lia].
  apply Z.eqb_eq in E. f_equal; [exact E|apply IH; [now injection L|lia]].
Qed.

Lemma hdist_split : forall k a b, length a = length b ->
  hdist a b = hdist (firstn k a) (firstn k b) + hdist (skipn k a) (skipn k b).
Proof.
  intros k a b H. rewrite <- (firstn_skipn k a) at 1. rewrite <- (firstn_skipn k b) at 1.
  apply hdist_app. rewrite !firstn_length. lia.
Qed.

Lemma is_bits_val_range : forall n l, is_bits n l -> 0 <= val l < 2 ^ Z.of_nat n.
Proof. intros n l [Hl Hb]. rewrite <- Hl. now apply val_range. Qed.

Lemma is_bits_app : forall n m a b, is_bits n a -> is_bits m b -> is_bits (n + m) (a ++ b).
Proof.
  intros n m a b [La Fa] [Lb Fb]. split; [rewrite app_length; lia|]. now apply Forall_app.
Qed.

Lemma is_bits_firstn : forall k n l, is_bits n l -> (k <= n)%nat -> is_bits k (firstn k l).
Proof.
  intros k n l [L F] H. split; [rewrite firstn_length; lia|]. now apply Forall_firstn.
Qed.

Lemma is_bits_skipn : forall k n l, is_bits n l -> is_bits (n - k) (skipn k l).
Proof. intros k n l [L F]. split; [rewrite skipn_length; lia|]. now apply Forall_skipn. Qed.

(* the codeword as a list *)
Definition gnear_l (l : list Z) : list Z := bits_of 23 (gnear (val l)).

Lemma gnear_l_spec : forall l, is_bits 23 l -> golay_word (gnear_l l) /\ hdist l (gnear_l l) <= 3.
Proof.
  intros l Hl. pose proof (is_bits_val_range 23 l Hl) as Hr.
  destruct (gnear_spec (val l) Hr) as (Hcw & Hw & _). destruct (codeword_facts _ Hcw) as (_ & Hcr & _).
  unfold gnear_l. split.
  - split; [apply bits_of_bits|]. rewrite val_bits_of by exact Hcr. exact Hcw.
  - rewrite (hdist_weight 23) by (exact Hl || apply bits_of_bits). rewrite val_bits_of by exact Hcr. exact Hw.
Qed.

Lemma golay_word_unique : forall l a b, is_bits 23 l -> golay_word a -> golay_word b ->
  hdist l a <= 3 -> hdist l b <= 3 -> a = b.
Proof.
  intros l a b Hl [Ha Ca] [Hb Cb] Da Db. apply (val_inj 23); [assumption|assumption|].
  apply (codeword_unique (val l)); [assumption|assumption| |].
  - rewrite <- (hdist_weight 23) by assumption. exact Da.
  - rewrite <- (hdist_weight 23) by assumption. exact Db.
Qed.

(* the decoder in terms of any codeword within distance three *)
Lemma golay2312_near : forall l cw, is_bits 23 l -> golay_word cw -> hdist l cw <= 3 ->
  mbe_golay2312 l = Ok (firstn 11 l ++ skipn 11 cw, hdist (skipn 11 l) (skipn 11 cw)).
Proof.
  intros l cw Hl Hcw Hd. destruct (gnear_l_spec l Hl) as (Hg & Hgd).
  assert (E : cw = gnear_l l) by (apply (golay_word_unique l); assumption). subst cw.
  rewrite (golay2312_closed l Hl). unfold gnear_l, golay_data.
  change 23%nat with (11 + 12)%nat. rewrite bits_of_skipn. change (2 ^ Z.of_nat 11) with (2 ^ 11).
  rewrite Z.shiftr_div_pow2 by lia. rewrite hdist_comm. reflexivity.
Qed.

Lemma golay2312_full : forall l, is_bits 23 l ->
  exists cw out errs,
    golay_word cw /\ hdist l cw <= 3 /\ (forall cw', golay_word cw' -> hdist l cw' <= 3 -> cw' = cw)
    /\ mbe_golay2312 l = Ok (out, errs)
    /\ is_bits 23 out /\ skipn 11 out = skipn 11 cw /\ firstn 11 out = firstn 11 l
    /\ errs = hdist l out /\ 0 <= errs <= 3
    /\ mbe_golay2312 out = Ok (out, 0).
Proof.
  intros l Hl. destruct (gnear_l_spec l Hl) as (Hg & Hgd). set (cw := gnear_l l) in *.
  assert (Lcw : length cw = 23%nat) by apply Hg. assert (Ll : length l = 23%nat) by apply Hl.
  assert (L11 : length (firstn 11 l) = 11%nat) by (rewrite firstn_length; lia).
  set (out := firstn 11 l ++ skipn 11 cw).
  assert (Hout : is_bits 23 out).
  { change 23%nat with (11 + (23 - 11))%nat. apply is_bits_app.
    - apply (is_bits_firstn 11 23); [exact Hl|lia].
    - apply is_bits_skipn. apply Hg. }
  assert (Ho1 : firstn 11 out = firstn 11 l).
  { unfold out. rewrite firstn_app, L11, (firstn_all2 (firstn 11 l)) by lia. apply app_nil_r. }
  assert (Ho2 : skipn 11 out = skipn 11 cw).
  { unfold out. rewrite skipn_app, L11, (skipn_all2 (firstn 11 l)) by lia. reflexivity. }
  assert (Hlo : hdist l out = hdist (skipn 11 l) (skipn 11 cw)).
  { rewrite (hdist_split 11 l out) by (rewrite Ll; symmetry; apply Hout).
    rewrite Ho1, Ho2, hdist_refl. lia. }
  pose proof (hdist_split 11 l cw ltac:(lia)) as Hs.
  pose proof (hdist_nonneg (firstn 11 l) (firstn 11 cw)) as Hn1.
  pose proof (hdist_nonneg (skipn 11 l) (skipn 11 cw)) as Hn2.
  assert (Hoc : hdist out cw <= 3).
  { rewrite (hdist_split 11 out cw) by (rewrite Lcw; apply Hout). rewrite Ho1, Ho2, hdist_refl. lia. }
  exists cw, out, (hdist (skipn 11 l) (skipn 11 cw)).
  split; [exact Hg|]. split; [exact Hgd|]. split.
  { intros cw' Hc' Hd'. apply (golay_word_unique l); assumption. }
  split; [apply golay2312_near; assumption|].
  split; [exact Hout|]. split; [exact Ho2|]. split; [exact Ho1|]. split; [now symmetry|].
  split; [lia|].
  rewrite (golay2312_near out cw Hout Hg Hoc). rewrite Ho1, Ho2, hdist_refl. reflexivity.
Qed.

(* ---------- checkGolayBlock on all longs ---------- *)

Lemma checkGolay_high : mbe_checkGolayBlock (2 ^ 23) = Ok 4096.
Proof. vm_compute. reflexivity. Qed.

Lemma checkGolay_low23 : forall v, 0 <= v < 2 ^ 23 ->
  exists d, mbe_checkGolayBlock v = Ok d /\ 0 <= d < 4096.
Proof.
  intros v Hv. destruct (gnear_spec v Hv) as (Hcw & _ & E). exists (golay_data (gnear v)). split; [exact E|].
  destruct (codeword_facts _ Hcw) as (_ & Hr & _). unfold golay_data. rewrite Z.shiftr_div_pow2 by lia.
  split; [apply Z.div_pos; lia|apply Z.div_lt_upper_bound; lia].
Qed.

(* every long: the bits of the low 32 above the codeword are passed on into the result *)
Lemma lxor_disjoint_add : forall h l k, 0 <= k -> 0 <= l < 2 ^ k -> Z.lxor (Z.shiftl h k) l = Z.shiftl h k + l.
Proof.
  intros h l k Hk Hl. symmetry. apply Z.add_nocarry_lxor. apply Z.bits_inj'. intros n Hn.
  rewrite Z.land_spec, Z.bits_0. destruct (Z.lt_ge_cases n k) as [H | H].
  - now rewrite Z.shiftl_spec_low by lia.
  - rewrite (testbit_high l k n) by lia. apply andb_false_r.
Qed.

Lemma encsel_high : forall gs pos h, pos < 23 -> Z.of_nat (length gs) <= pos + 1 ->
  encsel gs pos (Z.shiftl h 23) = 0.
Proof.
  induction gs as [|g gs IH]; intros pos h Hp Hl; [reflexivity|].
  rewrite Nat2Z.inj_succ in Hl || (cbn [length] in Hl; rewrite Nat2Z.inj_succ in Hl).
  change (encsel (g :: gs) pos (Z.shiftl h 23))
    with (Z.lxor (if Z.testbit (Z.shiftl h 23) pos then g else 0) (encsel gs (pos - 1) (Z.shiftl h 23))).
  rewrite IH by lia. rewrite Z.shiftl_spec_low by lia. reflexivity.
Qed.

Lemma synd_high : forall h, synd (Z.shiftl h 23) = 0.
Proof.
  intros h. change (synd (Z.shiftl h 23))
    with (Z.lxor (encsel golayGenerator 22 (Z.shiftl h 23)) (Z.land (Z.shiftl h 23) 2047)).
  rewrite encsel_high by (vm_compute; congruence). rewrite Z.lxor_0_l.
  apply Z.bits_inj'. intros n Hn. rewrite Z.land_spec, Z.bits_0. change 2047 with (Z.ones 11).
  destruct (Z.lt_ge_cases n 11) as [H | H].
  - now rewrite Z.shiftl_spec_low by lia.
  - rewrite Z.ones_spec_high by lia. apply andb_false_r.
Qed.

Lemma checkGolay_mod32 : forall v, mbe_checkGolayBlock v = mbe_checkGolayBlock (v mod 2 ^ 32).
Proof.
  intros v. unfold mbe_checkGolayBlock.
  assert (E : to_u32 v = to_u32 (v mod 2 ^ 32)).
  { unfold to_u32. change (2 ^ 32) with 4294967296. now rewrite Z.mod_mod by lia. }
  now rewrite <- E.
Qed.

Lemma checkGolay_any : forall v, exists d, mbe_checkGolayBlock (v mod 2 ^ 23) = Ok d /\ 0 <= d < 4096
  /\ mbe_checkGolayBlock v = Ok (d + 4096 * ((v mod 2 ^ 32) / 2 ^ 23)).
Proof.
  intros v. set (lo := v mod 2 ^ 23). set (hi := (v mod 2 ^ 32) / 2 ^ 23).
  assert (Hlo : 0 <= lo < 2 ^ 23) by (apply Z.mod_pos_bound; lia).
  assert (Hu : 0 <= v mod 2 ^ 32 < 2 ^ 32) by (apply Z.mod_pos_bound; lia).
  assert (Hhi : 0 <= hi) by (apply Z.div_pos; lia).
  assert (Hsum : v mod 2 ^ 32 = Z.lxor (Z.shiftl hi 23) lo).
  { rewrite lxor_disjoint_add by lia. rewrite Z.shiftl_mul_pow2 by lia.
    assert (Hl2 : lo = (v mod 2 ^ 32) mod 2 ^ 23).
    { unfold lo. change (2 ^ 32) with (2 ^ 23 * 2 ^ 9). rewrite Z.rem_mul_r by lia.
      rewrite (Z.mul_comm (2 ^ 23)), Z.mod_add, Z.mod_mod by lia. reflexivity. }
    rewrite Hl2. unfold hi. pose proof (Z.div_mod (v mod 2 ^ 32) (2 ^ 23) ltac:(lia)). lia. }
  destruct (checkGolay_low23 lo Hlo) as (d & Hd & Hdr). exists d. split; [exact Hd|]. split; [exact Hdr|].
  rewrite checkGolay_mod32. rewrite checkGolay_synd by exact Hu. rewrite checkGolay_synd in Hd by lia.
  rewrite Hsum, synd_lxor, synd_high, Z.lxor_0_l, Z.shiftr_lxor.
  destruct (rd golayMatrix (synd lo)) as [g | w]; cbn [bind] in *; [|discriminate].
  injection Hd as Hd. f_equal. rewrite Z.lxor_assoc, Hd.
  rewrite Z.shiftr_shiftl_l by lia. change (23 - 11) with 12. rewrite lxor_disjoint_add by lia.
  rewrite Z.shiftl_mul_pow2 by lia. change (2 ^ 12) with 4096. lia.
Qed.
