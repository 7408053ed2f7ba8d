From Coq Require Import ZArith List Bool Permutation Lia.
From Verif Require Import Res F32 Build MFft MAlloc SpecAlloc.
Import ListNotations.
Local Open Scope Z_scope.

Definition inb (a n : Z) (b : Z * Z) : Prop := fst b <= a /\ a + n <= fst b + snd b.
Lemma within_iff : forall a n b, within a n b = true <-> inb a n b.
Proof. intros a n b. unfold within, inb. rewrite andb_true_iff, !Z.leb_le. tauto. Qed.
Lemma allocated_in : forall h a n b, In b (h_live h) -> inb a n b -> allocated h a n = true.
Proof. intros h a n b B I. unfold allocated. apply existsb_exists. exists b. split; [exact B|]. now apply within_iff. Qed.
Lemma touch_in : forall h a n b, In b (h_live h) -> inb a n b -> touch a n h = Ok tt.
Proof. intros h a n b B I. unfold touch. now rewrite (allocated_in h a n b). Qed.

(* the invariant of the memory: blocks are real and apart *)
Definition wfh (h : heap) : Prop := NoDup (h_live h) /\ (forall b c, In b (h_live h) -> In c (h_live h) -> b <> c -> apart b c) /\
  (forall b, In b (h_live h) -> 0 < fst b /\ 0 < snd b).
Lemma null_bad : forall h n, wfh h -> 0 < n -> touch 0 n h = UB OOB.
Proof.
  intros h n (_ & _ & P) N. unfold touch. destruct (allocated h 0 n) eqn:E; [|reflexivity].
  apply existsb_exists in E as (b & B & W). apply within_iff in W. destruct (P b B), W. lia.
Qed.
Definition keeps (b : Z * Z) (h h' : heap) : Prop := In b (h_live h') /\ forall a, inb a 8 b -> lookup h' a = lookup h a.
Lemma keeps_trans : forall b h h' h'', keeps b h h' -> keeps b h' h'' -> keeps b h h''.
Proof. intros b h h' h'' [_ K] [B K']. split; [exact B|]. intros a I. rewrite K' by exact I. now apply K. Qed.

Lemma find_filter : forall {A} (p keep : A -> bool) l, (forall c, p c = true -> keep c = true) -> find p (filter keep l) = find p l.
Proof.
  intros A p keep l H. induction l as [|x l IH]; [reflexivity|]. cbn. destruct (keep x) eqn:K; cbn; [now rewrite IH|].
  destruct (p x) eqn:P; [rewrite (H x P) in K; discriminate K|exact IH].
Qed.
(* malloc *)
Definition ans (al : allocator) (h : heap) (n : Z) : Z := al (h_live h) (h_calls h) n.
Definition aside (P : Prop) : Prop := P.
Definition grow (p n : Z) (live : list (Z * Z)) : list (Z * Z) := if p =? 0 then live else (p, n) :: live.
Lemma answers_step : forall al h h' n ns, h_live h' = grow (ans al h n) n (h_live h) -> h_calls h' = h_calls h + 1 ->
  answers al (h_live h) (h_calls h) (n :: ns) = ans al h n :: answers al (h_live h') (h_calls h') ns.
Proof. intros al h h' n ns L C. rewrite L, C. reflexivity. Qed.
Lemma malloc_grow : forall al n h, h_live (snd (malloc al n h)) = grow (ans al h n) n (h_live h) /\ h_calls (snd (malloc al n h)) = h_calls h + 1.
Proof. intros al n h. unfold malloc, grow, ans. cbv zeta. destruct (_ =? 0); split; reflexivity. Qed.
Lemma malloc_spec : forall al n h p h', sane al -> wfh h -> 0 < n -> malloc al n h = (p, h') ->
  p = ans al h n /\ h_calls h' = h_calls h + 1 /\ wfh h' /\ (forall b, In b (h_live h) -> keeps b h h') /\
  ((p = 0 /\ h_live h' = h_live h) \/ (0 < p /\ p mod 16 = 0 /\ h_live h' = (p, n) :: h_live h /\ ~ In (p, n) (h_live h))).
Proof.
  intros al n h p h' S W N E. unfold malloc in E. fold (ans al h n) in E. cbv zeta in E. destruct (ans al h n =? 0) eqn:Z.
  - apply Z.eqb_eq in Z. injection E as <- <-. rewrite Z. split; [reflexivity|]. split; [reflexivity|]. split; [exact W|]. split; [|left; split; reflexivity].
    intros b B. split; [exact B|]. reflexivity.
  - apply Z.eqb_neq in Z. injection E as <- <-. pose proof (S (h_live h) (h_calls h) n N) as SS. fold (ans al h n) in SS. destruct SS as [F | (P & M & T & A)]; [contradiction|]. destruct W as (ND & AP & PO).
    assert (NI : ~ In (ans al h n, n) (h_live h)). { intros I. destruct (A _ I) as [X | X]; cbn in X; lia. }
    split; [reflexivity|]. split; [reflexivity|]. split; [|split].
    + split; [|split]; cbn.
      * constructor; assumption.
      * intros b c [<- | B] [<- | C] D; [contradiction| | |now apply AP].
        { now apply A. } { destruct (A b B); [right|left]; assumption. }
      * intros b [<- | B]; [cbn; lia|now apply PO].
    + intros b B. split; [now right|]. intros a I. unfold lookup. cbn. f_equal. apply find_filter. intros c C. apply Z.eqb_eq in C. rewrite C.
      rewrite negb_true_iff, andb_false_iff, !Z.ltb_ge. destruct (A b B) as [X | X]; cbn in X; destruct I as [I1 I2]; lia.
    + right. cbn. auto.
Qed.
(* store *)
Lemma store_spec : forall a v h b, In b (h_live h) -> inb a 8 b -> exists h', store a v h = Ok h' /\ h_live h' = h_live h /\ h_calls h' = h_calls h /\
  lookup h' a = Some v /\ (forall a', a' <> a -> lookup h' a' = lookup h a').
Proof.
  intros a v h b B I. unfold store. rewrite (touch_in h a 8 b B I). cbn [bind]. eexists. split; [reflexivity|]. cbn. split; [reflexivity|]. split; [reflexivity|].
  unfold lookup. cbn. rewrite Z.eqb_refl. split; [reflexivity|]. intros a' N. destruct (Z.eqb_spec a a'); [congruence|reflexivity].
Qed.
Lemma wfh_live : forall h h', h_live h' = h_live h -> wfh h -> wfh h'.
Proof. intros h h' E W. unfold wfh. rewrite E. exact W. Qed.
Lemma store_keeps : forall a v h b h' c, wfh h -> In b (h_live h) -> inb a 8 b -> store a v h = Ok h' -> In c (h_live h) -> c <> b -> keeps c h h'.
Proof.
  intros a v h b h' c (_ & AP & _) B I E C N. destruct (store_spec a v h b B I) as (h1 & E1 & L & _ & _ & O). rewrite E1 in E. injection E as <-.
  split; [now rewrite L|]. intros a' I'. apply O. intros ->. destruct (AP c b C B N) as [X | X]; destruct I, I'; lia.
Qed.
Lemma load_in : forall a h b v, In b (h_live h) -> inb a 8 b -> lookup h a = Some v -> load a h = Ok v.
Proof. intros a h b v B I L. unfold load. rewrite (touch_in h a 8 b B I). cbn [bind]. now rewrite L. Qed.
(* free *)
Lemma free_perm : forall h p n rest, wfh h -> Permutation (h_live h) ((p, n) :: rest) -> exists h', free p h = Ok h' /\ Permutation (h_live h') rest /\ wfh h' /\
  h_calls h' = h_calls h /\ h_cells h' = h_cells h.
Proof.
  intros h p n rest (ND & AP & PO) P. assert (I : In (p, n) (h_live h)) by (apply (Permutation_in _ (Permutation_sym P)); now left).
  destruct (PO _ I) as [P0 N0]. cbn in P0, N0. unfold free. destruct (Z.eqb_spec p 0); [lia|].
  replace (existsb (fun b => fst b =? p) (h_live h)) with true.
  2:{ symmetry. apply existsb_exists. exists (p, n). split; [exact I|]. cbn. apply Z.eqb_refl. }
  eexists. split; [reflexivity|]. cbn. assert (ND' : NoDup ((p, n) :: rest)) by (eapply Permutation_NoDup; eassumption).
  assert (F : Permutation (filter (fun b => negb (fst b =? p)) (h_live h)) rest).
  { apply NoDup_Permutation.
    - now apply NoDup_filter.
    - now inversion ND'.
    - intros x. rewrite filter_In. split.
      + intros [X Y]. apply (Permutation_in _ P) in X as [<- | X]; [|exact X]. cbn in Y. rewrite Z.eqb_refl in Y. discriminate Y.
      + intros X. assert (XL : In x (h_live h)) by (apply (Permutation_in _ (Permutation_sym P)); now right). split; [exact XL|].
        rewrite negb_true_iff, Z.eqb_neq. intros E. assert (D : x <> (p, n)) by (intros ->; inversion ND'; contradiction).
        destruct (AP x (p, n) XL I D) as [Q | Q]; cbn in Q; destruct (PO x XL); lia. }
  split; [exact F|]. split; [|split; reflexivity]. split; [now apply NoDup_filter|]. split; cbn.
  - intros b c B C. apply filter_In in B as [B _]. apply filter_In in C as [C _]. now apply AP.
  - intros b B. apply filter_In in B as [B _]. now apply PO.
Qed.

(* ---- aligned blocks ---- *)
Definition aligned (h : heap) (p nb : Z) (b : Z * Z) : Prop :=
  In b (h_live h) /\ snd b = nb + 64 /\ fst b + 8 <= p /\ p + nb <= fst b + snd b /\ p mod 64 = 0 /\ 0 < p /\ lookup h (p - 8) = Some (fst b).
Lemma aligned_keeps : forall h h' p nb b, 0 <= nb -> keeps b h h' -> aligned h p nb b -> aligned h' p nb b.
Proof.
  intros h h' p nb b N [B K] (_ & S & L & U & M & P & Q). repeat split; try assumption. rewrite K; [exact Q|]. unfold inb. lia.
Qed.
Lemma round_up : forall p0, p0 mod 16 = 0 -> 0 < p0 -> let p := Z.land (p0 + 64) (Z.lnot 63) in p mod 64 = 0 /\ p0 + 8 <= p /\ p <= p0 + 64.
Proof.
  intros p0 M P. cbv zeta. replace (Z.land (p0 + 64) (Z.lnot 63)) with (64 * ((p0 + 64) / 64)).
  2:{ rewrite <- Z.ldiff_land. change 63 with (Z.ones 6). rewrite Z.ldiff_ones_r by lia. rewrite Z.shiftr_div_pow2, Z.shiftl_mul_pow2 by lia. change (2 ^ 6) with 64. lia. }
  split; [rewrite Z.mul_comm; apply Z.mod_mul; lia|]. Z.to_euclidean_division_equations. lia.
Qed.
Lemma aligned_malloc_spec : forall al nb h, sane al -> wfh h -> 0 < nb -> exists p h', pffft_aligned_malloc al nb h = Ok (p, h') /\
  h_calls h' = h_calls h + 1 /\ wfh h' /\ (forall b, In b (h_live h) -> keeps b h h') /\
  ((p = 0 /\ ans al h (nb + 64) = 0 /\ h_live h' = h_live h) \/ (ans al h (nb + 64) <> 0 /\ 0 < p /\ exists b, h_live h' = b :: h_live h /\ ~ In b (h_live h) /\ aligned h' p nb b /\ b = (ans al h (nb + 64), nb + 64))).
Proof.
  intros al nb h S W N. unfold pffft_aligned_malloc. destruct (malloc al (nb + 64) h) as [p0 h1] eqn:E.
  apply malloc_spec in E as (E & C & W1 & K & O); [|exact S|exact W|lia]. destruct O as [[-> L] | (P & M & L & NI)].
  - cbn [Z.eqb]. eexists. eexists. split; [reflexivity|]. split; [exact C|]. split; [exact W1|]. split; [exact K|]. left. auto.
  - destruct (Z.eqb_spec p0 0); [lia|]. destruct (round_up p0 M P) as (A1 & A2 & A3). set (p := Z.land (p0 + 64) (Z.lnot 63)) in *. clearbody p.
    assert (B1 : In (p0, nb + 64) (h_live h1)) by (rewrite L; now left). assert (I1 : inb (p - 8) 8 (p0, nb + 64)) by (unfold inb; cbn; lia).
    destruct (store_spec (p - 8) p0 h1 _ B1 I1) as (h2 & E2 & L2 & C2 & Q & O). rewrite E2. cbn [bind]. exists p, h2. split; [reflexivity|].
    split; [lia|]. split; [now apply (wfh_live h1)|]. split.
    + intros b B. eapply keeps_trans; [now apply K|]. eapply store_keeps; [exact W1|exact B1|exact I1|exact E2|apply K; exact B|]. intros ->. contradiction.
    + right. split; [lia|]. split; [lia|]. exists (p0, nb + 64). split; [congruence|]. split; [exact NI|]. split; [|now rewrite E]. unfold aligned. cbn. rewrite L2. repeat split; try assumption; lia.
Qed.
Lemma aligned_free_perm : forall h p nb b rest, 0 <= nb -> wfh h -> aligned h p nb b -> Permutation (h_live h) (b :: rest) ->
  exists h', pffft_aligned_free p h = Ok h' /\ Permutation (h_live h') rest /\ wfh h' /\ h_calls h' = h_calls h /\ h_cells h' = h_cells h.
Proof.
  intros h p nb [p0 n] rest N W (B & S & L & U & M & P & Q) PE. cbn in *. unfold pffft_aligned_free. destruct (Z.eqb_spec p 0); [lia|].
  rewrite (load_in (p - 8) h (p0, n) p0); [|exact B|unfold inb; cbn; lia|exact Q]. cbn [bind]. eapply free_perm; eassumption.
Qed.

(* ---- the transform's setup ---- *)
Definition setup_at (h : heap) (s : Z) (d : Z) (db : Z * Z) : Prop := In (s, 136) (h_live h) /\ 0 < s /\ lookup h (s + 112) = Some d /\ aligned h d 1024 db.
Lemma setup_keeps : forall h h' s d db, keeps (s, 136) h h' -> keeps db h h' -> setup_at h s d db -> setup_at h' s d db.
Proof.
  intros h h' s d db [B K] KD (_ & P & Q & A). split; [exact B|]. split; [exact P|]. split; [|now apply (aligned_keeps h)]. rewrite K; [exact Q|]. unfold inb. cbn. lia.
Qed.
Lemma loop_tt : forall n i st (body : Z -> unit -> res unit), (forall k, 0 <= k < Z.of_nat n -> body (i + k * st) tt = Ok tt) -> loop n i st body tt = Ok tt.
Proof.
  induction n as [|n IH]; intros i st body H; [reflexivity|]. cbn [loop]. assert (H0 := H 0). rewrite Z.mul_0_l, Z.add_0_r in H0. rewrite H0 by lia. cbn [bind]. apply IH.
  intros k K. replace (i + st + k * st) with (i + (k + 1) * st) by lia. apply H. lia.
Qed.
Lemma for_tt : forall lo hi (body : Z -> unit -> res unit), (forall k, lo <= k < hi -> body k tt = Ok tt) -> for_up lo hi body tt = Ok tt.
Proof. intros lo hi body H. unfold for_up. apply loop_tt. intros k K. apply H. lia. Qed.
Lemma factors_ok : forall b, product_of_factors (256 / simd_sz b) = Ok (256 / simd_sz b).
Proof. intros []; vm_compute; reflexivity. Qed.
Lemma sz_cases : forall b, (simd_sz b = 1) \/ (simd_sz b = 4).
Proof. intros []; cbn; auto. Qed.

Lemma new_setup_spec : forall al b h, sane al -> wfh h -> ans al h 136 <> 0 -> ans al (snd (malloc al 136 h)) 1088 <> 0 ->
  exists s h' d db, pffft_new_setup al b 256 h = Ok (s, h') /\ h_calls h' = h_calls h + 2 /\ wfh h' /\ (forall c, In c (h_live h) -> keeps c h h') /\
  h_live h' = db :: (s, 136) :: h_live h /\ setup_at h' s d db /\ s = ans al h 136 /\ db = (ans al (snd (malloc al 136 h)) 1088, 1088).
Proof.
  intros al b h S W A1 A2. unfold pffft_new_setup, sizeof_setup. destruct (malloc al 136 h) as [s h1] eqn:E1. cbn [snd] in A2. pose proof (malloc_spec al 136 h s h1 S W ltac:(reflexivity) E1) as (Es & C1 & W1 & K1 & O1).
  destruct O1 as [[F _] | (P & M & L1 & NI)]; [congruence|]. assert (B1 : In (s, 136) (h_live h1)) by (rewrite L1; now left).
  assert (T : forall a n hh, In (s, 136) (h_live hh) -> s <= a -> a + n <= s + 136 -> touch a n hh = Ok tt) by (intros a n hh B X Y; apply (touch_in hh a n (s, 136) B); unfold inb; cbn; lia).
  cbv zeta. rewrite !(T _ _ h1 B1) by lia. cbn [bind].
  assert (SZ : 2 * (256 / 2 / simd_sz b) * (4 * simd_sz b) = 1024) by (destruct b; reflexivity). rewrite SZ.
  destruct (aligned_malloc_spec al 1024 h1 S W1 ltac:(reflexivity)) as (d & h2 & E2 & C2 & W2 & K2 & O2). rewrite E2. cbn [bind].
  destruct O2 as [(_ & F & _) | (_ & PD & db & L2 & ND & AD & DBE)]; [exfalso; apply A2; assumption|].
  assert (B2 : In (s, 136) (h_live h2)) by (rewrite L2; now right). assert (DB2 : In db (h_live h2)) by (rewrite L2; now left).
  assert (DN : db <> (s, 136)) by (intros ->; contradiction).
  assert (ST : forall hh a v, wfh hh -> h_live hh = h_live h2 -> s <= a -> a + 8 <= s + 136 -> exists h', store a v hh = Ok h' /\ wfh h' /\ h_live h' = h_live h2 /\ h_calls h' = h_calls hh /\
    lookup h' a = Some v /\ (forall a', a' <> a -> lookup h' a' = lookup hh a') /\ (forall c, In c (h_live h2) -> c <> (s, 136) -> keeps c hh h')).
  { intros hh a v WH LH X Y. assert (BH : In (s, 136) (h_live hh)) by now rewrite LH. assert (IH : inb a 8 (s, 136)) by (unfold inb; cbn; lia).
    destruct (store_spec a v hh _ BH IH) as (h' & E' & L' & C' & Q' & R'). exists h'. split; [exact E'|]. split; [now apply (wfh_live hh)|]. split; [congruence|]. split; [exact C'|].
    split; [exact Q'|]. split; [exact R'|]. intros c IC NC. eapply store_keeps; try eassumption. now rewrite LH. }
  destruct (ST h2 (s + 112) d W2 eq_refl) as (h3 & E3 & W3 & L3 & C3 & Q3 & _ & K3); [lia..|]. rewrite E3. cbn [bind].
  destruct (ST h3 (s + 120) d W3 L3) as (h4 & E4 & W4 & L4 & C4 & _ & R4 & K4); [lia..|]. rewrite E4. cbn [bind].
  set (tw := d + 2 * (256 / 2 / simd_sz b) * (simd_sz b - 1) / simd_sz b * (4 * simd_sz b)).
  destruct (ST h4 (s + 128) tw W4 L4) as (h5 & E5 & W5 & L5 & C5 & _ & R5 & K5); [lia..|]. rewrite E5. cbn [bind].
  assert (AD5 : aligned h5 d 1024 db).
  { apply (aligned_keeps h4); [lia|apply K5; assumption|]. apply (aligned_keeps h3); [lia|apply K4; assumption|]. apply (aligned_keeps h2); [lia|apply K3; assumption|exact AD]. }
  assert (TD : forall a n, d <= a -> a + n <= d + 1024 -> touch a n h5 = Ok tt).
  { intros a n X Y. destruct AD5 as (DB & _ & LO & HI & _). apply (touch_in h5 a n db DB). unfold inb. lia. }
  rewrite for_tt.
  2:{ intros k HK. apply for_tt. intros m HM. assert (X : 0 <= k / 4 <= 7 /\ 0 <= k mod 4 <= 3).
    { assert (HK4 : 0 <= k < 128) by (revert HK; destruct b; cbn [simd_sz lanes4]; Z.to_euclidean_division_equations; lia).
      destruct b; cbn [simd_sz lanes4] in HK, HM; [lia|..]; (split; [|pose proof (Z.mod_pos_bound k 4); lia]; change (256 / 2 / 4) with 32 in HK; Z.to_euclidean_division_equations; lia). }
    destruct b; cbn [simd_sz lanes4] in HM |- *; [lia|..]; revert X; generalize (k / 4) (k mod 4); intros i j (X & Y); (rewrite TD by lia; cbn [bind]; apply TD; lia). }
  cbn [bind].
  assert (OF : 0 <= 2 * (256 / 2 / simd_sz b) * (simd_sz b - 1) / simd_sz b * (4 * simd_sz b) /\
               2 * (256 / 2 / simd_sz b) * (simd_sz b - 1) / simd_sz b * (4 * simd_sz b) + 4 * (256 / simd_sz b) <= 1024) by (destruct b; vm_compute; split; discriminate).
  subst tw. set (off := 2 * (256 / 2 / simd_sz b) * (simd_sz b - 1) / simd_sz b * (4 * simd_sz b)) in *. rewrite TD by lia. cbn [bind].
  rewrite (T _ _ h5) by (try (rewrite L5; exact B2); lia). cbn [bind]. rewrite factors_ok. cbn [bind]. rewrite Z.eqb_refl.
  exists s, h5, d, db. split; [reflexivity|]. split; [lia|]. split; [exact W5|]. split; [|split].
  - intros c C. assert (NS : c <> (s, 136)) by (intros ->; contradiction). assert (C1' : In c (h_live h1)) by (rewrite L1; now right). assert (C2' : In c (h_live h2)) by (rewrite L2; now right).
    eapply keeps_trans; [now apply K1|]. eapply keeps_trans; [now apply K2|]. eapply keeps_trans; [now apply K3|]. eapply keeps_trans; [now apply K4|]. now apply K5.
  - congruence.
  - split; [|split; [exact Es|exact DBE]]. split; [now rewrite L5|]. split; [exact P|]. split; [|exact AD5]. rewrite R5, R4 by lia. exact Q3.
Qed.
(* its two allocations are not tested *)
Lemma new_setup_first : forall al b h, sane al -> wfh h -> ans al h 136 = 0 -> pffft_new_setup al b 256 h = UB OOB.
Proof.
  intros al b h S W F. unfold pffft_new_setup, sizeof_setup. destruct (malloc al 136 h) as [s h1] eqn:E1. pose proof (malloc_spec al 136 h s h1 S W ltac:(reflexivity) E1) as (Es & _ & W1 & _).
  rewrite Es, F. cbv zeta. rewrite null_bad by (exact W1 || lia). reflexivity.
Qed.
Lemma new_setup_second : forall al b h, sane al -> wfh h -> ans al h 136 <> 0 -> ans al (snd (malloc al 136 h)) 1088 = 0 -> pffft_new_setup al b 256 h = UB OOB.
Proof.
  intros al b h S W A1 A2. unfold pffft_new_setup, sizeof_setup. destruct (malloc al 136 h) as [s h1] eqn:E1. cbn [snd] in A2. pose proof (malloc_spec al 136 h s h1 S W ltac:(reflexivity) E1) as (Es & C1 & W1 & K1 & O1).
  destruct O1 as [[F _] | (P & M & L1 & NI)]; [congruence|]. assert (B1 : In (s, 136) (h_live h1)) by (rewrite L1; now left).
  assert (T : forall a n hh, In (s, 136) (h_live hh) -> s <= a -> a + n <= s + 136 -> touch a n hh = Ok tt) by (intros a n hh B X Y; apply (touch_in hh a n (s, 136) B); unfold inb; cbn; lia).
  cbv zeta. rewrite !(T _ _ h1 B1) by lia. cbn [bind].
  assert (SZ : 2 * (256 / 2 / simd_sz b) * (4 * simd_sz b) = 1024) by (destruct b; reflexivity). rewrite SZ.
  destruct (aligned_malloc_spec al 1024 h1 S W1 ltac:(reflexivity)) as (d & h2 & E2 & C2 & W2 & K2 & O2). rewrite E2. cbn [bind].
  destruct O2 as [(-> & _ & L2) | (F & _)]; [|exfalso; apply F; assumption].
  assert (ST : forall hh a v, wfh hh -> h_live hh = h_live h1 -> s <= a -> a + 8 <= s + 136 -> exists h', store a v hh = Ok h' /\ wfh h' /\ h_live h' = h_live h1).
  { intros hh a v WH LH X Y. assert (BH : In (s, 136) (h_live hh)) by now rewrite LH. assert (IH : inb a 8 (s, 136)) by (unfold inb; cbn; lia).
    destruct (store_spec a v hh _ BH IH) as (h' & E' & L' & _). exists h'. split; [exact E'|]. split; [now apply (wfh_live hh)|congruence]. }
  destruct (ST h2 (s + 112) 0 W2 L2) as (h3 & E3 & W3 & L3); [lia..|]. rewrite E3. cbn [bind].
  destruct (ST h3 (s + 120) 0 W3 L3) as (h4 & E4 & W4 & L4); [lia..|]. rewrite E4. cbn [bind].
  set (tw := 0 + _). destruct (ST h4 (s + 128) tw W4 L4) as (h5 & E5 & W5 & L5); [lia..|]. rewrite E5. cbn [bind].
  destruct b; cbn [simd_sz lanes4].
  - rewrite for_tt by (intros k HK; apply for_tt; intros m HM; lia). cbn [bind]. subst tw. cbn [simd_sz lanes4]. rewrite null_bad by (exact W5 || reflexivity). reflexivity.
  - unfold for_up at 1. change (Z.to_nat (256 / 2 / 4 - 0)) with 32%nat. cbn [loop]. unfold for_up at 1. change (Z.to_nat (4 - 1 - 0)) with 3%nat. cbn [loop].
    rewrite null_bad by (exact W5 || reflexivity). reflexivity.
  - unfold for_up at 1. change (Z.to_nat (256 / 2 / 4 - 0)) with 32%nat. cbn [loop]. unfold for_up at 1. change (Z.to_nat (4 - 1 - 0)) with 3%nat. cbn [loop].
    rewrite null_bad by (exact W5 || reflexivity). reflexivity.
Qed.
Lemma destroy_perm : forall h s d db rest, wfh h -> setup_at h s d db -> Permutation (h_live h) (db :: (s, 136) :: rest) ->
  exists h', pffft_destroy_setup s h = Ok h' /\ Permutation (h_live h') rest /\ wfh h' /\ h_calls h' = h_calls h /\ h_cells h' = h_cells h.
Proof.
  intros h s d db rest W (B & P & Q & A) PE. unfold pffft_destroy_setup. rewrite (load_in (s + 112) h (s, 136) d); [|exact B|unfold inb; cbn; lia|exact Q]. cbn [bind].
  destruct (aligned_free_perm h d 1024 db _ ltac:(lia) W A PE) as (h1 & E1 & P1 & W1 & C1 & X1). rewrite E1. cbn [bind].
  destruct (free_perm h1 s 136 rest W1 P1) as (h2 & E2 & P2 & W2 & C2 & X2). exists h2. split; [exact E2|]. split; [exact P2|]. split; [exact W2|]. split; congruence.
Qed.

(* ---- the plan ---- *)
Definition field (h : heap) (u : Z) (l : list (Z * Z)) : Prop := (u = 0 /\ l = []) \/ (exists b, l = [b] /\ aligned h u 1024 b).
Lemma field_keeps : forall h h' u l, (forall b, In b l -> keeps b h h') -> field h u l -> field h' u l.
Proof. intros h h' u l K [X | (b & -> & A)]; [now left|]. right. exists b. split; [reflexivity|]. apply (aligned_keeps h); [lia|apply K; now left|exact A]. Qed.
Definition plan_at (h : heap) (plan : Z) (pb : Z * Z) (s u0 u1 u2 u3 : Z) : Prop := aligned h plan 5504 pb /\
  lookup h (plan + 744) = Some s /\ lookup h (plan + 752) = Some u0 /\ lookup h (plan + 760) = Some u1 /\ lookup h (plan + 3968) = Some u2 /\ lookup h (plan + 3976) = Some u3.
Lemma plan_keeps : forall h h' plan pb s u0 u1 u2 u3, keeps pb h h' -> plan_at h plan pb s u0 u1 u2 u3 -> plan_at h' plan pb s u0 u1 u2 u3.
Proof.
  intros h h' plan pb s u0 u1 u2 u3 K (A & L). split; [now apply (aligned_keeps h); [lia|..]|]. destruct A as (_ & S & LO & HI & _). destruct K as [_ K].
  rewrite !K by (unfold inb; lia). exact L.
Qed.
Definition owned (h : heap) (plan : Z) (own : list (Z * Z)) : Prop := exists pb s d db u0 l0 u1 l1 u2 l2 u3 l3,
  plan_at h plan pb s u0 u1 u2 u3 /\ setup_at h s d db /\ field h u0 l0 /\ field h u1 l1 /\ field h u2 l2 /\ field h u3 l3 /\
  own = db :: (s, 136) :: l0 ++ l1 ++ l2 ++ l3 ++ [pb].
Lemma owned_keeps : forall h h' plan own, (forall b, In b own -> keeps b h h') -> owned h plan own -> owned h' plan own.
Proof.
  intros h h' plan own K (pb & s & d & db & u0 & l0 & u1 & l1 & u2 & l2 & u3 & l3 & P & S & F0 & F1 & F2 & F3 & ->).
  exists pb, s, d, db, u0, l0, u1, l1, u2, l2, u3, l3. split; [|split; [|split; [|split; [|split; [|split; [|reflexivity]]]]]].
  - apply (plan_keeps h); [|exact P]. apply K. right. right. rewrite !in_app_iff. cbn. tauto.
  - apply (setup_keeps h); [| |exact S]; apply K; cbn; tauto.
  - apply (field_keeps h); [|exact F0]. intros b B. apply K. right. right. rewrite !in_app_iff. tauto.
  - apply (field_keeps h); [|exact F1]. intros b B. apply K. right. right. rewrite !in_app_iff. tauto.
  - apply (field_keeps h); [|exact F2]. intros b B. apply K. right. right. rewrite !in_app_iff. tauto.
  - apply (field_keeps h); [|exact F3]. intros b B. apply K. right. right. rewrite !in_app_iff. tauto.
Qed.
Lemma keeps_cells : forall h h' b, h_cells h' = h_cells h -> In b (h_live h') -> keeps b h h'.
Proof. intros h h' b C B. split; [exact B|]. intros a _. unfold lookup. now rewrite C. Qed.
Lemma free_field_perm : forall h plan pb f u l rest, wfh h -> aligned h plan 5504 pb -> 0 <= f -> f + 8 <= 5504 -> lookup h (plan + f) = Some u -> field h u l ->
  Permutation (h_live h) (l ++ rest) ->
  exists h', free_field plan f h = Ok h' /\ Permutation (h_live h') rest /\ wfh h' /\ h_calls h' = h_calls h /\ h_cells h' = h_cells h.
Proof.
  intros h plan pb f u l rest W (B & S & LO & HI & _) F0 F1 Q F P. unfold free_field. rewrite (load_in (plan + f) h pb u); [|exact B|unfold inb; lia|exact Q]. cbn [bind].
  destruct F as [[-> ->] | (b & -> & A)].
  - cbn. exists h. auto.
  - destruct (Z.eqb_spec u 0) as [E|_]; [destruct A as (_ & _ & _ & _ & _ & X & _); lia|]. eapply aligned_free_perm; [|exact W|exact A|exact P]. lia.
Qed.
Lemma in_perm : forall {A} (x : A) l l', Permutation l l' -> In x l' -> In x l.
Proof. intros A x l l' P. apply Permutation_in. now apply Permutation_sym. Qed.
Lemma free_owned : forall h plan own f, wfh h -> owned h plan own -> Permutation (h_live h) (own ++ f) ->
  exists h', mbe_fft_plan_free plan h = Ok h' /\ Permutation (h_live h') f /\ wfh h' /\ h_calls h' = h_calls h /\ h_cells h' = h_cells h.
Proof.
  intros h plan own f W (pb & s & d & db & u0 & l0 & u1 & l1 & u2 & l2 & u3 & l3 & P & S & F0 & F1 & F2 & F3 & ->) PE.
  replace ((db :: (s, 136) :: l0 ++ l1 ++ l2 ++ l3 ++ [pb]) ++ f) with (db :: (s, 136) :: (l0 ++ (l1 ++ (l2 ++ (l3 ++ pb :: f))))) in PE by (cbn; rewrite <- !app_assoc; reflexivity).
  assert (PL : 0 < plan) by (destruct P as ((_ & _ & _ & _ & _ & X & _) & _); exact X).
  unfold mbe_fft_plan_free, at_setup, at_Uw, at_Uw_fft, at_Uw_out, at_work. destruct (Z.eqb_spec plan 0); [lia|].
  assert (Q := P). destruct Q as (A & Qs & Q0 & Q1 & Q2 & Q3). rewrite (load_in (plan + 744) h pb s); [|apply A|unfold inb; destruct A as (_ & X1 & X2 & X3 & _); lia|exact Qs]. cbn [bind].
  destruct (Z.eqb_spec s 0) as [E|_]; [destruct S as (_ & X & _); lia|].
  destruct (destroy_perm h s d db _ W S PE) as (h1 & E1 & P1 & W1 & C1 & X1). rewrite E1. cbn [bind].
  assert (KP1 : plan_at h1 plan pb s u0 u1 u2 u3). { apply (plan_keeps h); [|exact P]. apply keeps_cells; [exact X1|]. apply (in_perm _ _ _ P1). rewrite !in_app_iff. cbn. tauto. }
  assert (KF : forall hh, h_cells hh = h_cells h1 -> forall u l rest, field h u l -> Permutation (h_live hh) (l ++ rest) -> field hh u l).
  { intros hh XC u l rest FF PP. apply (field_keeps h); [|exact FF]. intros b B. apply keeps_cells; [congruence|]. apply (in_perm _ _ _ PP). rewrite in_app_iff. tauto. }
  destruct (free_field_perm h1 plan pb 752 u0 l0 _ W1 (proj1 KP1) ltac:(lia) ltac:(lia) (proj1 (proj2 (proj2 KP1))) (KF h1 eq_refl _ _ _ F0 P1) P1) as (h2 & E2 & P2 & W2 & C2 & X2). rewrite E2. cbn [bind].
  assert (KP2 : plan_at h2 plan pb s u0 u1 u2 u3). { apply (plan_keeps h1); [|exact KP1]. apply keeps_cells; [exact X2|]. apply (in_perm _ _ _ P2). rewrite !in_app_iff. cbn. tauto. }
  destruct (free_field_perm h2 plan pb 760 u1 l1 _ W2 (proj1 KP2) ltac:(lia) ltac:(lia) (proj1 (proj2 (proj2 (proj2 KP2)))) (KF h2 X2 _ _ _ F1 P2) P2) as (h3 & E3 & P3 & W3 & C3 & X3). rewrite E3. cbn [bind].
  assert (KP3 : plan_at h3 plan pb s u0 u1 u2 u3). { apply (plan_keeps h2); [|exact KP2]. apply keeps_cells; [exact X3|]. apply (in_perm _ _ _ P3). rewrite !in_app_iff. cbn. tauto. }
  assert (XX3 : h_cells h3 = h_cells h1) by congruence.
  destruct (free_field_perm h3 plan pb 3968 u2 l2 _ W3 (proj1 KP3) ltac:(lia) ltac:(lia) (proj1 (proj2 (proj2 (proj2 (proj2 KP3))))) (KF h3 XX3 _ _ _ F2 P3) P3) as (h4 & E4 & P4 & W4 & C4 & X4). rewrite E4. cbn [bind].
  assert (KP4 : plan_at h4 plan pb s u0 u1 u2 u3). { apply (plan_keeps h3); [|exact KP3]. apply keeps_cells; [exact X4|]. apply (in_perm _ _ _ P4). rewrite !in_app_iff. cbn. tauto. }
  assert (XX4 : h_cells h4 = h_cells h1) by congruence.
  destruct (free_field_perm h4 plan pb 3976 u3 l3 _ W4 (proj1 KP4) ltac:(lia) ltac:(lia) (proj2 (proj2 (proj2 (proj2 (proj2 KP4))))) (KF h4 XX4 _ _ _ F3 P4) P4) as (h5 & E5 & P5 & W5 & C5 & X5). rewrite E5. cbn [bind].
  assert (KP5 : plan_at h5 plan pb s u0 u1 u2 u3). { apply (plan_keeps h4); [|exact KP4]. apply keeps_cells; [exact X5|]. apply (in_perm _ _ _ P5). now left. }
  destruct (aligned_free_perm h5 plan 5504 pb f ltac:(lia) W5 (proj1 KP5) P5) as (h6 & E6 & P6 & W6 & C6 & X6). exists h6. split; [exact E6|]. split; [exact P6|]. split; [exact W6|]. split; congruence.
Qed.
Lemma store_plan : forall h plan pb f v, wfh h -> aligned h plan 5504 pb -> 0 <= f -> f + 8 <= 5504 -> exists h', store (plan + f) v h = Ok h' /\ wfh h' /\ h_live h' = h_live h /\ h_calls h' = h_calls h /\
  aligned h' plan 5504 pb /\ lookup h' (plan + f) = Some v /\ (forall a, a <> plan + f -> lookup h' a = lookup h a) /\ (forall c, In c (h_live h) -> c <> pb -> keeps c h h').
Proof.
  intros h plan pb f v W A F0 F1. assert (A' := A). destruct A' as (B & S & LO & HI & M & P & Q). assert (I : inb (plan + f) 8 pb) by (unfold inb; lia).
  destruct (store_spec (plan + f) v h pb B I) as (h' & E & L & C & X & O). exists h'. split; [exact E|]. split; [now apply (wfh_live h)|]. split; [exact L|]. split; [exact C|].
  split; [|split; [exact X|split; [exact O|]]].
  - split; [now rewrite L|]. repeat (split; [assumption|]). rewrite O by lia. exact Q.
  - intros c IC NC. exact (store_keeps (plan + f) v h pb h' c W B I E IC NC).
Qed.
Lemma alloc_field_spec : forall al h plan pb f, sane al -> wfh h -> aligned h plan 5504 pb -> 0 <= f -> f + 8 <= 5504 -> exists u l h', alloc_field al plan f h = Ok h' /\
  h_calls h' = h_calls h + 1 /\ wfh h' /\ h_live h' = l ++ h_live h /\ field h' u l /\ (u = 0 -> l = []) /\ aligned h' plan 5504 pb /\ lookup h' (plan + f) = Some u /\
  (forall a, inb a 8 pb -> a <> plan + f -> lookup h' a = lookup h a) /\ (forall c, In c (h_live h) -> c <> pb -> keeps c h h') /\ l = grow (ans al h 1088) 1088 [] /\ (u = 0 <-> ans al h 1088 = 0).
Proof.
  intros al h plan pb f S W A F0 F1. unfold alloc_field. destruct (aligned_malloc_spec al (256 * 4) h S W ltac:(lia)) as (u & h1 & E1 & C1 & W1 & K1 & O1). rewrite E1. cbn [bind].
  assert (A1 : aligned h1 plan 5504 pb) by (apply (aligned_keeps h); [lia|apply K1, A|exact A]).
  destruct (store_plan h1 plan pb f u W1 A1 F0 F1) as (h2 & E2 & W2 & L2 & C2 & A2 & X2 & R2 & K2).
  assert (KK : forall c, In c (h_live h) -> c <> pb -> keeps c h h2). { intros c IC NC. eapply keeps_trans; [now apply K1|]. apply K2; [apply K1; exact IC|exact NC]. }
  assert (RR : forall a, inb a 8 pb -> a <> plan + f -> lookup h2 a = lookup h a). { intros a IA NA. rewrite R2 by exact NA. apply (proj2 (K1 pb (proj1 A))). exact IA. }
  destruct O1 as [(-> & AZ & L1) | (AZ & PU & b & L1 & NI & AB & BE)]; change (256 * 4 + 64) with 1088 in *.
  - exists 0, [], h2. split; [exact E2|]. split; [lia|]. split; [exact W2|]. split; [cbn; congruence|]. split; [now left|]. split; [reflexivity|]. unfold grow. rewrite AZ. repeat (split; [assumption|]). split; [reflexivity|tauto].
  - exists u, [b], h2. assert (NB : b <> pb) by (intros ->; apply NI, A). split; [exact E2|]. split; [lia|]. split; [exact W2|]. split; [cbn; congruence|]. split; [|split; [lia|]]; [|repeat (split; [assumption|]); split; [unfold grow; destruct (Z.eqb_spec (ans al h 1088) 0); [contradiction|now rewrite BE]|split; [lia|contradiction]]].
    right. exists b. split; [reflexivity|]. apply (aligned_keeps h1); [lia| |exact AB]. apply K2; [rewrite L1; now left|exact NB].
Qed.

Lemma alloc_spec : forall al b h, sane al -> wfh h ->
  (mbe_fft_plan_alloc al b h = UB OOB /\ starved al h) \/
  exists p h', mbe_fft_plan_alloc al b h = Ok (p, h') /\ wfh h' /\ (forall c, In c (h_live h) -> keeps c h h') /\
  ((p = 0 /\ Permutation (h_live h') (h_live h)) \/ (0 < p /\ exists own, length own = 7%nat /\ owned h' p own /\ Permutation (h_live h') (own ++ h_live h))) /\
  (p <> 0 <-> enough al h) /\ ~ starved al h.
Proof.
  intros al b h S W. unfold mbe_fft_plan_alloc, sizeof_plan. destruct (aligned_malloc_spec al 5504 h S W ltac:(lia)) as (plan & h1 & E1 & C1 & W1 & K1 & O1). rewrite E1. cbn [bind].
  destruct O1 as [(-> & FA & L1) | (NA & PP & pb & L1 & NI & AP & BE)].
  { cbn [Z.eqb]. right. exists 0, h1. split; [reflexivity|]. split; [exact W1|]. split; [exact K1|]. split; [left; split; [reflexivity|now rewrite L1]|].
    assert (N0 : answer_to al h 0 = 0) by exact FA. split; [|intros [X _]; contradiction]. split; [contradiction|]. intros EN. exfalso. apply (EN 0%nat); [lia|exact N0]. }
  destruct (Z.eqb_spec plan 0); [lia|]. unfold at_setup, at_Uw, at_Uw_fft, at_Uw_out, at_work.
  destruct (store_plan h1 plan pb 744 0 W1 AP) as (g1 & F1 & V1 & M1 & D1 & P1 & X1 & R1 & Q1); [lia..|]. rewrite F1. cbn [bind].
  destruct (store_plan g1 plan pb 752 0 V1 P1) as (g2 & F2 & V2 & M2 & D2 & P2 & X2 & R2 & Q2); [lia..|]. rewrite F2. cbn [bind].
  destruct (store_plan g2 plan pb 760 0 V2 P2) as (g3 & F3 & V3 & M3 & D3 & P3 & X3 & R3 & Q3); [lia..|]. rewrite F3. cbn [bind].
  destruct (store_plan g3 plan pb 3968 0 V3 P3) as (g4 & F4 & V4 & M4 & D4 & P4 & X4 & R4 & Q4); [lia..|]. rewrite F4. cbn [bind].
  destruct (store_plan g4 plan pb 3976 0 V4 P4) as (g5 & F5 & V5 & M5 & D5 & P5 & X5 & R5 & Q5); [lia..|]. rewrite F5. cbn [bind].
  assert (KO : forall c, In c (h_live h) -> keeps c h g5 /\ c <> pb).
  { intros c IC. assert (NC : c <> pb) by (intros ->; contradiction). split; [|exact NC]. assert (I1 : In c (h_live h1)) by (rewrite L1; now right).
    eapply keeps_trans; [now apply K1|]. eapply keeps_trans; [now apply Q1|]. eapply keeps_trans; [apply Q2; [congruence|exact NC]|]. eapply keeps_trans; [apply Q3; [congruence|exact NC]|].
    eapply keeps_trans; [apply Q4; [congruence|exact NC]|]. apply Q5; [congruence|exact NC]. }
  assert (CG : h_calls g5 = h_calls h + 1) by lia.
  assert (GA : forall c, ans al h c = al (h_live h) (h_calls h) c) by reflexivity. change (5504 + 64) with 5568 in *.
  assert (G0 : h_live g5 = grow (ans al h 5568) 5568 (h_live h)). { unfold grow. destruct (Z.eqb_spec (ans al h 5568) 0); [contradiction|]. rewrite <- BE. congruence. }
  destruct (malloc_grow al 136 g5) as [G1 CM]. set (gm := snd (malloc al 136 g5)) in *.
  assert (T0 : answer_to al h 0 = ans al h 5568) by reflexivity.
  assert (T1 : answer_to al h 1 = ans al g5 136). { unfold answer_to, sizes. change (5504 + 64) with 5568. rewrite (answers_step al h g5 5568 _ G0 CG). reflexivity. }
  assert (T2 : answer_to al h 2 = ans al gm 1088). { unfold answer_to, sizes. change (5504 + 64) with 5568. rewrite (answers_step al h g5 5568 _ G0 CG), (answers_step al g5 gm 136 _ G1 CM). reflexivity. }
  destruct (Z.eq_dec (ans al g5 136) 0) as [Z1 | A1].
  { left. rewrite (new_setup_first al b g5 S V5 Z1). split; [reflexivity|]. unfold starved. rewrite T0, T1. auto. }
  destruct (Z.eq_dec (ans al gm 1088) 0) as [Z2 | A2].
  { left. rewrite (new_setup_second al b g5 S V5 A1 Z2). split; [reflexivity|]. unfold starved. rewrite T0, T2. auto. }
  right. assert (TH : ~ starved al h) by (unfold starved; rewrite T1, T2; tauto).
  destruct (new_setup_spec al b g5 S V5 A1 A2) as (s & h2 & d & db & E2 & C2 & W2 & K2 & L2 & S2 & Es & Ed). fold gm in Ed.
  rewrite E2. cbn [bind]. assert (L5 : h_live g5 = pb :: h_live h) by congruence.
  assert (IPB : In pb (h_live g5)) by (rewrite L5; now left). assert (AP2 : aligned h2 plan 5504 pb) by (apply (aligned_keeps g5); [lia|now apply K2|exact P5]).
  assert (NDL : NoDup (h_live h2)) by apply W2. rewrite L2, L5 in NDL.
  assert (NDB : db <> pb /\ (s, 136) <> pb). { inversion NDL as [|? ? N1 N2]. inversion N2 as [|? ? N3 N4]. split; [intros ->; apply N1|intros E0; apply N3; rewrite E0]; cbn; tauto. }
  destruct (store_plan h2 plan pb 744 s W2 AP2) as (h3 & E3 & W3 & L3 & C3 & AP3 & X3' & R3' & K3); [lia..|]. rewrite E3. cbn [bind].
  destruct (Z.eqb_spec s 0) as [Es0|_]; [destruct S2 as (_ & X & _); lia|].
  assert (L3' : h_live h3 = db :: (s, 136) :: pb :: h_live h) by congruence.
  assert (S3 : setup_at h3 s d db). { apply (setup_keeps h2); [| |exact S2]; apply K3; try apply NDB; rewrite L2; cbn; tauto. }
  assert (KO3 : forall c, In c (h_live h) -> keeps c h h3 /\ c <> pb).
  { intros c IC. destruct (KO c IC) as [KC NC]. split; [|exact NC]. eapply keeps_trans; [exact KC|]. eapply keeps_trans; [apply K2; rewrite L5; now right|]. apply K3; [rewrite L2, L5; cbn; tauto|exact NC]. }
  destruct (alloc_field_spec al h3 plan pb 752 S W3 AP3) as (u0 & l0 & h4 & E4 & C4 & W4 & L4 & Fd0 & Z0 & AP4 & Y0 & R4' & K4 & B0 & U0); [lia..|]. rewrite E4. cbn [bind].
  destruct (alloc_field_spec al h4 plan pb 760 S W4 AP4) as (u1 & l1 & h5 & E5 & C5 & W5 & L5' & Fd1 & Z1 & AP5 & Y1 & R5' & K5 & B1 & U1); [lia..|]. rewrite E5. cbn [bind].
  destruct (alloc_field_spec al h5 plan pb 3968 S W5 AP5) as (u2 & l2 & h6 & E6 & C6 & W6 & L6 & Fd2 & Z2 & AP6 & Y2 & R6' & K6 & B2 & U2); [lia..|]. rewrite E6. cbn [bind].
  destruct (alloc_field_spec al h6 plan pb 3976 S W6 AP6) as (u3 & l3 & h7 & E7 & C7 & W7 & L7 & Fd3 & Z3 & AP7 & Y3 & R7' & K7 & B3 & U3); [lia..|]. rewrite E7. cbn [bind].
  assert (EN : aside (enough al h <-> u0 <> 0 /\ u1 <> 0 /\ u2 <> 0 /\ u3 <> 0)).
  { unfold aside. assert (GG : forall hh hh' l, h_live hh' = l ++ h_live hh -> l = grow (ans al hh 1088) 1088 [] -> h_live hh' = grow (ans al hh 1088) 1088 (h_live hh)).
    { intros hh hh' l X ->. rewrite X. unfold grow. now destruct (_ =? 0). }
    assert (G2 : h_live h3 = grow (ans al gm 1088) 1088 (h_live gm)).
    { rewrite G1. unfold grow at 2. destruct (Z.eqb_spec (ans al g5 136) 0); [contradiction|]. unfold grow. destruct (Z.eqb_spec (ans al gm 1088) 0); [contradiction|]. rewrite <- Es, <- Ed. congruence. }
    assert (C3' : h_calls h3 = h_calls gm + 1) by (rewrite C3, C2, CM; clear; lia).
    assert (AA : answers al (h_live h) (h_calls h) sizes = [ans al h 5568; ans al g5 136; ans al gm 1088; ans al h3 1088; ans al h4 1088; ans al h5 1088; ans al h6 1088]).
    { unfold sizes. change (5504 + 64) with 5568. change (1024 + 64) with 1088.
      rewrite (answers_step al h g5 5568 _ G0 CG), (answers_step al g5 gm 136 _ G1 CM), (answers_step al gm h3 1088 _ G2 C3'), (answers_step al h3 h4 1088 _ (GG _ _ _ L4 B0) C4),
        (answers_step al h4 h5 1088 _ (GG _ _ _ L5' B1) C5), (answers_step al h5 h6 1088 _ (GG _ _ _ L6 B2) C6). reflexivity. }
    unfold enough, answer_to. rewrite AA. rewrite U0, U1, U2, U3. split.
    - intros H. repeat split; [apply (H 3%nat)|apply (H 4%nat)|apply (H 5%nat)|apply (H 6%nat)]; clear; lia.
    - intros (X0' & X1' & X2' & X3'') [|[|[|[|[|[|[|j]]]]]]] J; cbn [nth]; try assumption; [congruence..|]; clear - J; lia. }
  clear U0 U1 U2 U3 B0 B1 B2 B3 Ed. clear T0 T1 T2 G0 G1 GA.
  assert (LL : h_live h7 = l3 ++ l2 ++ l1 ++ l0 ++ db :: (s, 136) :: pb :: h_live h) by congruence.
  assert (ND7 : NoDup (h_live h7)) by apply W7.
  assert (NPB : forall c, In c l0 \/ In c l1 \/ In c l2 \/ In c l3 -> c <> pb).
  { intros c IC ->. rewrite LL in ND7. replace (l3 ++ l2 ++ l1 ++ l0 ++ db :: (s, 136) :: pb :: h_live h) with ((l3 ++ l2 ++ l1 ++ l0 ++ [db; (s, 136)]) ++ pb :: h_live h) in ND7 by (rewrite <- !app_assoc; reflexivity).
    apply NoDup_remove_2 in ND7. apply ND7. rewrite !in_app_iff. tauto. }
  assert (SB : forall c, In c (h_live h3) -> c <> pb -> keeps c h3 h7).
  { intros c IC NC. eapply keeps_trans; [now apply K4|]. eapply keeps_trans; [apply K5; [rewrite L4, in_app_iff; tauto|exact NC]|].
    eapply keeps_trans; [apply K6; [rewrite L5', L4, !in_app_iff; tauto|exact NC]|]. apply K7; [rewrite L6, L5', L4, !in_app_iff; tauto|exact NC]. }
  assert (IA : forall f, 0 <= f -> f + 8 <= 5504 -> inb (plan + f) 8 pb). { intros f G0 G1. destruct AP as (_ & X & Y & Z & _). unfold inb. lia. }
  assert (PL : plan_at h7 plan pb s u0 u1 u2 u3).
  { split; [exact AP7|]. rewrite (R7' (plan + 744)), (R6' (plan + 744)), (R5' (plan + 744)), (R4' (plan + 744)) by (try apply IA; lia).
    rewrite (R7' (plan + 752)), (R6' (plan + 752)), (R5' (plan + 752)) by (try apply IA; lia). rewrite (R7' (plan + 760)), (R6' (plan + 760)) by (try apply IA; lia).
    rewrite (R7' (plan + 3968)) by (try apply IA; lia). auto. }
  assert (OW : owned h7 plan (db :: (s, 136) :: l0 ++ l1 ++ l2 ++ l3 ++ [pb])).
  { exists pb, s, d, db, u0, l0, u1, l1, u2, l2, u3, l3. split; [exact PL|]. split; [|split; [|split; [|split; [|split; [exact Fd3|reflexivity]]]]].
    - apply (setup_keeps h3); [| |exact S3]; apply SB; try apply NDB; rewrite L3'; cbn; tauto.
    - apply (field_keeps h4); [|exact Fd0]. intros c IC. assert (NC : c <> pb) by (apply NPB; tauto). eapply keeps_trans; [apply K5; [rewrite L4, in_app_iff; tauto|exact NC]|].
      eapply keeps_trans; [apply K6; [rewrite L5', L4, !in_app_iff; tauto|exact NC]|]. apply K7; [rewrite L6, L5', L4, !in_app_iff; tauto|exact NC].
    - apply (field_keeps h5); [|exact Fd1]. intros c IC. assert (NC : c <> pb) by (apply NPB; tauto).
      eapply keeps_trans; [apply K6; [rewrite L5', !in_app_iff; tauto|exact NC]|]. apply K7; [rewrite L6, L5', !in_app_iff; tauto|exact NC].
    - apply (field_keeps h6); [|exact Fd2]. intros c IC. assert (NC : c <> pb) by (apply NPB; tauto). apply K7; [rewrite L6, !in_app_iff; tauto|exact NC]. }
  assert (PE : Permutation (h_live h7) ((db :: (s, 136) :: l0 ++ l1 ++ l2 ++ l3 ++ [pb]) ++ h_live h)).
  { rewrite LL.
      replace ((db :: (s, 136) :: l0 ++ l1 ++ l2 ++ l3 ++ [pb]) ++ h_live h) with ([db; (s, 136)] ++ (l0 ++ l1 ++ l2 ++ l3 ++ [pb]) ++ h_live h) by reflexivity.
      replace (l3 ++ l2 ++ l1 ++ l0 ++ db :: (s, 136) :: pb :: h_live h) with (((l3 ++ (l2 ++ (l1 ++ l0))) ++ [db; (s, 136)]) ++ pb :: h_live h) by (rewrite <- !app_assoc; reflexivity).
      rewrite (app_assoc [db; (s, 136)]). replace (([db; (s, 136)] ++ l0 ++ l1 ++ l2 ++ l3 ++ [pb]) ++ h_live h) with (([db; (s, 136)] ++ (l0 ++ l1 ++ l2 ++ l3)) ++ pb :: h_live h) by (rewrite <- !app_assoc; reflexivity).
      apply Permutation_app_tail. rewrite Permutation_app_comm. apply Permutation_app_head.
      rewrite (Permutation_app_comm l3). rewrite (Permutation_app_comm l2). rewrite (Permutation_app_comm l1). rewrite <- !app_assoc. reflexivity. }
  assert (LD : forall f v, lookup h7 (plan + f) = Some v -> 0 <= f -> f + 8 <= 5504 -> load (plan + f) h7 = Ok v). { intros f v Q G0 G1. apply (load_in (plan + f) h7 pb v); [apply AP7|now apply IA|exact Q]. }
  destruct PL as (_ & Q0 & Q1' & Q2' & Q3' & Q4').
  rewrite (LD 752 u0 Q1'), (LD 760 u1 Q2'), (LD 3968 u2 Q3'), (LD 3976 u3 Q4') by lia. cbn [bind].
  assert (KO7 : forall c, In c (h_live h) -> keeps c h h7). { intros c IC. destruct (KO3 c IC) as [KC NC]. eapply keeps_trans; [exact KC|]. apply SB; [rewrite L3'; cbn; tauto|exact NC]. }
  destruct ((u0 =? 0) || (u1 =? 0) || (u2 =? 0) || (u3 =? 0)) eqn:EZ.
  - destruct (free_owned h7 plan _ (h_live h) W7 OW PE) as (h8 & E8 & P8 & W8 & C8 & X8). rewrite E8. cbn [bind]. exists 0, h8. split; [reflexivity|]. split; [exact W8|]. split; [|split; [|split; [|exact TH]]].
    + intros c IC. eapply keeps_trans; [now apply KO7|]. apply keeps_cells; [exact X8|]. now apply (in_perm _ _ _ P8).
    + left. split; [reflexivity|exact P8].
    + unfold aside in EN. split; [contradiction|]. rewrite EN. rewrite !orb_true_iff, !Z.eqb_eq in EZ. tauto.
  - rewrite for_tt.
    2:{ intros n' HN. assert (TT : forall a m, plan <= a -> a + m <= plan + 5504 -> touch a m h7 = Ok tt). { intros a m G0 G1. apply (touch_in h7 a m pb); [apply AP7|]. destruct AP7 as (_ & X & Y & Z & _). unfold inb. lia. }
        rewrite !TT by lia. reflexivity. }
    cbn [bind]. exists plan, h7. split; [reflexivity|]. split; [exact W7|]. split; [exact KO7|]. split; [|split; [|exact TH]]; [|unfold aside in EN; rewrite EN; rewrite !orb_false_iff, !Z.eqb_neq in EZ; split; [tauto|lia]]. right. split; [exact PP|]. eexists. split; [|split; [exact OW|exact PE]].
    rewrite !orb_false_iff, !Z.eqb_neq in EZ. destruct EZ as (((G0 & G1) & G2) & G3).
    destruct Fd0 as [[X _] | (? & -> & _)]; [contradiction|]. destruct Fd1 as [[X _] | (? & -> & _)]; [contradiction|]. destruct Fd2 as [[X _] | (? & -> & _)]; [contradiction|]. destruct Fd3 as [[X _] | (? & -> & _)]; [contradiction|]. reflexivity.
Qed.

(* ---- all executions ---- *)
Definition inv (i : Z) (h : heap) (f : list (Z * Z)) : Prop := wfh h /\
  ((i = 0 /\ Permutation (h_live h) f) \/ (0 < i /\ exists own, length own = 7%nat /\ owned h i own /\ Permutation (h_live h) (own ++ f))).
Lemma nodup_app : forall {A} (l l' : list A) x, NoDup (l ++ l') -> In x l -> ~ In x l'.
Proof.
  intros A l l' x. induction l as [|y l IH]; cbn; [tauto|]. intros N. inversion N as [|? ? N1 N2]. subst. intros [<- | I] J; [|now apply (IH N2)]. apply N1. rewrite in_app_iff. tauto.
Qed.
Lemma get_spec : forall al b i h f i' h', sane al -> inv i h f -> mbe_get_fft_plan al b i h = Ok (i', h') -> inv i' h' f.
Proof.
  intros al b i h f i' h' S (W & I) E. unfold mbe_get_fft_plan in E. destruct I as [[-> P] | (PI & own & I)].
  - cbn [Z.eqb negb] in E. destruct (alloc_spec al b h S W) as [(F & _) | (p & hh & E' & W' & _ & O & _)]; [rewrite E in F; discriminate F|].
    rewrite E in E'. injection E' as <- <-. split; [exact W'|]. destruct O as [[-> P'] | (PP & own & L & O & P')].
    + left. split; [reflexivity|]. now rewrite P'.
    + right. split; [exact PP|]. exists own. split; [exact L|]. split; [exact O|]. rewrite P'. now apply Permutation_app_head.
  - destruct (Z.eqb_spec i 0); [lia|]. cbn [negb] in E. injection E as <- <-. split; [exact W|]. right. split; [exact PI|]. now exists own.
Qed.
Lemma reach_inv : forall al b i h f, sane al -> reach al b i h f -> inv i h f.
Proof.
  intros al b i h f S R. induction R as [|i h f i' h' R IH E|i h f n p h' R IH N E|i h f1 p n f2 h' R IH E|i h f c a v h' R IH IC LO HI E].
  - split; [|left; split; [reflexivity|constructor]]. split; [constructor|]. split; cbn; tauto.
  - now apply (get_spec al b i h f).
  - destruct IH as (W & I). destruct (malloc_spec al n h p h' S W N E) as (_ & _ & W' & K & O). split; [exact W'|].
    destruct O as [[-> L] | (PP & _ & L & _)].
    + cbn [Z.eqb]. destruct I as [[-> P] | (PI & own & L7 & OW & P)]; [left|right].
      * split; [reflexivity|now rewrite L].
      * split; [exact PI|]. exists own. split; [exact L7|]. split; [|now rewrite L]. apply (owned_keeps h); [|exact OW]. intros c IC. apply K. apply (in_perm _ _ _ P). rewrite in_app_iff. tauto.
    + destruct (Z.eqb_spec p 0); [lia|]. destruct I as [[-> P] | (PI & own & L7 & OW & P)]; [left|right].
      * split; [reflexivity|]. rewrite L. now constructor.
      * split; [exact PI|]. exists own. split; [exact L7|]. split; [|rewrite L, P; apply Permutation_middle]. apply (owned_keeps h); [|exact OW]. intros c IC. apply K. apply (in_perm _ _ _ P). rewrite in_app_iff. tauto.
  - destruct IH as (W & I). destruct I as [[-> P] | (PI & own & L7 & OW & P)].
    + destruct (free_perm h p n (f1 ++ f2) W) as (hh & E' & P' & W' & _); [rewrite P; symmetry; apply Permutation_middle|].
      rewrite E in E'. injection E' as <-. split; [exact W'|]. left. split; [reflexivity|exact P'].
    + destruct (free_perm h p n (own ++ f1 ++ f2) W) as (hh & E' & P' & W' & _ & C'); [rewrite P, !app_assoc; symmetry; apply Permutation_middle|].
      rewrite E in E'. injection E' as <-. split; [exact W'|]. right. split; [exact PI|]. exists own. split; [exact L7|]. split; [|exact P'].
      apply (owned_keeps h); [|exact OW]. intros c IC. apply keeps_cells; [exact C'|]. apply (in_perm _ _ _ P'). rewrite in_app_iff. tauto.
  - destruct IH as (W & I). assert (IL : In c (h_live h)).
    { destruct I as [[_ P] | (_ & own & _ & _ & P)]; apply (in_perm _ _ _ P); [exact IC|]. rewrite in_app_iff. tauto. }
    assert (IB : inb a 8 c) by (unfold inb; lia). destruct (store_spec a v h c IL IB) as (hh & E' & L' & _). rewrite E in E'. injection E' as <-.
    split; [now apply (wfh_live h)|]. rewrite L'. destruct I as [I | (PI & own & L7 & OW & P)]; [left; exact I|right]. split; [exact PI|]. exists own. split; [exact L7|]. split; [|exact P].
    apply (owned_keeps h); [|exact OW]. intros d ID. apply (store_keeps a v h c h' d W IL IB E).
    + apply (in_perm _ _ _ P). rewrite in_app_iff. tauto.
    + intros ->. apply (nodup_app own f c); [|exact ID|exact IC]. apply (Permutation_NoDup P). apply W.
Qed.

Lemma alloc_no_leak : forall al b i h f, sane al -> reach al b i h f ->
  (i = 0 /\ Permutation (h_live h) f) \/ (i <> 0 /\ exists own, length own = 7%nat /\ Permutation (h_live h) (own ++ f)).
Proof.
  intros al b i h f S R. destruct (reach_inv al b i h f S R) as (W & [I | (PI & own & L7 & OW & P)]); [now left|]. right. split; [lia|]. exists own. auto.
Qed.
Lemma alloc_free : forall al b i h f, sane al -> reach al b i h f -> exists h', mbe_fft_plan_free i h = Ok h' /\ Permutation (h_live h') f.
Proof.
  intros al b i h f S R. destruct (reach_inv al b i h f S R) as (W & [[-> P] | (PI & own & L7 & OW & P)]).
  - exists h. split; [reflexivity|exact P].
  - destruct (free_owned h i own f W OW P) as (h' & E & P' & _). exists h'. auto.
Qed.
Lemma apart_sub : forall b c p n q m, apart b c -> fst b <= p -> p + n <= fst b + snd b -> fst c <= q -> q + m <= fst c + snd c -> apart (p, n) (q, m).
Proof. intros b c p n q m A P1 P2 Q1 Q2. unfold apart in *. cbn. lia. Qed.
Lemma seven : forall {A} (a s b c d e p : A), NoDup [a; s; b; c; d; e; p] -> (a <> s /\ b <> s /\ c <> s /\ d <> s /\ e <> s /\ p <> s) /\
  (a <> b /\ a <> c /\ a <> d /\ a <> e /\ a <> p) /\ (b <> c /\ b <> d /\ b <> e /\ b <> p) /\ (c <> d /\ c <> e /\ c <> p) /\ (d <> e /\ d <> p) /\ e <> p.
Proof.
  intros A a s b c d e p N. repeat match goal with H : NoDup (_ :: _) |- _ => let N := fresh "N" in let M := fresh "M" in inversion H as [|? ? N M]; clear H; subst; cbn [In] in N end.
  repeat split; intros E; subst; tauto.
Qed.
Lemma alloc_usable : forall al b i h f, sane al -> reach al b i h f -> i <> 0 ->
  exists uw uf uo wk s d, load (i + at_Uw) h = Ok uw /\ load (i + at_Uw_fft) h = Ok uf /\ load (i + at_Uw_out) h = Ok uo /\ load (i + at_work) h = Ok wk /\
  load (i + at_setup) h = Ok s /\ load (s + 112) h = Ok d /\
  exists own, Permutation (h_live h) (own ++ f) /\ In (s, 136) own /\
  Forall (fun q => buffer own (fst q) (snd q) /\ apart q (s, 136) /\ forall c, In c f -> apart q c) [(d, 1024); (uw, 1024); (uf, 1024); (uo, 1024); (wk, 1024); (i, 5504)] /\
  ForallOrdPairs apart [(d, 1024); (uw, 1024); (uf, 1024); (uo, 1024); (wk, 1024); (i, 5504)].
Proof.
  intros al b i h f S R NI. destruct (reach_inv al b i h f S R) as (W & [[X _] | (PI & own & L7 & OW & P)]); [contradiction|].
  destruct OW as (pb & s & d & db & u0 & l0 & u1 & l1 & u2 & l2 & u3 & l3 & (AP & Q0 & Q1 & Q2 & Q3 & Q4) & (BS & PS & QD & AD) & F0 & F1 & F2 & F3 & ->).
  assert (NDA : NoDup ((db :: (s, 136) :: l0 ++ l1 ++ l2 ++ l3 ++ [pb]) ++ f)) by (apply (Permutation_NoDup P), W).
  assert (LN : (length l0 + length l1 + length l2 + length l3 = 4)%nat) by (cbn in L7; rewrite !app_length in L7; cbn in L7; lia).
  assert (LE : forall u l, field h u l -> (length l <= 1)%nat) by (intros u l [(_ & ->) | (x & -> & _)]; cbn; lia).
  pose proof (LE _ _ F0). pose proof (LE _ _ F1). pose proof (LE _ _ F2). pose proof (LE _ _ F3). clear LE.
  destruct F0 as [(_ & ->) | (b0 & -> & A0)]; [cbn in LN; lia|]. destruct F1 as [(_ & ->) | (b1 & -> & A1)]; [cbn in LN; lia|].
  destruct F2 as [(_ & ->) | (b2 & -> & A2)]; [cbn in LN; lia|]. destruct F3 as [(_ & ->) | (b3 & -> & A3)]; [cbn in LN; lia|].
  cbn [app] in *. clear LN L7.
  assert (LD : forall a c v, In c (h_live h) -> inb a 8 c -> lookup h a = Some v -> load a h = Ok v) by (intros a c v C I Q; now apply (load_in a h c)).
  assert (GE : forall f0, 0 <= f0 -> f0 + 8 <= 5504 -> inb (i + f0) 8 pb) by (intros f0 Z0 Z1; destruct AP as (_ & _ & X & Y & _); unfold inb; lia).
  exists u0, u1, u2, u3, s, d. unfold at_Uw, at_Uw_fft, at_Uw_out, at_work, at_setup.
  split; [apply (LD _ pb); [apply AP|apply GE; lia|exact Q1]|]. split; [apply (LD _ pb); [apply AP|apply GE; lia|exact Q2]|]. split; [apply (LD _ pb); [apply AP|apply GE; lia|exact Q3]|].
  split; [apply (LD _ pb); [apply AP|apply GE; lia|exact Q4]|]. split; [apply (LD _ pb); [apply AP|apply GE; lia|exact Q0]|].
  split; [apply (LD _ (s, 136)); [exact BS|unfold inb; cbn; lia|exact QD]|].
  exists [db; (s, 136); b0; b1; b2; b3; pb]. split; [exact P|]. split; [cbn; tauto|].
  assert (DJ : forall x y, In x (h_live h) -> In y (h_live h) -> x <> y -> apart x y) by apply W.
  assert (BU : forall p n c own, In c own -> aligned h p n c -> buffer own p n).
  { intros p n c own IO (_ & _ & X & Y & Z & _). split; [exact Z|]. exists c. split; [exact IO|]. lia. }
  assert (AS : forall p n c q m e, aligned h p n c -> aligned h q m e -> c <> e -> apart (p, n) (q, m)).
  { intros p n c q m e (I1 & _ & X & Y & _) (I2 & _ & X' & Y' & _) N. apply (apart_sub c e); [now apply DJ|lia..]. }
  assert (AE : forall p n c e, aligned h p n c -> In e (h_live h) -> c <> e -> apart (p, n) e).
  { intros p n c [q m] (I1 & _ & X & Y & _) I2 N. apply (apart_sub c (q, m)); [now apply DJ|cbn; lia..]. }
  assert (FL : forall c, In c f -> In c (h_live h)) by (intros c IC; apply (in_perm _ _ _ P); cbn; tauto).
  assert (NE : forall c e, In c [db; (s, 136); b0; b1; b2; b3; pb] -> In e f -> c <> e) by (intros c e IC IE ->; now apply (nodup_app [db; (s, 136); b0; b1; b2; b3; pb] f e NDA)).
  assert (ND : NoDup [db; (s, 136); b0; b1; b2; b3; pb]). { clear - NDA. change (NoDup ([db; (s, 136); b0; b1; b2; b3; pb] ++ f)) in NDA. revert NDA. generalize [db; (s, 136); b0; b1; b2; b3; pb]. intros l. induction l as [|x l IH]; [constructor|]. intros N. cbn in N. inversion N as [|? ? N1 N2]. constructor; [|now apply IH]. intros I. apply N1. rewrite in_app_iff. tauto. }
  apply seven in ND as ((? & ? & ? & ? & ? & ?) & (? & ? & ? & ? & ?) & (? & ? & ? & ?) & (? & ? & ?) & (? & ?) & ?).
  split.
  - repeat (constructor; [cbn [fst snd]; split; [eapply BU; [|eassumption]; cbn; tauto|split; [eapply AE; [eassumption|exact BS|assumption]|intros e IE; eapply AE; [eassumption|now apply FL|apply NE; [cbn; tauto|exact IE]]]]|]). constructor.
  - repeat (constructor; [repeat (constructor; [eapply AS; [eassumption|eassumption|assumption]|]); constructor|]). constructor.
Qed.
Lemma alloc_handled : forall al b h f, sane al -> reach al b 0 h f -> ~ starved al h ->
  exists i h', mbe_get_fft_plan al b 0 h = Ok (i, h') /\ reach al b i h' f /\ (i <> 0 <-> enough al h).
Proof.
  intros al b h f S R NS. destruct (reach_inv al b 0 h f S R) as (W & _).
  destruct (alloc_spec al b h S W) as [(_ & F) | (p & hh & E & _ & _ & _ & N & _)]; [contradiction|]. exists p, hh. split; [exact E|]. split; [|exact N]. apply (asks al b 0 h f p hh R). exact E.
Qed.
Lemma alloc_unhandled : forall al b h f, sane al -> reach al b 0 h f -> starved al h -> mbe_get_fft_plan al b 0 h = UB OOB.
Proof.
  intros al b h f S R A. destruct (reach_inv al b 0 h f S R) as (W & _). destruct (alloc_spec al b h S W) as [(E & _) | (p & hh & _ & _ & _ & _ & _ & T)]; [exact E|contradiction].
Qed.

Lemma max_bound : forall (l : list (Z * Z)) b, In b l -> fst b + snd b <= fold_right Z.max 0 (map (fun b => fst b + snd b) l).
Proof. induction l as [|x l IH]; [easy|]. intros b [-> | I]; cbn [map fold_right]; [lia|]. specialize (IH b I). lia. Qed.
Lemma behind_sane : forall k, sane (behind k).
Proof.
  intros k live c n N. unfold behind. cbv zeta. set (m := fold_right Z.max 0 _). assert (M0 : 0 <= m) by (unfold m; clear; induction live as [|x l IH]; cbn; lia).
  destruct (_ || _) eqn:E; [now left|right]. apply orb_false_iff in E as [_ E]. apply Z.ltb_ge in E.
  assert (D : m < 16 * (1 + m / 16)) by (pose proof (Z.div_mod m 16 ltac:(discriminate)); pose proof (Z.mod_pos_bound m 16 ltac:(reflexivity)); lia). split; [lia|]. split; [rewrite Z.mul_comm; apply Z.mod_mul; discriminate|]. split; [exact E|].
  intros b I. right. cbn [fst snd]. pose proof (max_bound live b I). fold m in H. lia.
Qed.
Lemma alloc_once : forall al b i h, i <> 0 -> mbe_get_fft_plan al b i h = Ok (i, h).
Proof. intros al b i h N. unfold mbe_get_fft_plan. destruct (Z.eqb_spec i 0); [contradiction|reflexivity]. Qed.
