(* Proofs about the cosine caches. *)
From Coq Require Import ZArith List Bool Lia.
From Verif Require Import Res F32 TabImbe TabAmbe2450 TabAmbe2400 MFrame MParms MSynth MImbe MAmbe PRun PArr PDec MCache SpecCache.
Import ListNotations.
Local Open Scope Z_scope.

Definition shape3 {A} (n : nat) (a : list (list (list A))) : Prop := length a = n /\ Forall (shape n n) a.

Lemma wr3_ok : forall {A} n (a : list (list (list A))) i j k v, shape3 n a ->
  0 <= i < Z.of_nat n -> 0 <= j < Z.of_nat n -> 0 <= k < Z.of_nat n ->
  exists a', wr3 a i j k v = Ok a' /\ shape3 n a' /\ rd3 a' i j k = Ok v /\
    forall i' j' k', i' <> i \/ j' <> j \/ k' <> k -> rd3 a' i' j' k' = rd3 a i' j' k'.
Proof.
  intros A n a i j k v [La Fa] Hi Hj Hk. unfold wr3. destruct (rd_ok a i) as [r Hr]; [lia|]. rewrite Hr. cbn [bind].
  assert (Sr : shape n n r) by (rewrite Forall_forall in Fa; apply Fa; apply rd_inv in Hr as [_ Hr]; eapply nth_error_In; exact Hr).
  destruct (wr2_ok n n r j k v Sr Hj Hk) as (r' & E & Sr' & Rs & Ro). rewrite E. cbn [bind].
  destruct (wr a i r') as [a'|] eqn:Ew; [|rewrite wr_ok in Ew by lia; discriminate].
  exists a'. split; [reflexivity|]. split.
  - split; [rewrite (wr_length _ _ _ _ Ew); exact La|]. rewrite wr_ok in Ew by lia. injection Ew as <-.
    clear - Fa Sr'. generalize (Z.to_nat i). induction Fa as [|x l Hx Fl IH]; intros [|m]; cbn; constructor; auto.
  - unfold rd3. split; [rewrite (rd_wr_same _ _ _ _ Ew); cbn [bind]; exact Rs|].
    intros i' j' k' D. destruct (Z.eq_dec i' i) as [->|N].
    + rewrite (rd_wr_same _ _ _ _ Ew), Hr. cbn [bind]. apply Ro. lia.
    + now rewrite (rd_wr_other _ _ _ _ _ Ew) by congruence.
Qed.

(* a cache that is empty, or holds exactly the cosines *)
Definition coherent (R J : Z) (ric : Z -> Z -> f32) (idc : Z -> Z -> Z -> f32) (c : dct_cache) : Prop :=
  (dc_inited c = 0 /\ shape (Z.to_nat (R + 1)) (Z.to_nat (R + 1)) (dc_ri c) /\ shape3 (Z.to_nat (J + 1)) (dc_idct c)) \/
  (dc_inited c = 1 /\ (forall m i, 1 <= m <= R -> 1 <= i <= R -> rd2 (dc_ri c) m i = Ok (ric m i)) /\
   (forall ji j k, 1 <= ji <= J -> 1 <= j <= ji -> 1 <= k <= ji -> rd3 (dc_idct c) ji j k = Ok (idc ji j k))).
Definition filled (R J : Z) (ric : Z -> Z -> f32) (idc : Z -> Z -> Z -> f32) (c : dct_cache) : Prop :=
  dc_inited c = 1 /\ (forall m i, 1 <= m <= R -> 1 <= i <= R -> rd2 (dc_ri c) m i = Ok (ric m i)) /\
   (forall ji j k, 1 <= ji <= J -> 1 <= j <= ji -> 1 <= k <= ji -> rd3 (dc_idct c) ji j k = Ok (idc ji j k)).

Lemma get_ok : forall R J ric idc c, 1 <= R -> 1 <= J -> coherent R J ric idc c ->
  exists c', get_dct_cache R J ric idc c = Ok c' /\ filled R J ric idc c'.
Proof.
  intros R J ric idc c HR HJ [(I & S2 & S3)|F]; unfold get_dct_cache.
  2:{ destruct F as (I & F). rewrite I. exists c. split; [reflexivity|]. split; assumption. }
  rewrite I. cbn [Z.eqb negb].
  destruct (for_up_ok (fun m ri => shape (Z.to_nat (R + 1)) (Z.to_nat (R + 1)) ri /\
      forall m' i, 1 <= m' < m -> 1 <= i <= R -> rd2 ri m' i = Ok (ric m' i))
    (fun m ri => for_up 1 (R + 1) (fun i ri => wr2 ri m i (ric m i)) ri) 1 (R + 1) (dc_ri c)) as (ri & E & Sri & Vri).
  - lia.
  - intros m ri Hm [S V].
    destruct (for_up_ok (fun n ri' => shape (Z.to_nat (R + 1)) (Z.to_nat (R + 1)) ri' /\
        (forall m' i, 1 <= m' < m -> 1 <= i <= R -> rd2 ri' m' i = Ok (ric m' i)) /\
        (forall i, 1 <= i < n -> rd2 ri' m i = Ok (ric m i)))
      (fun i ri => wr2 ri m i (ric m i)) 1 (R + 1) ri) as (ri' & E & S' & V' & W').
    + lia.
    + intros i r1 Hi (S1 & V1 & W1). destruct (wr2_ok _ _ r1 m i (ric m i) S1) as (r2 & E2 & S2' & Rs & Ro); [lia|lia|].
      exists r2. split; [exact E2|]. split; [exact S2'|]. split.
      * intros m' i' Hm' Hi'. rewrite Ro by lia. auto.
      * intros i' Hi'. destruct (Z.eq_dec i' i) as [->|N]; [exact Rs|]. rewrite Ro by lia. apply W1. lia.
    + split; [exact S|]. split; [exact V|]. intros i Hi. lia.
    + exists ri'. split; [exact E|]. split; [exact S'|]. intros m' i Hm' Hi.
      destruct (Z.eq_dec m' m) as [->|N]; [apply W'; lia|apply V'; lia].
  - split; [exact S2|]. intros m i Hm Hi. lia.
  - rewrite E. cbn [bind].
    set (body := fun (ji : Z) (id : list (list (list f32))) => for_up 1 (ji + 1) (fun j id => for_up 1 (ji + 1) (fun k id => wr3 id ji j k (idc ji j k)) id) id).
    destruct (for_up_ok (fun n id => shape3 (Z.to_nat (J + 1)) id /\
        forall ji j k, 1 <= ji < n -> 1 <= j <= ji -> 1 <= k <= ji -> rd3 id ji j k = Ok (idc ji j k))
      body 1 (J + 1) (dc_idct c)) as (id & E3 & Sid & Vid).
    + lia.
    + intros ji id Hji [S V]. unfold body.
      destruct (for_up_ok (fun n id' => shape3 (Z.to_nat (J + 1)) id' /\
          (forall a b d, 1 <= a < ji -> 1 <= b <= a -> 1 <= d <= a -> rd3 id' a b d = Ok (idc a b d)) /\
          (forall b d, 1 <= b < n -> 1 <= d <= ji -> rd3 id' ji b d = Ok (idc ji b d)))
        (fun j id => for_up 1 (ji + 1) (fun k id => wr3 id ji j k (idc ji j k)) id) 1 (ji + 1) id) as (id' & E' & S' & V' & W').
      * lia.
      * intros j id1 Hj (S1 & V1 & W1).
        destruct (for_up_ok (fun n id' => shape3 (Z.to_nat (J + 1)) id' /\
            (forall a b d, 1 <= a < ji -> 1 <= b <= a -> 1 <= d <= a -> rd3 id' a b d = Ok (idc a b d)) /\
            (forall b d, 1 <= b < j -> 1 <= d <= ji -> rd3 id' ji b d = Ok (idc ji b d)) /\
            (forall d, 1 <= d < n -> rd3 id' ji j d = Ok (idc ji j d)))
          (fun k id => wr3 id ji j k (idc ji j k)) 1 (ji + 1) id1) as (id2 & E2 & S2' & V2 & W2 & X2).
        -- lia.
        -- intros k id2 Hk (S2' & V2 & W2 & X2).
           destruct (wr3_ok _ id2 ji j k (idc ji j k) S2') as (id3 & E4 & S4 & Rs & Ro); [lia|lia|lia|].
           exists id3. split; [exact E4|]. split; [exact S4|]. split; [|split].
           ++ intros a b d Ha Hb Hd. rewrite Ro by lia. auto.
           ++ intros b d Hb Hd. rewrite Ro by lia. auto.
           ++ intros d Hd. destruct (Z.eq_dec d k) as [->|N]; [exact Rs|]. rewrite Ro by lia. apply X2. lia.
        -- split; [exact S1|]. split; [exact V1|]. split; [exact W1|]. intros d Hd. lia.
        -- exists id2. split; [exact E2|]. split; [exact S2'|]. split; [exact V2|].
           intros b d Hb Hd. destruct (Z.eq_dec b j) as [->|N]; [apply X2; lia|apply W2; lia].
      * split; [exact S|]. split; [exact V|]. intros b d Hb. lia.
      * exists id'. split; [exact E'|]. split; [exact S'|].
        intros a b d Ha Hb Hd. destruct (Z.eq_dec a ji) as [->|N]; [apply W'; lia|apply V'; lia].
    + split; [exact S3|]. intros ji j k Hji. lia.
    + rewrite E3. cbn [bind]. eexists. split; [reflexivity|]. split; [reflexivity|]. cbn [dc_ri dc_idct]. split.
      * intros m i Hm Hi. apply Vri; lia.
      * intros ji j k Hji Hj Hk. apply Vid; lia.
Qed.
Lemma filled_coherent : forall R J ric idc c, filled R J ric idc c -> coherent R J ric idc c.
Proof. intros R J ric idc c H. right. exact H. Qed.
Lemma zero_coherent : forall R J ric idc, 0 <= R -> 0 <= J -> coherent R J ric idc (zero_cache (Z.to_nat (R + 1)) (Z.to_nat (J + 1))).
Proof.
  intros R J ric idc HR HJ. left. split; [reflexivity|]. cbn [dc_ri dc_idct zero_cache].
  split; (split; [apply repeat_length|]); apply Forall_forall; intros x Hx; apply repeat_spec in Hx; subst x; [apply repeat_length|].
  split; [apply repeat_length|]. apply Forall_forall; intros x Hx; apply repeat_spec in Hx; subst x. apply repeat_length.
Qed.

Lemma bind_ext : forall {A B} (m : res A) (f g : A -> res B), (forall x, m = Ok x -> f x = g x) -> bind m f = bind m g.
Proof. intros A B [x|u] f g H; cbn; auto. Qed.

Lemma cached_ri_imbe : forall o J idc c Gm, filled 6 J (ri_cos o) idc c -> cached_ri 7 c Gm = imbe_ri o Gm.
Proof.
  intros o J idc c Gm (_ & V & _). unfold cached_ri, imbe_ri. apply for_up_ext. intros i Ri Hi.
  f_equal. apply for_up_ext. intros m sum Hm. apply bind_ext. intros g _. cbv zeta. rewrite V by lia. reflexivity.
Qed.
Lemma cached_ri_ambe : forall o J idc c Gm, filled 8 J (ambe_ri_cos o) idc c -> cached_ri 9 c Gm = ambe_ri o Gm.
Proof.
  intros o J idc c Gm (_ & V & _). unfold cached_ri, ambe_ri. apply for_up_ext. intros i Ri Hi.
  f_equal. apply for_up_ext. intros m sum Hm. apply bind_ext. intros g _. cbv zeta. rewrite V by lia. reflexivity.
Qed.

Lemma imbe_blocks : forallb (fun r => forallb (fun x => (1 <=? x) && (x <=? 10)) r) ImbeJi = true.
Proof. vm_compute. reflexivity. Qed.
Lemma imbe_block : forall i j x, rd2 ImbeJi i j = Ok x -> 1 <= x <= 10.
Proof.
  intros i j x H. apply bind_inv in H as (r & H1 & H2). apply rd_inv in H1 as [_ H1]. apply rd_inv in H2 as [_ H2].
  apply nth_error_In in H1. apply nth_error_In in H2. pose proof imbe_blocks as Q. rewrite forallb_forall in Q. specialize (Q r H1).
  rewrite forallb_forall in Q. specialize (Q x H2). lia.
Qed.
Lemma tl_imbe : forall o R ric c L9 Cik, filled R 10 ric (idct_cos o) c -> imbe_tl_cached c L9 Cik = imbe_tl o L9 Cik.
Proof.
  intros o R ric c L9 Cik (_ & _ & V). unfold imbe_tl_cached, imbe_tl. f_equal. apply for_up_ext. intros i [Tl l] Hi.
  apply bind_ext. intros ji Hji. apply imbe_block in Hji. apply for_up_ext. intros j [Tl' l'] Hj.
  f_equal. apply for_up_ext. intros k sum Hk. apply bind_ext. intros y _. cbv zeta. rewrite V by lia. reflexivity.
Qed.
Lemma tl_ambe : forall o R ric c Ji Cik, (forall i, Ji i <= 17) -> filled R 17 ric (idct_cos o) c -> ambe_tl_cached c Ji Cik = ambe_tl o Ji Cik.
Proof.
  intros o R ric c Ji Cik HJ (_ & _ & V). unfold ambe_tl_cached, ambe_tl. f_equal. apply for_up_ext. intros i [Tl l] Hi.
  specialize (HJ i). cbv zeta. destruct (Z_le_gt_dec 1 (Ji i)) as [G|G]; [|rewrite !for_up_empty by lia; reflexivity].
  apply for_up_ext. intros j [Tl' l'] Hj.
  f_equal. apply for_up_ext. intros k sum Hk. apply bind_ext. intros y _. cbv zeta. rewrite V by lia. reflexivity.
Qed.

(* with a coherent cache a decoder answers as without, and leaves the cache coherent *)
Definition tracks {A} (P : dct_cache -> Prop) (m : res A) (n : res (A * dct_cache)) : Prop :=
  match m with Ok x => exists c', n = Ok (x, c') /\ P c' | UB u => n = UB u end.

Lemma imbe_tracks : forall o d cur prev c, coherent 6 10 (ri_cos o) (idct_cos o) c ->
  tracks (coherent 6 10 (ri_cos o) (idct_cos o)) (mbe_decodeImbe4400Parms o d cur prev) (imbe_decode_cached o d cur prev c).
Proof.
  intros o d cur prev c HC. destruct (get_ok 6 10 (ri_cos o) (idct_cos o) c ltac:(lia) ltac:(lia) HC) as (c' & G & F).
  unfold mbe_decodeImbe4400Parms, imbe_decode_cached. cbv zeta.
  destruct (read_b0 _ _) as [b0|u]; [|reflexivity]. cbn [bind].
  destruct (207 <? b0); [exists c; split; [reflexivity|exact HC]|].
  destruct (imbe_L_of_w0 _) as [L|u]; [|reflexivity]. cbn [bind].
  destruct ((56 <? L) || (L <? 9)); [exists c; split; [reflexivity|exact HC]|].
  destruct (imbe_K_of_L L) as [K|u]; [|reflexivity]. cbn [bind].
  destruct (imbe_bb d (L - 9)) as [bb|u]; [|reflexivity]. cbn [bind].
  destruct (imbe_vl bb L K _) as [Vl|u]; [|reflexivity]. cbn [bind].
  destruct (imbe_gm o bb (L - 9)) as [Gm|u]; [|reflexivity]. cbn [bind].
  unfold imbe_get_dct_cache. rewrite G. cbn [bind]. rewrite (cached_ri_imbe o _ _ c' Gm F).
  destruct (imbe_ri o Gm) as [Ri|u]; [|reflexivity]. cbn [bind].
  destruct (imbe_cik o bb (L - 9) Ri) as [Cik|u]; [|reflexivity]. cbn [bind]. rewrite (tl_imbe o _ _ c' _ _ F).
  destruct (imbe_tl o (L - 9) Cik) as [Tl|u]; [|reflexivity]. cbn [bind].
  destruct (imbe_extend_prev L prev) as [prev'|u]; [|reflexivity]. cbn [bind].
  destruct (imbe_predict o L prev' Tl _) as [cur'|u]; [|reflexivity]. cbn [bind].
  exists c'. split; [reflexivity|]. apply filled_coherent, F.
Qed.

Definition small_blocks (T : ambe_tables) : bool := forallb (fun r => forallb (fun x => x <=? 17) r) (at_Lmprbl T).
Lemma ambe_block : forall T i j x, small_blocks T = true -> rd2 (at_Lmprbl T) i j = Ok x -> x <= 17.
Proof.
  intros T i j x Q H. apply bind_inv in H as (r & H1 & H2). apply rd_inv in H1 as [_ H1]. apply rd_inv in H2 as [_ H2].
  apply nth_error_In in H1. apply nth_error_In in H2. unfold small_blocks in Q. rewrite forallb_forall in Q. specialize (Q r H1).
  rewrite forallb_forall in Q. specialize (Q x H2). lia.
Qed.

Lemma amplitudes_tracks : forall o T unvc L b2 b3 b4 b5 b6 b7 b8 cur prev c, small_blocks T = true -> coherent 8 17 (ambe_ri_cos o) (idct_cos o) c ->
  tracks (coherent 8 17 (ambe_ri_cos o) (idct_cos o)) (ambe_amplitudes o T unvc L b2 b3 b4 b5 b6 b7 b8 cur prev)
    (ambe_amplitudes_cached o T unvc L b2 b3 b4 b5 b6 b7 b8 cur prev c).
Proof.
  intros o T unvc L b2 b3 b4 b5 b6 b7 b8 cur prev c HT HC.
  destruct (get_ok 8 17 (ambe_ri_cos o) (idct_cos o) c ltac:(lia) ltac:(lia) HC) as (c' & G & F).
  unfold ambe_amplitudes, ambe_amplitudes_cached. cbv zeta.
  destruct (rd (at_Dg T) b2) as [dg|u]; [|reflexivity]. cbn [bind].
  destruct (ambe_gm T b3 b4) as [Gm|u]; [|reflexivity]. cbn [bind].
  unfold ambe_get_dct_cache. rewrite G. cbn [bind]. rewrite (cached_ri_ambe o _ _ c' Gm F).
  destruct (ambe_ri o Gm) as [Ri|u]; [|reflexivity]. cbn [bind].
  destruct (for_up 1 5 (ambe_cik12 Ri) (fresh2 5 18)) as [C0|u]; [|reflexivity]. cbn [bind].
  destruct (rd2 (at_Lmprbl T) L 0) as [j1|u] eqn:J1; [|reflexivity]. cbn [bind].
  destruct (rd2 (at_Lmprbl T) L 1) as [j2|u] eqn:J2; [|reflexivity]. cbn [bind].
  destruct (rd2 (at_Lmprbl T) L 2) as [j3|u] eqn:J3; [|reflexivity]. cbn [bind].
  destruct (rd2 (at_Lmprbl T) L 3) as [j4|u] eqn:J4; [|reflexivity]. cbn [bind].
  apply (ambe_block T) in J1, J2, J3, J4; try exact HT.
  destruct (ambe_hoc (at_HOC5 T) b5 1 j1 C0) as [C1|u]; [|reflexivity]. cbn [bind].
  destruct (ambe_hoc (at_HOC6 T) b6 2 j2 C1) as [C2|u]; [|reflexivity]. cbn [bind].
  destruct (ambe_hoc (at_HOC7 T) b7 3 j3 C2) as [C3|u]; [|reflexivity]. cbn [bind].
  destruct (ambe_hoc (at_HOC8 T) b8 4 j4 C3) as [C4|u]; [|reflexivity]. cbn [bind].
  assert (HJ : forall i, (if i =? 1 then j1 else if i =? 2 then j2 else if i =? 3 then j3 else j4) <= 17)
    by (intros i; destruct (i =? 1), (i =? 2), (i =? 3); assumption).
  rewrite (tl_ambe o _ _ c' _ C4 HJ F).
  destruct (ambe_tl o _ C4) as [Tl|u]; [|reflexivity]. cbn [bind].
  destruct (ambe_extend_prev L prev) as [prev'|u]; [|reflexivity]. cbn [bind].
  destruct (ambe_predict o unvc L prev' Tl _) as [cur'|u]; [|reflexivity]. cbn [bind].
  exists c'. split; [reflexivity|]. apply filled_coherent, F.
Qed.

Lemma small_2450 : small_blocks tables2450 = true.
Proof. vm_compute. reflexivity. Qed.
Lemma small_2400 : small_blocks tables2400 = true.
Proof. vm_compute. reflexivity. Qed.

Ltac same_bind := match goal with |- tracks _ (bind ?m _) (bind ?m _) => let u := fresh "u" in destruct m as [?|u]; [|reflexivity]; cbn [bind] end.
Lemma ambe2450_tracks : forall o d cur prev n c, coherent 8 17 (ambe_ri_cos o) (idct_cos o) c ->
  tracks (coherent 8 17 (ambe_ri_cos o) (idct_cos o)) (mbe_decodeAmbe2450ParmsInternal o d cur prev n) (ambe2450_decode_cached o d cur prev n c).
Proof.
  intros o d cur prev n c HC. unfold mbe_decodeAmbe2450ParmsInternal, ambe2450_decode_cached. cbv zeta.
  same_bind. same_bind.
  destruct (_ && (n <? 6)); [exists c; split; [reflexivity|exact HC]|].
  destruct (_ && _); [exists c; split; [reflexivity|exact HC]|].
  destruct (_ || _); [exists c; split; [reflexivity|exact HC]|].
  destruct (ambe2450_pitch d _ _) as [[cur' unvc]|u]; [|reflexivity]. cbn [bind]. do 7 same_bind.
  match goal with |- tracks _ (bind (ambe_amplitudes ?o ?T ?u ?L ?b2 ?b3 ?b4 ?b5 ?b6 ?b7 ?b8 ?x ?y) _) _ =>
    pose proof (amplitudes_tracks o T u L b2 b3 b4 b5 b6 b7 b8 x y c small_2450 HC) as Q; destruct (ambe_amplitudes o T u L b2 b3 b4 b5 b6 b7 b8 x y) as [[x' y']|w] end.
  - destruct Q as (c' & -> & HC'). cbn [bind]. exists c'. split; [reflexivity|exact HC'].
  - unfold tracks in Q. rewrite Q. reflexivity.
Qed.
Lemma ambe2400_tracks : forall o d cur prev c, coherent 8 17 (ambe_ri_cos o) (idct_cos o) c ->
  tracks (coherent 8 17 (ambe_ri_cos o) (idct_cos o)) (mbe_decodeAmbe2400Parms o d cur prev) (ambe2400_decode_cached o d cur prev c).
Proof.
  intros o d cur prev c HC. unfold mbe_decodeAmbe2400Parms, ambe2400_decode_cached. cbv zeta.
  same_bind. destruct (Z.land _ 126 =? 126).
  { same_bind. destruct (_ && _); [exists c; split; [reflexivity|exact HC]|].
    destruct (_ && _); [exists c; split; [reflexivity|exact HC]|]. same_bind. exists c; split; [reflexivity|exact HC]. }
  destruct (ambe2400_pitch o d _ _) as [[cur' unvc]|u]; [|reflexivity]. cbn [bind]. do 7 same_bind.
  match goal with |- tracks _ (bind (ambe_amplitudes ?o ?T ?u ?L ?b2 ?b3 ?b4 ?b5 ?b6 ?b7 ?b8 ?x ?y) _) _ =>
    pose proof (amplitudes_tracks o T u L b2 b3 b4 b5 b6 b7 b8 x y c small_2400 HC) as Q; destruct (ambe_amplitudes o T u L b2 b3 b4 b5 b6 b7 b8 x y) as [[x' y']|w] end.
  - destruct Q as (c' & -> & HC'). cbn [bind]. exists c'. split; [reflexivity|exact HC'].
  - unfold tracks in Q. rewrite Q. reflexivity.
Qed.

Lemma histories : forall (P : dct_cache -> Prop) f g, (forall x c, P c -> tracks P (f x) (g x c)) ->
  forall xs c, P c -> cached_decodes g xs c = decodes f xs.
Proof.
  intros P f g H. induction xs as [|x xs IH]; intros c HC; [reflexivity|]. cbn [cached_decodes decodes].
  specialize (H x c HC). destruct (f x) as [r|u].
  - destruct H as (c' & -> & HC'). cbn [bind]. now rewrite IH.
  - unfold tracks in H. rewrite H. reflexivity.
Qed.
Lemma imbe_history : forall o xs, cached_decodes (call_imbe_cached o) xs imbe_cache0 = decodes (call_imbe o) xs.
Proof.
  intros o xs. apply (histories (coherent 6 10 (ri_cos o) (idct_cos o))).
  - intros [[[d cur] prev] n] c HC. exact (imbe_tracks o d cur prev c HC).
  - apply (zero_coherent 6 10); lia.
Qed.
Lemma ambe2450_history : forall o xs, cached_decodes (call_2450_cached o) xs ambe_cache0 = decodes (call_2450 o) xs.
Proof.
  intros o xs. apply (histories (coherent 8 17 (ambe_ri_cos o) (idct_cos o))).
  - intros [[[d cur] prev] n] c HC. exact (ambe2450_tracks o d cur prev n c HC).
  - apply (zero_coherent 8 17); lia.
Qed.
Lemma ambe2400_history : forall o xs, cached_decodes (call_2400_cached o) xs ambe_cache0 = decodes (call_2400 o) xs.
Proof.
  intros o xs. apply (histories (coherent 8 17 (ambe_ri_cos o) (idct_cos o))).
  - intros [[[d cur] prev] n] c HC. exact (ambe2400_tracks o d cur prev c HC).
  - apply (zero_coherent 8 17); lia.
Qed.
