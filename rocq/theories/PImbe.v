(* IMBE parameter decoding: the bit layout, definedness, and what it changes. *)
From Coq Require Import ZArith List Bool Lia Permutation.
From Verif Require Import Res F32 TabImbe MFrame MParms MAdaptive MUnvoiced MSynth MImbe SpecEcc SpecFrame SpecImbe PBase PEcc PHam PRun PArr PFrameImbe PConv PSpeech PDec.
Import ListNotations.
Local Open Scope Z_scope.

(* ---- the layout ---- *)
Definition key (c : qbit) : Z := 12 * fst c + snd c.
Fixpoint nodupb (l : list Z) : bool := match l with [] => true | x :: t => negb (existsb (Z.eqb x) t) && nodupb t end.
Lemma nodupb_ok : forall l, nodupb l = true -> NoDup l.
Proof.
  induction l as [|x l IH]; intros H; [constructor|]. cbn in H. apply andb_prop in H as [A B]. constructor; [|auto].
  intros I. apply negb_true_iff in A. assert (E : existsb (Z.eqb x) l = true) by (apply existsb_exists; exists x; split; [exact I|apply Z.eqb_refl]). congruence.
Qed.
Definition cell_ok (c : qbit) : bool := (0 <=? fst c) && (fst c <? 58) && (0 <=? snd c) && (snd c <? 12).
Definition layout_ok (z : Z) : bool :=
  let L := z + 9 in let s := scan L in let q := quantiser_bits L in
  let ks := map key s in
  nodupb (map key q) && forallb cell_ok s && forallb cell_ok q && forallb (fun c => existsb (Z.eqb (key c)) ks) q
  && (length s =? 79)%nat && (length q =? 79)%nat && forallb (fun r => length r =? 2)%nat (nth (Z.to_nat z) bo []).
Lemma layout_all : forallb layout_ok (zrange 48) = true.
Proof. vm_compute. reflexivity. Qed.
Lemma key_inj : forall a b, cell_ok a = true -> cell_ok b = true -> key a = key b -> a = b.
Proof. intros [a1 a2] [b1 b2] A B H. unfold cell_ok, key in *. cbn [fst snd] in *. assert (a1 = b1) by lia. assert (a2 = b2) by lia. congruence. Qed.

Lemma layout_facts : forall L, 9 <= L <= 56 ->
  NoDup (scan L) /\ (forall c, In c (scan L) -> 0 <= fst c < 58 /\ 0 <= snd c < 12) /\ length (scan L) = 79%nat /\
  Permutation (scan L) (quantiser_bits L) /\ Forall (fun r => length r = 2%nat) (nth (Z.to_nat (L - 9)) bo []).
Proof.
  intros L HL. pose proof (zrange_forallb 48 _ layout_all (L - 9) ltac:(lia)) as H. unfold layout_ok in H. replace (L - 9 + 9) with L in H by lia.
  cbv zeta in H. apply andb_prop in H as [H H7]. apply andb_prop in H as [H H6]. apply andb_prop in H as [H H5]. apply andb_prop in H as [H H4]. apply andb_prop in H as [H H3]. apply andb_prop in H as [H1 H2].
  apply nodupb_ok in H1. rewrite forallb_forall in H2, H3, H4. apply Nat.eqb_eq in H5, H6.
  assert (ND : NoDup (quantiser_bits L)) by (eapply NoDup_map_inv; exact H1).
  assert (P : Permutation (quantiser_bits L) (scan L)).
  { apply NoDup_Permutation_bis; [exact ND|lia|].
    intros c Ic. pose proof (H4 c Ic) as E. apply existsb_exists in E as (k & Ik & Ek). apply Z.eqb_eq in Ek. apply in_map_iff in Ik as (s & Es & Is).
    assert (c = s); [|subst; exact Is]. apply key_inj; [apply H3, Ic|apply H2, Is|congruence]. }
  split; [eapply Permutation_NoDup; eassumption|]. split. { intros c I. apply H2 in I. unfold cell_ok in I. lia. }
  split; [exact H5|]. split; [now symmetry|].
  apply Forall_forall. intros r Ir. rewrite forallb_forall in H7. apply Nat.eqb_eq. apply H7, Ir.
Qed.

(* scattering the payload *)
Lemma scan_nth : forall L k, 9 <= L <= 56 -> 0 <= k < 79 -> exists pos, rd bo (L - 9) = Ok pos /\
  rd2 pos k 0 = Ok (fst (nth (Z.to_nat k) (scan L) (0, 0))) /\ rd2 pos k 1 = Ok (snd (nth (Z.to_nat k) (scan L) (0, 0))).
Proof.
  intros L k HL Hk. destruct (layout_facts L HL) as (_ & _ & LS & _ & F). exists (nth (Z.to_nat (L - 9)) bo []).
  split; [apply rd_nth; change (Z.of_nat (length bo)) with 48; lia|]. unfold scan in LS. rewrite map_length in LS.
  unfold rd2. rewrite (rd_nth _ k []) by lia. cbn [bind].
  assert (Lr : length (nth (Z.to_nat k) (nth (Z.to_nat (L - 9)) bo []) []) = 2%nat).
  { rewrite Forall_forall in F. apply F. apply nth_In. lia. }
  unfold scan. change ((0, 0) : qbit) with ((fun r : list Z => (nth 0 r 0, nth 1 r 0)) []). rewrite map_nth. cbn [fst snd].
  split; rewrite (rd_nth _ _ 0) by (rewrite Lr; lia); reflexivity.
Qed.

Definition scattered (L : Z) (d : list Z) (k : Z) (bb : list (list (option Z))) : Prop :=
  shape 58 12 bb /\
  (forall i, 0 <= i < k -> exists b, rd d (6 + i) = Ok b /\
     rd2 bb (fst (nth (Z.to_nat i) (scan L) (0, 0))) (snd (nth (Z.to_nat i) (scan L) (0, 0))) = Ok (Some b)) /\
  (forall r c, 0 <= r < 58 -> 0 <= c < 12 -> ~ In (r, c) (firstn (Z.to_nat k) (scan L)) -> rd2 bb r c = Ok None).
Lemma imbe_bb_ok : forall d L, 9 <= L <= 56 -> (85 <= length d)%nat -> exists bb, imbe_bb d (L - 9) = Ok bb /\ scattered L d 79 bb.
Proof.
  intros d L HL Ld. unfold imbe_bb. destruct (scan_nth L 0 HL ltac:(lia)) as (pos & Hp & _). rewrite Hp. cbn [bind].
  destruct (layout_facts L HL) as (ND & R & LS & _).
  match goal with |- exists b, for_up _ _ ?f ?s0 = _ /\ _ =>
    destruct (for_up_ok (fun i x => scattered L d (i - 6) x) f 6 85 s0) as (bb & E & S) end; [lia| | |exists bb; split; [exact E|exact S]].
  - intros i bb Hi (SH & P & N). destruct (scan_nth L (i - 6) HL ltac:(lia)) as (pos' & Hp' & H1 & H2). assert (pos' = pos) by congruence. subst pos'.
    rewrite H1. cbn [bind]. rewrite H2. cbn [bind]. destruct (rd_ok d i) as [b Hb]; [lia|]. rewrite Hb. cbn [bind].
    set (c := nth (Z.to_nat (i - 6)) (scan L) (0, 0)) in *.
    assert (Ic : In c (scan L)) by (apply nth_In; lia). destruct (R c Ic) as [R1 R2].
    destruct (wr2_ok 58 12 bb (fst c) (snd c) (Some b)) as (bb' & W & SH' & SM & OT); [exact SH|lia|lia|]. exists bb'. split; [exact W|].
    split; [exact SH'|]. split.
    + intros j Hj. destruct (Z.eq_dec j (i - 6)) as [->|Nj].
      * exists b. replace (6 + (i - 6)) with i by lia. split; [exact Hb|]. exact SM.
      * destruct (P j) as (b' & D & Q); [lia|]. exists b'. split; [exact D|]. rewrite OT; [exact Q|].
        assert (Hd : nth (Z.to_nat j) (scan L) (0, 0) <> c).
        { unfold c. intros Q'. apply (proj1 (NoDup_nth (scan L) (0, 0)) ND) in Q'; lia. }
        destruct (Z.eq_dec (fst (nth (Z.to_nat j) (scan L) (0, 0))) (fst c)) as [E1|]; [|auto].
        destruct (Z.eq_dec (snd (nth (Z.to_nat j) (scan L) (0, 0))) (snd c)) as [E2|]; [|auto].
        destruct Hd. destruct (nth (Z.to_nat j) (scan L) (0, 0)), c. cbn [fst snd] in *. congruence.
    + intros r k Hr Hk NI. replace (i + 1 - 6) with (i - 6 + 1) in NI by lia.
      assert (FI : firstn (Z.to_nat (i - 6 + 1)) (scan L) = firstn (Z.to_nat (i - 6)) (scan L) ++ [c]).
      { replace (Z.to_nat (i - 6 + 1)) with (Datatypes.S (Z.to_nat (i - 6))) by lia. unfold c.
        assert (HH : (Z.to_nat (i - 6) < length (scan L))%nat) by lia. revert HH. generalize (Z.to_nat (i - 6)) as n. generalize (scan L). clear.
        intros l n. revert n. induction l as [|x l IH]; intros [|n] H; cbn in *; try lia; [reflexivity|]. f_equal. apply IH. lia. }
      rewrite FI, in_app_iff in NI. rewrite OT; [apply N; tauto|].
      destruct (Z.eq_dec r (fst c)) as [E1|]; [|auto]. destruct (Z.eq_dec k (snd c)) as [E2|]; [|auto]. destruct NI. right. left. clearbody c. destruct c. cbn [fst snd] in *. congruence.
  - split; [exact (shape_fresh 58 12)|]. split; [intros; lia|]. intros r c Hr Hc _. apply rd2_fresh; assumption.
Qed.

(* reading a quantiser *)
Lemma field_loop : forall bb row l pre tail p, (forall j, 0 <= j < Z.of_nat (length l) -> exists b, nth_error l (Z.to_nat j) = Some b /\ rd2 bb row j = Ok (Some b)) ->
  p = Z.of_nat (length pre) ->
  for_down (Z.of_nat (length l) - 1) 0 (fun j '(s, k) =>
    c <- rdi2 bb row j ;; s <- wr s k (Some (to_char (c + 48))) ;; Ok (s, k + 1)) (pre ++ repeat None (length l) ++ tail, p)
  = Ok (pre ++ map digit (rev l) ++ tail, p + Z.of_nat (length l)).
Proof.
  intros bb row l. induction l as [|x l IH] using rev_ind; intros pre tail p H ->.
  - cbn. now rewrite Z.add_0_r.
  - rewrite app_length in *. cbn [length] in *. unfold for_down. replace (Z.to_nat (Z.of_nat (length l + 1) - 1 - 0 + 1)) with (Datatypes.S (length l)) by lia.
    cbn [loop]. destruct (H (Z.of_nat (length l))) as (b & Hb & Hr); [lia|]. rewrite Nat2Z.id, nth_error_app2, Nat.sub_diag in Hb by lia. cbn in Hb. injection Hb as <-.
    replace (Z.of_nat (length l + 1) - 1) with (Z.of_nat (length l)) by lia. rewrite (rdi2_some _ _ _ _ Hr). cbn [bind].
    replace (repeat None (length l + 1)) with ((None : option Z) :: repeat None (length l)) by (rewrite Nat.add_1_r; reflexivity).
    rewrite wr_ok by (rewrite !app_length; cbn [length]; lia). cbn [bind].
    replace (set_nth (Z.to_nat (Z.of_nat (length pre))) (Some (to_char (x + 48))) (pre ++ (None :: repeat None (length l)) ++ tail))
      with ((pre ++ [digit x]) ++ repeat None (length l) ++ tail).
    2:{ rewrite Nat2Z.id, <- app_assoc. cbn [app]. clear. induction pre as [|y pre IH]; cbn [app set_nth length]; [reflexivity|]. f_equal. exact IH. }
    specialize (IH (pre ++ [digit x]) tail (Z.of_nat (length pre) + 1)). unfold for_down in IH.
    replace (Z.to_nat (Z.of_nat (length l) - 1 - 0 + 1)) with (length l) in IH by lia.
    replace (Z.of_nat (length l) + -1) with (Z.of_nat (length l) - 1) by lia. rewrite IH.
    + rewrite rev_app_distr. cbn [rev app map]. rewrite <- app_assoc. cbn [app]. replace (Z.of_nat (length pre) + 1 + Z.of_nat (length l)) with (Z.of_nat (length pre) + Z.of_nat (length l + 1)) by lia. reflexivity.
    + intros j Hj. destruct (H j) as (b & Hb & Hr'); [lia|]. exists b. split; [|exact Hr']. rewrite nth_error_app1 in Hb by lia. exact Hb.
    + rewrite app_length. cbn [length]. lia.
Qed.
Lemma field_ok : forall bb row l, l <> [] -> (length l <= 12)%nat -> Forall is_bit l ->
  (forall j, 0 <= j < Z.of_nat (length l) -> exists b, nth_error l (Z.to_nat j) = Some b /\ rd2 bb row j = Ok (Some b)) ->
  bb_field bb row (Z.of_nat (length l)) = Ok (val l).
Proof.
  intros bb row l N L F H. unfold bb_field, tmp13.
  rewrite wr_ok by (unfold fresh; rewrite repeat_length; lia). cbn [bind].
  replace (set_nth (Z.to_nat (Z.of_nat (length l))) (Some 0) (fresh 13)) with ([] ++ repeat (None : option Z) (length l) ++ Some 0 :: repeat None (12 - length l)).
  2:{ rewrite Nat2Z.id. unfold fresh. change (Z.to_nat 13) with 13%nat. clear - L. do 13 (destruct l as [|? l]; [reflexivity|]). cbn in L. lia. }
  rewrite (field_loop bb row l [] _ 0 H eq_refl). cbn [bind app]. rewrite strtol2_bits; [now rewrite rev_involutive|now apply Forall_rev|].
  intros E. apply N. destruct l; [reflexivity|]. apply (f_equal (@length Z)) in E. rewrite rev_length in E. discriminate E.
Qed.

(* every bit of quantiser q is in the scattered array *)
Lemma lookup_nth : forall s p i c, NoDup s -> nth_error s i = Some c -> lookup_bit c s p = nth_error p i.
Proof.
  induction s as [|x s IH]; intros p [|i] c ND H; cbn [nth_error] in H; try discriminate.
  - injection H as ->. destruct p as [|b p]; cbn [lookup_bit nth_error]; [reflexivity|]. rewrite !Z.eqb_refl. reflexivity.
  - inversion ND as [|? ? N ND']; subst. destruct p as [|b p]; cbn [lookup_bit nth_error]; [reflexivity|].
    destruct (Z.eqb_spec (fst x) (fst c)) as [E1|]; [destruct (Z.eqb_spec (snd x) (snd c)) as [E2|]|]; cbn [andb]; try (apply IH; assumption).
    exfalso. apply N. destruct x, c. cbn [fst snd] in *. subst. eapply nth_error_In, H.
Qed.
Lemma nth_error_firstn_lt : forall {A} n (l : list A) i, (i < n)%nat -> nth_error (firstn n l) i = nth_error l i.
Proof. induction n as [|n IH]; intros [|x l] [|i] H; cbn; try lia; auto. apply IH. lia. Qed.
Lemma nth_error_skipn_add : forall {A} n (l : list A) i, nth_error (skipn n l) i = nth_error l (n + i).
Proof. induction n as [|n IH]; intros [|x l] i; cbn; auto. now destruct i. Qed.
Lemma payload_nth : forall d i b, (85 <= length d)%nat -> 0 <= i < 79 -> rd d (6 + i) = Ok b -> nth_error (payload d) (Z.to_nat i) = Some b.
Proof.
  intros d i b Ld Hi H. apply rd_inv in H as [_ H]. unfold payload, slice. rewrite nth_error_firstn_lt by lia. rewrite nth_error_skipn_add.
  replace (6 + Z.to_nat i)%nat with (Z.to_nat (6 + i)) by lia. exact H.
Qed.
Lemma scattered_bit : forall L d bb q j, 9 <= L <= 56 -> is_bits 88 d -> scattered L d 79 bb -> In (q, j) (quantiser_bits L) ->
  is_bit (payload_bit L d (q, j)) /\ rd2 bb q j = Ok (Some (payload_bit L d (q, j))).
Proof.
  intros L d bb q j HL [Ld Bd] (_ & P & _) I. destruct (layout_facts L HL) as (ND & _ & LS & PM & _).
  apply (Permutation_in _ (Permutation_sym PM)) in I. apply (In_nth _ _ (0, 0)) in I as (i & Hi & E).
  unfold qbit in *. destruct (P (Z.of_nat i)) as (b & Hb & Q); [lia|]. rewrite Nat2Z.id, E in Q.
  assert (X : nth_error (scan L) i = Some (q, j)) by (rewrite <- E; apply nth_error_nth'; exact Hi).
  pose proof (payload_nth d (Z.of_nat i) b ltac:(lia) ltac:(lia) Hb) as Y. rewrite Nat2Z.id in Y.
  unfold payload_bit. rewrite (lookup_nth (scan L) (payload d) i (q, j) ND X), Y. split; [|exact Q].
  apply rd_inv in Hb as [_ Hb]. apply nth_error_In in Hb. rewrite Forall_forall in Bd. auto.
Qed.
Lemma quantiser_in : forall L q n j, In (q, n) (quantisers L) -> 0 <= j < n -> In (q, j) (quantiser_bits L).
Proof.
  intros L q n j I H. unfold quantiser_bits. apply in_flat_map. exists (q, n). split; [exact I|]. unfold field_bits. apply in_map_iff.
  exists (Z.to_nat j). split; [f_equal; lia|]. apply in_seq. lia.
Qed.
Lemma number_in : forall ns q j n, nth_error ns j = Some n -> In (q + Z.of_nat j, n) (number_from q ns).
Proof.
  induction ns as [|x ns IH]; intros q [|j] n H; cbn [nth_error number_from In] in *; try discriminate.
  - injection H as ->. left. f_equal. lia.
  - right. replace (q + Z.of_nat (Datatypes.S j)) with (q + 1 + Z.of_nat j) by lia. apply IH, H.
Qed.
(* the value of quantiser q in a payload *)
Lemma quantiser_value : forall L d bb q n, 9 <= L <= 56 -> is_bits 88 d -> scattered L d 79 bb -> In (q, n) (quantisers L) -> 1 <= n <= 12 ->
  bb_field bb q n = Ok (quantiser_number L d q n) /\ 0 <= quantiser_number L d q n < 2 ^ n.
Proof.
  intros L d bb q n HL Hd S I Hn. unfold quantiser_number. set (l := map (payload_bit L d) (field_bits q n)).
  assert (Ll : length l = Z.to_nat n) by (unfold l, field_bits; rewrite !map_length, seq_length; reflexivity).
  assert (B : forall j, 0 <= j < n -> nth_error l (Z.to_nat j) = Some (payload_bit L d (q, j)) /\ is_bit (payload_bit L d (q, j)) /\ rd2 bb q j = Ok (Some (payload_bit L d (q, j)))).
  { intros j Hj. destruct (scattered_bit L d bb q j HL Hd S) as [B1 B2]; [eapply quantiser_in; eassumption|]. split; [|auto].
    unfold l, field_bits. rewrite map_map. rewrite (map_nth_error _ (Z.to_nat j) (seq 0 (Z.to_nat n)) (d := Z.to_nat j)).
    - do 3 f_equal. lia.
    - rewrite (nth_error_nth' _ 0%nat) by (rewrite seq_length; lia). rewrite seq_nth by lia. reflexivity. }
  assert (Fl : Forall is_bit l).
  { apply Forall_forall. intros x Hx. apply In_nth_error in Hx as [j Hj]. assert (H : (j < length l)%nat) by (apply nth_error_Some; congruence).
    destruct (B (Z.of_nat j)) as (B1 & B2 & _); [lia|]. rewrite Nat2Z.id in B1. congruence. }
  replace n with (Z.of_nat (length l)) by lia. split.
  - apply field_ok; auto; [intros E; rewrite E in Ll; cbn in Ll; lia|lia|]. intros j Hj. eexists. apply and_comm. destruct (B j) as (B1 & _ & B3); [lia|]. split; eassumption.
  - apply is_bits_val_range. split; auto.
Qed.

(* ---- the stages ---- *)
Definition ji (L i : Z) : Z := nth (Z.to_nat (i - 1)) (nth (Z.to_nat (L - 9)) ImbeJi []) 0.
(* numbers of harmonics in the blocks before block i *)
Definition jsum (L i : Z) : Z := fold_right Z.add 0 (firstn (Z.to_nat (i - 1)) (nth (Z.to_nat (L - 9)) ImbeJi [])).
Definition blocks_ok (z : Z) : bool :=
  let L := z + 9 in
  forallb (fun i => let i := i + 1 in (1 <=? ji L i) && (ji L i <=? 10) && (jsum L (i + 1) =? jsum L i + ji L i) && (0 <=? jsum L i - (i - 1))
    && (match rd2 ImbeJi z (i - 1) with Ok x => x =? ji L i | UB _ => false end)
    && (jsum L (i + 1) - i <=? L - 6)) (zrange 6)
  && (jsum L 1 =? 0) && (jsum L 7 =? L)
  && forallb (fun i => match rd2 (nth (Z.to_nat z) ba []) i 0, rd2 (nth (Z.to_nat z) ba []) i 1 with
       | Ok x, Ok _ => match sf_to_int x, nth_error (gain_bits L) (Z.to_nat i) with Ok n, Some k => (n =? k) && (1 <=? n) && (n <=? 12) | _, _ => false end | _, _ => false end) (zrange 5)
  && (length (gain_bits L) =? 5)%nat
  && forallb (fun '(k, n) => match rd2 hoba z k with Ok b => (b =? n) && (0 <=? n) && (n <=? 11) | UB _ => false end) (number_from 0 (higher_bits L))
  && (Z.of_nat (length (higher_bits L)) =? L - 6).
Lemma blocks_all : forallb blocks_ok (zrange 48) = true.
Proof. vm_compute. reflexivity. Qed.
Record block_facts (L : Z) : Prop := mkblock_facts {
  bf_ji : forall i, 1 <= i <= 6 -> 1 <= ji L i <= 10 /\ rd2 ImbeJi (L - 9) (i - 1) = Ok (ji L i);
  bf_sum : forall i, 1 <= i <= 6 -> jsum L (i + 1) = jsum L i + ji L i /\ 0 <= jsum L i - (i - 1) /\ jsum L (i + 1) - i <= L - 6;
  bf_first : jsum L 1 = 0; bf_last : jsum L 7 = L;
  bf_gain : forall i, 0 <= i < 5 -> exists x y n, rd2 (nth (Z.to_nat (L - 9)) ba []) i 0 = Ok x /\ rd2 (nth (Z.to_nat (L - 9)) ba []) i 1 = Ok y /\
     sf_to_int x = Ok n /\ nth_error (gain_bits L) (Z.to_nat i) = Some n /\ 1 <= n <= 12;
  bf_glen : length (gain_bits L) = 5%nat;
  bf_high : forall k, 0 <= k < L - 6 -> exists n, rd2 hoba (L - 9) k = Ok n /\ nth_error (higher_bits L) (Z.to_nat k) = Some n /\ 0 <= n <= 11
}.
Lemma blocks : forall L, 9 <= L <= 56 -> block_facts L.
Proof.
  intros L HL. pose proof (zrange_forallb 48 _ blocks_all (L - 9) ltac:(lia)) as H. unfold blocks_ok in H. replace (L - 9 + 9) with L in H by lia.
  cbv zeta in H. apply andb_prop in H as [H H7]. apply andb_prop in H as [H H6]. apply andb_prop in H as [H H5]. apply andb_prop in H as [H H4].
  apply andb_prop in H as [H H3]. apply andb_prop in H as [H1 H2].
  assert (Q : forall i, 1 <= i <= 6 -> (1 <= ji L i <= 10 /\ rd2 ImbeJi (L - 9) (i - 1) = Ok (ji L i)) /\
     (jsum L (i + 1) = jsum L i + ji L i /\ 0 <= jsum L i - (i - 1) /\ jsum L (i + 1) - i <= L - 6)).
  { intros i Hi. pose proof (zrange_forallb 6 _ H1 (i - 1) ltac:(lia)) as E. cbv beta zeta in E. replace (i - 1 + 1) with i in E by lia.
    destruct (rd2 ImbeJi (L - 9) (i - 1)) as [x|]; [|rewrite andb_false_r in E; discriminate E].
    assert (x = ji L i) by lia. subst x. repeat split; lia. }
  constructor.
  - intros i Hi. apply Q, Hi.
  - intros i Hi. apply Q, Hi.
  - lia.
  - lia.
  - intros i Hi. pose proof (zrange_forallb 5 _ H4 i ltac:(lia)) as E. cbv beta in E.
    destruct (rd2 (nth (Z.to_nat (L - 9)) ba []) i 0) as [x|]; [|discriminate]. destruct (rd2 (nth (Z.to_nat (L - 9)) ba []) i 1) as [y|]; [|discriminate].
    destruct (sf_to_int x) as [n|] eqn:EN; [|discriminate]. destruct (nth_error (gain_bits L) (Z.to_nat i)) as [k|]; [|discriminate].
    exists x, y, n. assert (k = n) by lia. subst k. repeat split; auto; lia.
  - apply Nat.eqb_eq. exact H5.
  - intros k Hk. apply Z.eqb_eq in H7. destruct (nth_error (higher_bits L) (Z.to_nat k)) as [n|] eqn:E; [|apply nth_error_None in E; lia].
    exists n. rewrite forallb_forall in H6. pose proof (number_in _ 0 _ _ E) as I. apply H6 in I. cbv beta iota in I.
    replace (0 + Z.of_nat (Z.to_nat k)) with k in I by lia. destruct (rd2 hoba (L - 9) k) as [b|]; [|discriminate]. assert (b = n) by lia. subst b. repeat split; auto; lia.
Qed.

Lemma voicing_eq : forall L, 9 <= L <= 56 -> imbe_K_of_L L = Ok (voicing_bits L) /\ 3 <= voicing_bits L <= 12.
Proof.
  intros L HL. assert (A : forallb (fun z => match imbe_K_of_L (z + 9) with Ok k => (k =? voicing_bits (z + 9)) && (3 <=? k) && (k <=? 12) | UB _ => false end) (zrange 48) = true) by (vm_compute; reflexivity).
  pose proof (zrange_forallb 48 _ A (L - 9) ltac:(lia)) as E. cbv beta in E. replace (L - 9 + 9) with L in E by lia.
  destruct (imbe_K_of_L L) as [k|]; [|discriminate]. assert (k = voicing_bits L) by lia. subst k. split; [reflexivity|lia].
Qed.

(* voicing decisions *)
Lemma vl_ok : forall L d bb Vl, 9 <= L <= 56 -> is_bits 88 d -> scattered L d 79 bb -> length Vl = 57%nat ->
  exists V, imbe_vl bb L (voicing_bits L) Vl = Ok V /\ length V = 57%nat /\
    (forall l, 1 <= l <= L -> rd V l = Ok (payload_bit L d (1, voicing_band L l))) /\
    (forall l, l < 1 \/ L < l -> rd V l = rd Vl l).
Proof.
  intros L d bb Vl HL Hd S LV. unfold imbe_vl. destruct (voicing_eq L HL) as [_ HK].
  match goal with |- exists V, bind (for_up _ _ ?f ?s0) _ = _ /\ _ => destruct (for_up_ok (fun i (s : list Z * Z * Z) =>
      let '(V, j, k) := s in length V = 57%nat /\ j = (i - 1) mod 3 + 1 /\ k = voicing_band L i /\
      (forall l, 1 <= l < i -> rd V l = Ok (payload_bit L d (1, voicing_band L l))) /\
      (forall l, l < 1 \/ i <= l -> rd V l = rd Vl l)) f 1 (L + 1) s0) as ([[V j] k] & E & P) end.
  - lia.
  - intros i [[V j] k] Hi (LV' & Hj & Hk & P & Q).
    set (b := payload_bit L d (1, k)). destruct (scattered_bit L d bb 1 k HL Hd S) as (Hb & Hr).
    { eapply quantiser_in; [left; reflexivity|]. subst k. unfold voicing_band. pose proof (Z.div_pos (i - 1) 3 ltac:(lia) ltac:(lia)). lia. }
    fold b in Hr, Hb. rewrite (rdi2_some _ _ _ _ Hr). cbn [bind]. pose proof (wr_ok V i (b mod 256) ltac:(lia)) as W. rewrite W. cbn [bind].
    assert (Eb : b mod 256 = b) by (destruct Hb as [E|E]; rewrite E; reflexivity). rewrite Eb in *.
    assert (R : length (set_nth (Z.to_nat i) b V) = 57%nat /\
      (forall l, 1 <= l < i + 1 -> rd (set_nth (Z.to_nat i) b V) l = Ok (payload_bit L d (1, voicing_band L l))) /\
      (forall l, l < 1 \/ i + 1 <= l -> rd (set_nth (Z.to_nat i) b V) l = rd Vl l)).
    { split; [now rewrite set_nth_length|]. split.
      - intros l Hl. destruct (Z.eq_dec l i) as [->|N].
        + rewrite <- Hk. exact (rd_wr_same _ _ _ _ W).
        + rewrite (rd_wr_other _ _ l _ _ W) by lia. apply P. lia.
      - intros l Hl. rewrite (rd_wr_other _ _ l _ _ W) by lia. apply Q. lia. }
    destruct R as (R1 & R2 & R3). unfold voicing_band in *.
    assert (D : (i + 1 - 1) mod 3 = if j =? 3 then 0 else j).
    { pose proof (Z.mod_pos_bound (i - 1) 3 ltac:(lia)). replace (i + 1 - 1) with ((i - 1) + 1) by lia. destruct (Z.eqb_spec j 3).
      - symmetry. apply Z.mod_unique with ((i - 1) / 3 + 1); [lia|]. pose proof (Z.div_mod (i - 1) 3). lia.
      - symmetry. apply Z.mod_unique with ((i - 1) / 3); [lia|]. pose proof (Z.div_mod (i - 1) 3). lia. }
    assert (D2 : (i + 1 - 1) / 3 = if j =? 3 then (i - 1) / 3 + 1 else (i - 1) / 3).
    { pose proof (Z.mod_pos_bound (i - 1) 3 ltac:(lia)). replace (i + 1 - 1) with ((i - 1) + 1) by lia. destruct (Z.eqb_spec j 3).
      - symmetry. apply Z.div_unique with 0; [lia|]. pose proof (Z.div_mod (i - 1) 3). lia.
      - symmetry. apply Z.div_unique with j; [lia|]. pose proof (Z.div_mod (i - 1) 3). lia. }
    eexists. split; [reflexivity|]. rewrite D, D2. destruct (Z.eqb_spec j 3).
    + split; [exact R1|]. split; [reflexivity|]. split; [|split; assumption]. subst k. destruct (Z.ltb_spec 0 (Z.max 0 (voicing_bits L - 1 - (i - 1) / 3))); lia.
    + split; [exact R1|]. split; [lia|]. split; [lia|]. split; assumption.
  - split; [exact LV|]. split; [reflexivity|]. split; [unfold voicing_band; change ((1 - 1) / 3) with 0; lia|]. split; [intros; lia|]. reflexivity.
  - rewrite E. cbn [bind]. destruct P as (P1 & _ & _ & P2 & P3). exists V. split; [reflexivity|]. split; [exact P1|]. split.
    + intros l Hl. apply P2. lia.
    + intros l Hl. apply P3. lia.
Qed.

(* gain vector *)
Definition filled_opt {A} (n : nat) (lo hi : Z) (a : list (option A)) : Prop :=
  length a = n /\ forall i, lo <= i < hi -> exists x, rd a i = Ok (Some x).
Lemma filled_opt_step : forall {A} n lo k (a : list (option A)) x, filled_opt n lo k a -> 0 <= lo <= k -> k < Z.of_nat n ->
  exists a', wr a k (Some x) = Ok a' /\ filled_opt n lo (k + 1) a'.
Proof.
  intros A n lo k a x [L H] Hlo Hk. pose proof (wr_ok a k (Some x) ltac:(lia)) as W. eexists. split; [exact W|]. split; [now rewrite set_nth_length|].
  intros i Hi. destruct (Z.eq_dec i k) as [->|N]; [exists x; exact (rd_wr_same _ _ _ _ W)|]. rewrite (rd_wr_other _ _ i _ _ W) by lia. apply H. lia.
Qed.
Lemma gm_ok : forall o L d bb, 9 <= L <= 56 -> is_bits 88 d -> scattered L d 79 bb ->
  exists Gm, imbe_gm o bb (L - 9) = Ok Gm /\ filled_opt 7 1 7 Gm.
Proof.
  intros o L d bb HL Hd S. pose proof (blocks L HL) as BF. unfold imbe_gm.
  destruct (quantiser_value L d bb 2 6 HL Hd S) as (E2 & R2); [right; left; reflexivity|lia|]. set (b2 := quantiser_number L d 2 6) in *. rewrite E2. cbn [bind].
  destruct (rd_ok B2 b2) as [g1 Hg1]; [change (Z.of_nat (length B2)) with 64; lia|]. rewrite Hg1. cbn [bind].
  destruct (filled_opt_step 7 1 1 (@fresh f32 7) g1) as (G0 & W0 & F0); [split; [reflexivity|intros; lia]|lia|lia|]. rewrite W0. cbn [bind].
  rewrite (rd_nth ba (L - 9) []) by (change (Z.of_nat (length ba)) with 48; lia). cbn [bind].
  match goal with |- exists V, for_up _ _ ?f ?s0 = _ /\ _ => destruct (for_up_ok (fun i s => filled_opt 7 1 i s) f 2 7 s0) as (G & E & P) end;
    [lia| |exact F0|exists G; auto].
  intros i G Hi F. destruct (bf_gain L BF (i - 2)) as (x & y & n & Hx & Hy & Hn & HN & Rn); [lia|]. rewrite Hx. cbn [bind]. rewrite Hy. cbn [bind]. rewrite Hn. cbn [bind].
  destruct (quantiser_value L d bb (i + 1) n HL Hd S) as (Ev & _); [|lia|].
  { right. right. replace (i + 1) with (3 + Z.of_nat (Z.to_nat (i - 2))) by lia. apply number_in. rewrite nth_error_app1; [exact HN|]. rewrite (bf_glen L BF). lia. }
  rewrite Ev. cbn [bind]. apply filled_opt_step; [exact F|lia|lia].
Qed.
Lemma ri_ok : forall o Gm, filled_opt 7 1 7 Gm -> exists Ri, imbe_ri o Gm = Ok Ri /\ filled_opt 7 1 7 Ri.
Proof.
  intros o Gm [_ F]. unfold imbe_ri.
  match goal with |- exists V, for_up _ _ ?f ?s0 = _ /\ _ => destruct (for_up_ok (fun i s => filled_opt 7 1 i s) f 1 7 s0) as (G & E & P) end;
    [lia| |split; [reflexivity|intros; lia]|exists G; auto].
  intros i R Hi FR.
  match goal with |- context [for_up 1 7 ?f ?s0] => destruct (for_up_ok0 (fun _ : f32 => True) f 1 7 s0) as (s & E & _) end; [|exact I|].
  { intros m s Hm _. destruct (F m Hm) as [g Hg]. rewrite (rdi_some _ _ _ Hg). cbn [bind]. eauto. }
  rewrite E. cbn [bind]. apply filled_opt_step; [exact FR|lia|lia].
Qed.

(* coefficients: block i' has coefficients 1..ji *)
Definition coeffs (L : Z) (i k : Z) (C : list (list (option f32))) : Prop :=
  shape 7 11 C /\ (forall i' k', 1 <= i' < i -> 1 <= k' <= ji L i' -> exists x, rd2 C i' k' = Ok (Some x)) /\
  (forall k', 1 <= k' < k -> exists x, rd2 C i k' = Ok (Some x)).
Lemma coeffs_step : forall L i k C x, coeffs L i k C -> 1 <= i <= 6 -> 1 <= k <= 10 -> exists C', wr2 C i k (Some x) = Ok C' /\ coeffs L i (k + 1) C'.
Proof.
  intros L i k C x (S & P & Q) Hi Hk. destruct (wr2_ok 7 11 C i k (Some x) S) as (C' & W & S' & SM & OT); [lia|lia|]. exists C'. split; [exact W|].
  split; [exact S'|]. split.
  - intros i' k' Hi' Hk'. rewrite OT by lia. auto.
  - intros k' Hk'. destruct (Z.eq_dec k' k) as [->|N]; [eauto|]. rewrite OT by lia. apply Q. lia.
Qed.
Lemma cik_ok : forall o L d bb Ri, 9 <= L <= 56 -> is_bits 88 d -> scattered L d 79 bb -> filled_opt 7 1 7 Ri ->
  exists C, imbe_cik o bb (L - 9) Ri = Ok C /\ coeffs L 7 1 C.
Proof.
  intros o L d bb Ri HL Hd S [_ FR]. pose proof (blocks L HL) as BF. unfold imbe_cik.
  match goal with |- exists V, bind (for_up _ _ ?f ?s0) _ = _ /\ _ => destruct (for_up_ok (fun i (s : list (list (option f32)) * Z) =>
      coeffs L i 1 (fst s) /\ snd s = 8 + jsum L i - (i - 1)) f 1 7 s0) as ([C m] & E & P & _) end;
    [lia| | |rewrite E; cbn [bind]; exists C; auto].
  - intros i [C m] Hi [P Q]. cbn [fst snd] in *. destruct (FR i Hi) as [r Hr]. rewrite (rdi_some _ _ _ Hr). cbn [bind].
    destruct (coeffs_step L i 1 C r P) as (C1 & W1 & P1); [lia|lia|]. rewrite W1. cbn [bind].
    destruct (bf_ji L BF i) as [J1 J2]; [lia|]. destruct (bf_sum L BF i) as (S1 & S2 & S3); [lia|]. rewrite J2. cbn [bind].
    match goal with |- exists V, for_up _ _ ?f ?s0 = _ /\ _ => destruct (for_up_ok (fun k (s : list (list (option f32)) * Z) =>
      coeffs L i k (fst s) /\ snd s = 8 + jsum L i - (i - 1) + (k - 2)) f 2 (ji L i + 1) s0) as ([C2 m2] & E & P2 & Q2) end.
    + lia.
    + intros k [C3 m3] Hk [P3 Q3]. cbn [fst snd] in *. destruct (bf_high L BF (m3 - 8)) as (n & Hn & HN & Rn); [lia|]. rewrite Hn. cbn [bind].
      match goal with |- context [bind (if n =? 0 then Ok fzero else ?e) _] => assert (K : exists c, (if n =? 0 then Ok fzero else e) = Ok c) end.
      { destruct (Z.eqb_spec n 0); [eauto|].
        destruct (quantiser_value L d bb m3 n HL Hd S) as (Ev & _); [|lia|].
        { right. right. replace m3 with (3 + Z.of_nat (5 + Z.to_nat (m3 - 8))) by lia. apply number_in. rewrite nth_error_app2; rewrite (bf_glen L BF); [|lia].
          replace (5 + Z.to_nat (m3 - 8) - 5)%nat with (Z.to_nat (m3 - 8)) by lia. exact HN. }
        rewrite Ev. cbn [bind]. destruct (rd_ok quantstep (n - 1)) as [q Hq]; [change (Z.of_nat (length quantstep)) with 11; lia|]. rewrite Hq. cbn [bind].
        destruct (rd_ok standdev (k - 2)) as [sd Hsd]; [change (Z.of_nat (length standdev)) with 9; lia|]. rewrite Hsd. cbn [bind]. eauto. }
      destruct K as [c Hc]. rewrite Hc. cbn [bind]. destruct (coeffs_step L i k C3 c P3) as (C4 & W4 & P4); [lia|lia|]. rewrite W4. cbn [bind].
      eexists. split; [reflexivity|]. cbn [fst snd]. split; [exact P4|lia].
    + cbn [fst snd]. split; [exact P1|lia].
    + exists (C2, m2). split; [exact E|]. cbn [fst snd] in *. split; [|lia]. destruct P2 as (X1 & X2 & X3). split; [exact X1|]. split; [|intros; lia].
      intros i' k' Hi' Hk'. destruct (Z.eq_dec i' i) as [->|N]; [apply X3; lia|apply X2; lia].
  - cbn [fst snd]. split; [|rewrite (bf_first L BF); lia]. split; [exact (shape_fresh 7 11)|]. split; intros; lia.
Qed.
Lemma tl_ok : forall o L C, 9 <= L <= 56 -> coeffs L 7 1 C -> exists Tl, imbe_tl o (L - 9) C = Ok Tl /\ length Tl = 57%nat.
Proof.
  intros o L C HL (SH & P & _). pose proof (blocks L HL) as BF. unfold imbe_tl.
  match goal with |- exists V, bind (for_up _ _ ?f ?s0) _ = _ /\ _ => destruct (for_up_ok (fun i (s : list f32 * Z) =>
      length (fst s) = 57%nat /\ snd s = 1 + jsum L i) f 1 7 s0) as ([T m] & E & Q & _) end;
    [lia| | |rewrite E; cbn [bind]; exists T; auto].
  - intros i [T l] Hi [LT Hl]. cbn [fst snd] in *. destruct (bf_ji L BF i) as [J1 J2]; [lia|]. destruct (bf_sum L BF i) as (S1 & S2 & S3); [lia|]. rewrite J2. cbn [bind].
    assert (SL : jsum L (i + 1) <= L).
    { pose proof (bf_last L BF) as BL. assert (B : forall j, 1 <= j <= 6 -> jsum L j <= jsum L (j + 1)) by (intros j Hj; destruct (bf_sum L BF j Hj); destruct (bf_ji L BF j Hj); lia).
      pose proof (B 2 ltac:(lia)). pose proof (B 3 ltac:(lia)). pose proof (B 4 ltac:(lia)). pose proof (B 5 ltac:(lia)). pose proof (B 6 ltac:(lia)).
      assert (i = 1 \/ i = 2 \/ i = 3 \/ i = 4 \/ i = 5 \/ i = 6) as [->|[->|[->|[->|[->| -> ]]]]] by lia;
      change (1 + 1) with 2 in *; change (2 + 1) with 3 in *; change (3 + 1) with 4 in *; change (4 + 1) with 5 in *; change (5 + 1) with 6 in *; change (6 + 1) with 7 in *; lia. }
    match goal with |- exists V, for_up _ _ ?f ?s0 = _ /\ _ => destruct (for_up_ok (fun j (s : list f32 * Z) =>
      length (fst s) = 57%nat /\ snd s = 1 + jsum L i + (j - 1)) f 1 (ji L i + 1) s0) as ([T2 m2] & E & P2 & Q2) end.
    + lia.
    + intros j [T3 m3] Hj [P3 Q3]. cbn [fst snd] in *.
      match goal with |- context [for_up 1 (ji L i + 1) ?f fzero] => destruct (for_up_ok0 (fun _ : f32 => True) f 1 (ji L i + 1) fzero) as (s & E & _) end; [|exact I|].
      { intros k s Hk _. destruct (P i k) as [x Hx]; [lia|lia|]. rewrite (rdi2_some _ _ _ _ Hx). cbn [bind]. eauto. }
      rewrite E. cbn [bind]. rewrite wr_ok by lia. cbn [bind]. eexists. split; [reflexivity|]. cbn [fst snd]. rewrite set_nth_length. split; [exact P3|lia].
    + cbn [fst snd]. split; [exact LT|lia].
    + exists (T2, m2). split; [exact E|]. cbn [fst snd] in *. split; [exact P2|lia].
  - cbn [fst snd]. split; [apply repeat_length|rewrite (bf_first L BF); lia].
Qed.

(* ---- extension of the previous frame ---- *)
Lemma rd_wr_any : forall {A} (a : list A) i v a' j, wr a i v = Ok a' -> rd a' j = if j =? i then Ok v else rd a j.
Proof.
  intros A a i v a' j W. destruct (Z.eqb_spec j i) as [->|N]; [exact (rd_wr_same _ _ _ _ W)|]. apply (rd_wr_other _ _ j _ _ W). lia.
Qed.
Definition extended_to (n k : Z) (a a' : list f32) : Prop :=
  length a' = length a /\ (forall l, l <= n \/ k <= l -> rd a' l = rd a l) /\ (forall l, n < l < k -> rd a' l = rd a n).
Lemma extended_step : forall n k a a1 m a2, n < k -> extended_to n k a a1 -> rd a1 n = Ok m -> wr a1 k m = Ok a2 -> extended_to n (k + 1) a a2.
Proof.
  intros n k a a1 m a2 Hn (A & B & C) Hm W. split; [rewrite (wr_len _ _ _ _ W); exact A|]. assert (M : rd a n = Ok m) by (rewrite <- B by lia; exact Hm). split.
  - intros l Hl. rewrite (rd_wr_any _ _ _ _ _ W). destruct (Z.eqb_spec l k); [lia|]. apply B. lia.
  - intros l Hl. rewrite (rd_wr_any _ _ _ _ _ W). destruct (Z.eqb_spec l k); [congruence|]. apply C. lia.
Qed.
Lemma extend_prev_extended : forall L prev prev', imbe_extend_prev L prev = Ok prev' ->
  extended (p_L prev) L (p_Ml prev) (p_Ml prev') /\ extended (p_L prev) L (p_log2Ml prev) (p_log2Ml prev').
Proof.
  intros L prev prev' H. unfold imbe_extend_prev in H. cbv zeta in H. destruct (Z.ltb_spec (p_L prev) L) as [LT|GE].
  2:{ injection H as <-. split; (split; [reflexivity|]; split; [reflexivity|intros; lia]). }
  assert (P : extended_to (p_L prev) (L + 1) (p_Ml prev) (p_Ml prev') /\ extended_to (p_L prev) (L + 1) (p_log2Ml prev) (p_log2Ml prev')).
  { refine (for_up_inv (fun k x => extended_to (p_L prev) k (p_Ml prev) (p_Ml x) /\ extended_to (p_L prev) k (p_log2Ml prev) (p_log2Ml x)) _ _ _ _ _ _ _ _ H); [lia| |].
    - intros k x x' Hk [A B] E. apply bind_inv in E as (m & R1 & E). apply bind_inv in E as (ml & W1 & E). apply bind_inv in E as (g & R2 & E). apply bind_inv in E as (lg & W2 & E).
      injection E as <-. fields. split; eapply extended_step; eauto; lia.
    - split; (split; [reflexivity|]; split; [reflexivity|intros; lia]). }
  destruct P as [(A & B & C) (D & E & F)]. split.
  - split; [exact A|]. split; intros l Hl; [apply B; lia|apply C; lia].
  - split; [exact D|]. split; intros l Hl; [apply E; lia|apply F; lia].
Qed.

(* ---- the decoder ---- *)
Lemma harmonics_range : forall b0, 0 <= b0 <= 207 -> 9 <= imbe_harmonics b0 <= 56.
Proof.
  intros b0 H. assert (A : forallb (fun b => (9 <=? imbe_harmonics b) && (imbe_harmonics b <=? 56)) (zrange 208) = true) by (vm_compute; reflexivity).
  pose proof (zrange_forallb 208 _ A b0 ltac:(lia)) as E. cbv beta in E. lia.
Qed.
Lemma bands_voicing : forall b0, imbe_bands b0 = voicing_bits (imbe_harmonics b0).
Proof. reflexivity. Qed.
Lemma imbe_decode_bad : forall o d cur prev, is_bits 88 d -> 207 < pitch7200 d ->
  mbe_decodeImbe4400Parms o d cur prev = Ok (1, set_repeat (p_repeat prev) cur, prev).
Proof.
  intros o d cur prev Hd Hb. unfold mbe_decodeImbe4400Parms. cbv zeta. rewrite read_pitch7200 by exact Hd. cbn [bind].
  destruct (Z.ltb_spec 207 (pitch7200 d)); [reflexivity|lia].
Qed.
(* up to the amplitudes decoding never fails *)
Lemma imbe_decode_run : forall o d cur prev, is_bits 88 d -> pitch7200 d <= 207 -> length (p_Vl cur) = 57%nat ->
  let L := imbe_harmonics (pitch7200 d) in exists V Tl, length V = 57%nat /\ length Tl = 57%nat /\
    (forall l, 1 <= l <= L -> rd V l = Ok (payload_bit L d (1, voicing_band L l))) /\
    (forall l, l < 1 \/ L < l -> rd V l = rd (p_Vl cur) l) /\
    mbe_decodeImbe4400Parms o d cur prev =
      (prev' <- imbe_extend_prev L prev ;;
       cur' <- imbe_predict o L prev' Tl (set_Vl V (set_K (imbe_bands (pitch7200 d)) (set_L L (set_w0 (imbe_w0_of_b0 (pitch7200 d)) (set_repeat (p_repeat prev) cur))))) ;;
       Ok (0, cur', prev')).
Proof.
  intros o d cur prev Hd Hb LV L. pose proof (pitch7200_range d Hd) as R. pose proof (harmonics_range (pitch7200 d) ltac:(lia)) as HL. fold L in HL.
  destruct (harmonics_of_b0 (pitch7200 d) ltac:(lia)) as (E1 & E2 & E3). fold L in E1, E2.
  unfold mbe_decodeImbe4400Parms. cbv zeta. rewrite read_pitch7200 by exact Hd. cbn [bind].
  destruct (Z.ltb_spec 207 (pitch7200 d)); [lia|]. fields. rewrite E1. cbn [bind].
  destruct (Z.ltb_spec 56 L); [lia|]. destruct (Z.ltb_spec L 9); [lia|]. cbn [orb]. rewrite E2. cbn [bind].
  destruct (imbe_bb_ok d L HL) as (bb & Hbb & S); [destruct Hd; lia|]. rewrite Hbb. cbn [bind]. fields.
  destruct (vl_ok L d bb (p_Vl cur) HL Hd S LV) as (V & HV & LV' & V1 & V2). rewrite bands_voicing. fold L. rewrite HV. cbn [bind].
  destruct (gm_ok o L d bb HL Hd S) as (Gm & HG & FG). rewrite HG. cbn [bind].
  destruct (ri_ok o Gm FG) as (Ri & HR & FR). rewrite HR. cbn [bind].
  destruct (cik_ok o L d bb Ri HL Hd S FR) as (C & HC & FC). rewrite HC. cbn [bind].
  destruct (tl_ok o L C HL FC) as (Tl & HT & LT). rewrite HT. cbn [bind].
  exists V, Tl. auto.
Qed.
Lemma imbe_decode_inv : forall o d cur prev bad cur' prev', is_bits 88 d -> pitch7200 d <= 207 -> length (p_Vl cur) = 57%nat ->
  mbe_decodeImbe4400Parms o d cur prev = Ok (bad, cur', prev') ->
  bad = 0 /\ imbe_accepted d cur prev cur' prev' /\ p_w0 cur' = imbe_w0_of_b0 (pitch7200 d).
Proof.
  intros o d cur prev bad cur' prev' Hd Hb LV H. destruct (imbe_decode_run o d cur prev Hd Hb LV) as (V & Tl & L1 & L2 & V1 & V2 & E). rewrite E in H. clear E.
  set (L := imbe_harmonics (pitch7200 d)) in *.
  apply bind_inv in H as (p1 & HE & H). apply bind_inv in H as (c1 & HP & H). injection H as <- <- <-. split; [reflexivity|].
  pose proof (extend_prev_extended _ _ _ HE) as [X1 X2]. apply extend_prev_effect in HE as [HE _]. apply predict_effect in HP as (B & [N1 N2] & K). fields.
  assert (F : forall {A} (g : parms -> A), (forall x y m, g (set_log2Ml x (set_Ml y m)) = g m) -> g c1 = g (set_Vl V (set_K (imbe_bands (pitch7200 d)) (set_L L (set_w0 (imbe_w0_of_b0 (pitch7200 d)) (set_repeat (p_repeat prev) cur)))))).
  { intros A g Hg. rewrite B. apply Hg. }
  split; [|rewrite (F _ p_w0) by reflexivity; reflexivity]. unfold imbe_accepted. fold L.
  rewrite (F _ p_L), (F _ p_K), (F _ p_repeat), (F _ p_Vl), (F _ p_w0) by reflexivity. fields.
  split; [reflexivity|]. split; [reflexivity|]. split; [reflexivity|]. split; [exact V1|]. split; [split; [congruence|exact V2]|].
  split; [split; [exact N1|intros l Hl; apply K, Hl]|]. split; [split; [exact N2|intros l Hl; apply K, Hl]|].
  split; [exact B|]. split; [exact X1|]. split; [exact X2|]. exact HE.
Qed.
Lemma imbe_decode_total : forall o d cur prev, is_bits 88 d -> wf_parms cur -> pitch7200 d <= 207 -> prev_ok (imbe_harmonics (pitch7200 d)) prev ->
  exists bad cur' prev', mbe_decodeImbe4400Parms o d cur prev = Ok (bad, cur', prev').
Proof.
  intros o d cur prev Hd WC Hb [WP LP].
  destruct (imbe_decode_run o d cur prev Hd Hb) as (V & Tl & L1 & L2 & V1 & V2 & ->); [apply WC|].
  pose proof (pitch7200_range d Hd) as R. pose proof (harmonics_range (pitch7200 d) ltac:(lia)) as HL. set (L := imbe_harmonics (pitch7200 d)) in *.
  destruct (extend_prev_total L prev WP) as (p1 & -> & B & S); [lia|lia|]. cbn [bind].
  match goal with |- context [imbe_predict o L p1 Tl ?c] => destruct (imbe_predict_total o L p1 Tl c) as (c1 & -> & _) end; [| |lia|exact L2|].
  - split; [eapply but_logs_wf; eassumption|]. rewrite B. exact LP.
  - destruct WC as (W1 & W). split; [exact L1|exact W].
  - cbn [bind]. eauto.
Qed.
Lemma imbe_decode_oob : forall o d cur prev, is_bits 88 d -> length (p_Vl cur) = 57%nat -> wf_parms prev -> pitch7200 d <= 207 -> p_L prev = 56 ->
  safe56 (imbe_harmonics (pitch7200 d)) = false -> mbe_decodeImbe4400Parms o d cur prev = UB OOB.
Proof.
  intros o d cur prev Hd WC WP Hb HP HS.
  destruct (imbe_decode_run o d cur prev Hd Hb WC) as (V & Tl & L1 & L2 & V1 & V2 & ->).
  pose proof (pitch7200_range d Hd) as R. pose proof (harmonics_range (pitch7200 d) ltac:(lia)) as HL. set (L := imbe_harmonics (pitch7200 d)) in *.
  destruct (extend_prev_total L prev WP) as (p1 & -> & B & S); [lia|lia|]. cbn [bind]. unfold imbe_predict. cbv zeta.
  rewrite sum77_oob; [reflexivity|eapply but_logs_wf; eassumption|rewrite B; exact HP|lia|exact HS].
Qed.
Lemma payload_fields : forall L d, 9 <= L <= 56 -> is_bits 88 d -> exists bb, imbe_bb d (L - 9) = Ok bb /\
  forall q n, In (q, n) (quantisers L) -> 1 <= n <= 12 -> bb_field bb q n = Ok (quantiser_number L d q n) /\ 0 <= quantiser_number L d q n < 2 ^ n.
Proof.
  intros L d HL Hd. destruct (imbe_bb_ok d L HL) as (bb & Hbb & S); [destruct Hd; lia|]. exists bb. split; [exact Hbb|]. intros q n I Hn. exact (quantiser_value L d bb q n HL Hd S I Hn).
Qed.
Lemma quantiser_sizes : forall L q n, 9 <= L <= 56 -> In (q, n) (quantisers L) -> 0 <= n <= 12.
Proof.
  intros L q n HL I. pose proof (blocks L HL) as BF. destruct I as [I|[I|I]].
  - injection I as <- <-. pose proof (voicing_eq L HL). lia.
  - injection I as <- <-. lia.
  - assert (K : forall ns p, In (q, n) (number_from p ns) -> exists j, nth_error ns j = Some n).
    { induction ns as [|x ns IH]; intros p J; [destruct J|]. destruct J as [J|J]; [injection J as <- <-; exists 0%nat; reflexivity|].
      destruct (IH _ J) as [j Hj]. exists (Datatypes.S j). exact Hj. }
    destruct (K _ _ I) as [j Hj]. destruct (Nat.lt_ge_cases j 5) as [H|H].
    + rewrite nth_error_app1 in Hj by (rewrite (bf_glen L BF); lia). destruct (bf_gain L BF (Z.of_nat j)) as (x & y & m & _ & _ & _ & Q & R); [lia|]. rewrite Nat2Z.id in Q. replace n with m by congruence. lia.
    + rewrite nth_error_app2 in Hj by (rewrite (bf_glen L BF); lia). rewrite (bf_glen L BF) in Hj.
      destruct (Z_lt_le_dec (Z.of_nat (j - 5)) (L - 6)) as [H2|H2].
      * destruct (bf_high L BF (Z.of_nat (j - 5))) as (m & _ & Q & R); [lia|]. rewrite Nat2Z.id in Q. replace n with m by congruence. lia.
      * exfalso. assert (N : nth_error (higher_bits L) (j - 5) = None); [|congruence]. apply nth_error_None. unfold higher_bits. rewrite firstn_length. lia.
Qed.
Lemma scan_perm : forall L, 9 <= L <= 56 -> Permutation (scan L) (quantiser_bits L) /\ length (scan L) = 79%nat.
Proof. intros L HL. destruct (layout_facts L HL) as (_ & _ & A & B & _). auto. Qed.
Lemma accepted_range : forall d, is_bits 88 d -> pitch7200 d <= 207 -> 9 <= imbe_harmonics (pitch7200 d) <= 56.
Proof. intros d Hd Hb. apply harmonics_range. pose proof (pitch7200_range d Hd). lia. Qed.
Lemma imbe_decode_accepted : forall o d cur prev bad cur' prev', is_bits 88 d -> pitch7200 d <= 207 -> length (p_Vl cur) = 57%nat ->
  mbe_decodeImbe4400Parms o d cur prev = Ok (bad, cur', prev') -> bad = 0 /\ imbe_accepted d cur prev cur' prev'.
Proof. intros o d cur prev bad cur' prev' H1 H2 H3 H4. destruct (imbe_decode_inv _ _ _ _ _ _ _ H1 H2 H3 H4) as (A & B & _). auto. Qed.
Lemma usable_prev : forall L prev, usable_history L prev -> prev_ok L prev.
Proof. intros L prev [W [H|[H [E|E]]]]; (split; [exact W|]); [left; exact H|right; subst L; auto|right; subst L; auto]. Qed.
Lemma imbe_decode_defined : forall o d cur prev, is_bits 88 d -> wf_parms cur -> pitch7200 d <= 207 -> usable_history (imbe_harmonics (pitch7200 d)) prev ->
  exists bad cur' prev', mbe_decodeImbe4400Parms o d cur prev = Ok (bad, cur', prev').
Proof. intros o d cur prev H1 H2 H3 H4. apply imbe_decode_total; auto. apply usable_prev, H4. Qed.
Lemma imbe_decode_outside : forall o d cur prev, is_bits 88 d -> length (p_Vl cur) = 57%nat -> wf_parms prev -> pitch7200 d <= 207 -> p_L prev = 56 ->
  imbe_harmonics (pitch7200 d) <> 23 -> imbe_harmonics (pitch7200 d) <> 46 -> mbe_decodeImbe4400Parms o d cur prev = UB OOB.
Proof. intros o d cur prev H1 H2 H3 H4 H5 H6 H7. apply imbe_decode_oob; auto. unfold safe56. apply orb_false_iff. split; apply Z.eqb_neq; assumption. Qed.
Lemma accepted_size : forall o d cur prev bad cur' prev', is_bits 88 d -> pitch7200 d <= 207 -> length (p_Vl cur) = 57%nat ->
  mbe_decodeImbe4400Parms o d cur prev = Ok (bad, cur', prev') -> 9 <= p_L cur' <= 56.
Proof. intros o d cur prev bad cur' prev' B P L E. destruct (imbe_decode_accepted o d cur prev bad cur' prev' B P L E) as [_ (-> & _)]. exact (accepted_range d B P). Qed.
