From Coq Require Import ZArith List Bool String DecimalString Lia.
From Verif Require Import Res F32 MEcc MFrame MDump SpecEcc SpecFrame SpecDump.
Import ListNotations.
Local Open Scope string_scope.
Local Open Scope Z_scope.

Lemma app_assoc_s : forall a b c : string, ((a ++ b) ++ c = a ++ (b ++ c))%string.
Proof. induction a as [|x a IH]; intros b c; cbn; [reflexivity|now rewrite IH]. Qed.
Lemma app_nil_s : forall a : string, (a ++ "" = a)%string.
Proof. induction a as [|x a IH]; cbn; [reflexivity|now rewrite IH]. Qed.
Lemma concat_cons : forall a l, String.concat "" (a :: l) = (a ++ String.concat "" l)%string.
Proof. intros a [|b l]; cbn; [now rewrite app_nil_s|reflexivity]. Qed.
Lemma concat_app : forall l l', String.concat "" (l ++ l')%list = (String.concat "" l ++ String.concat "" l')%string.
Proof.
  induction l as [|a l IH]; intros l'; [reflexivity|]. rewrite <- app_comm_cons, !concat_cons, IH. now rewrite app_assoc_s.
Qed.
(* groups as one list of strings *)
Fixpoint joined (g : list (list string)) : list string :=
  match g with [] => [] | [w] => w | w :: g => (w ++ " " :: joined g)%list end.
Lemma spaced_pieces : forall g, spaced g = String.concat "" (joined (map (map show) g)).
Proof.
  unfold spaced. induction g as [|w [|w' g] IH]; [reflexivity|reflexivity|].
  cbn [map joined] in IH |- *. rewrite concat_app, concat_cons, <- IH. reflexivity.
Qed.

Ltac rows := repeat match goal with
  | H : Forall _ (_ :: _) |- _ => apply Forall_cons_iff in H as (? & H)
  | H : List.length ?l = O |- _ => destruct l; [clear H|discriminate H]
  | H : List.length ?l = S _ |- _ => destruct l; [discriminate H|cbn in H; injection H as H]
  end.
Ltac pieces := cbv -[show]; reflexivity.

Lemma data7200 : forall d, List.length d = 88%nat -> mbe_dumpImbe7200x4400Data d = Ok (joined (map (map show) (groups7200 d))).
Proof. intros d L. rows. pieces. Qed.
Lemma data4400 : forall d, List.length d = 88%nat -> mbe_dumpImbe4400Data d = Ok (map show d).
Proof. intros d L. rows. pieces. Qed.
Lemma data7100 : forall d, List.length d = 88%nat -> mbe_dumpImbe7100x4400Data d = Ok (joined (map (map show) (groups7100 d))).
Proof. intros d L. rows. pieces. Qed.
Lemma data3600 : forall d, List.length d = 49%nat -> mbe_dumpAmbe2450Data d = Ok (map show d ++ [" "])%list.
Proof. intros d L. rows. pieces. Qed.
Lemma frame7200 : forall fr, sized 8 23 fr -> mbe_dumpImbe7200x4400Frame fr = Ok (joined (map (map show) (words7200 fr))).
Proof. intros fr [L F]. rows. pieces. Qed.
Lemma frame7100 : forall fr, sized 7 24 fr -> mbe_dumpImbe7100x4400Frame fr = Ok (joined (map (map show) (words7100 fr))).
Proof. intros fr [L F]. rows. pieces. Qed.
Definition labels (g : list (list Z)) : list string :=
  flat_map (fun '(l, w) => l :: map show w ++ [" "])%list (combine ["ambe_fr c0: "; "ambe_fr c1: "; "ambe_fr c2: "; "ambe_fr c3: "] g).
Lemma frame3600 : forall fr, sized 4 24 fr -> mbe_dumpAmbe3600x2450Frame fr = Ok (labels (words3600 fr)).
Proof. intros fr [L F]. rows. pieces. Qed.
Lemma labels_text : forall g, String.concat "" (labels g) = labelled g.
Proof.
  intros g. unfold labels, labelled. induction (combine _ g) as [|[l w] c IH]; [reflexivity|]. cbn [flat_map map]. rewrite concat_app, concat_cons, IH.
  rewrite concat_cons, concat_app. cbn [String.concat]. reflexivity.
Qed.

(* what is printed *)
Lemma dump7200_data : forall d, List.length d = 88%nat -> prints (mbe_dumpImbe7200x4400Data d) (spaced (groups7200 d)).
Proof. intros d L. rewrite data7200 by exact L. eexists. split; [reflexivity|]. symmetry. apply spaced_pieces. Qed.
Lemma dump4400_data : forall d, List.length d = 88%nat -> prints (mbe_dumpImbe4400Data d) (digits d).
Proof. intros d L. rewrite data4400 by exact L. eexists. split; reflexivity. Qed.
Lemma dump7100_data : forall d, List.length d = 88%nat -> prints (mbe_dumpImbe7100x4400Data d) (spaced (groups7100 d)).
Proof. intros d L. rewrite data7100 by exact L. eexists. split; [reflexivity|]. symmetry. apply spaced_pieces. Qed.
Lemma dump3600_data : forall d, List.length d = 49%nat -> prints (mbe_dumpAmbe2450Data d) (digits d ++ " ") /\ prints (mbe_dumpAmbe2400Data d) (digits d ++ " ").
Proof.
  intros d L. assert (K : prints (mbe_dumpAmbe2450Data d) (digits d ++ " ")).
  { rewrite data3600 by exact L. eexists. split; [reflexivity|]. rewrite concat_app. reflexivity. }
  split; exact K.
Qed.
Lemma dump7200_frame : forall fr, sized 8 23 fr -> prints (mbe_dumpImbe7200x4400Frame fr) (spaced (words7200 fr)).
Proof. intros fr L. rewrite frame7200 by exact L. eexists. split; [reflexivity|]. symmetry. apply spaced_pieces. Qed.
Lemma dump7100_frame : forall fr, sized 7 24 fr -> prints (mbe_dumpImbe7100x4400Frame fr) (spaced (words7100 fr)).
Proof. intros fr L. rewrite frame7100 by exact L. eexists. split; [reflexivity|]. symmetry. apply spaced_pieces. Qed.
Lemma dump3600_frame : forall fr, sized 4 24 fr -> prints (mbe_dumpAmbe3600x2450Frame fr) (labelled (words3600 fr)) /\ prints (mbe_dumpAmbe3600x2400Frame fr) (labelled (words3600 fr)).
Proof.
  intros fr L. assert (K : prints (mbe_dumpAmbe3600x2450Frame fr) (labelled (words3600 fr))).
  { rewrite frame3600 by exact L. eexists. split; [reflexivity|]. apply labels_text. }
  split; exact K.
Qed.

(* bits: the output determines what was printed *)
Lemma split_s : forall a a' b b' : string, String.length a = String.length a' -> (a ++ b = a' ++ b')%string -> a = a' /\ b = b'.
Proof.
  induction a as [|x a IH]; intros [|y a'] b b' L E; try discriminate L; [now split|].
  cbn in L, E. injection L as L. injection E as -> E. destruct (IH _ _ _ L E) as [-> ->]. now split.
Qed.
Lemma concat_inj : forall l l', Forall2 (fun a b => String.length a = String.length b) l l' -> String.concat "" l = String.concat "" l' -> l = l'.
Proof.
  induction 1 as [|a b l l' L F IH]; intros E; [reflexivity|]. rewrite !concat_cons in E. apply split_s in E as [-> E]; [|exact L]. now rewrite IH.
Qed.
Definition bits (l : list Z) : Prop := Forall is_bit l.
Lemma show_len : forall b, is_bit b -> String.length (show b) = 1%nat.
Proof. intros b [-> | ->]; reflexivity. Qed.
Lemma show_inj : forall b b', is_bit b -> is_bit b' -> show b = show b' -> b = b'.
Proof. intros b b' [-> | ->] [-> | ->] E; try reflexivity; discriminate E. Qed.
Lemma shows_len : forall l l', bits l -> bits l' -> List.length l = List.length l' -> Forall2 (fun a b => String.length a = String.length b) (map show l) (map show l').
Proof.
  induction l as [|b l IH]; intros [|b' l'] B B' L; try discriminate L; [constructor|]. inversion B; inversion B'; subst. cbn. constructor; [now rewrite !show_len|]. apply IH; auto.
Qed.
Lemma shows_inj : forall l l', bits l -> bits l' -> map show l = map show l' -> l = l'.
Proof.
  induction l as [|b l IH]; intros [|b' l'] B B' E; try discriminate E; [reflexivity|]. inversion B; inversion B'; subst. cbn in E. injection E as E1 E2. f_equal; [now apply show_inj|now apply IH].
Qed.
Lemma digits_inj : forall l l', bits l -> bits l' -> List.length l = List.length l' -> digits l = digits l' -> l = l'.
Proof. intros l l' B B' L E. apply shows_inj; [exact B|exact B'|]. apply concat_inj; [now apply shows_len|exact E]. Qed.
Lemma digits_length : forall l, bits l -> String.length (digits l) = List.length l.
Proof.
  intros l B. unfold digits. induction B as [|b l Hb B IH]; [reflexivity|]. cbn [map]. rewrite concat_cons. 
  assert (A : forall a c : string, String.length (a ++ c) = (String.length a + String.length c)%nat) by (induction a; intros; cbn; auto).
  rewrite A, IH. rewrite (show_len b Hb : String.length (decimal b) = 1%nat). reflexivity.
Qed.
Lemma spaced_inj : forall g g', Forall bits g -> Forall bits g' -> map (@List.length Z) g = map (@List.length Z) g' -> spaced g = spaced g' -> g = g'.
Proof.
  unfold spaced. induction g as [|w g IH]; intros [|w' g'] B B' L E; try discriminate L; [reflexivity|]. apply Forall_cons_iff in B as [Bw B]. apply Forall_cons_iff in B' as [Bw' B'].
  cbn [map] in L. injection L as Lw L. cbn [map] in E. destruct g as [|v g], g' as [|v' g']; try discriminate L.
  - cbn in E. f_equal. apply digits_inj; assumption.
  - cbn [map] in E. change (String.concat " " (digits w :: digits v :: map digits g)) with (digits w ++ " " ++ String.concat " " (digits v :: map digits g))%string in E.
    change (String.concat " " (digits w' :: digits v' :: map digits g')) with (digits w' ++ " " ++ String.concat " " (digits v' :: map digits g'))%string in E.
    apply split_s in E as [E1 E2]; [|now rewrite !digits_length]. apply split_s in E2 as [_ E2]; [|reflexivity].
    f_equal; [apply digits_inj; assumption|]. apply IH; assumption.
Qed.
Lemma prints_one : forall r s s', prints r s -> prints r s' -> s = s'.
Proof. intros r s s' (w & E & <-) (w' & E' & <-). rewrite E in E'. injection E' as <-. reflexivity. Qed.
Lemma row_top : forall w n r lo, row w n r -> bits (top lo n r).
Proof. intros w n r lo [_ B]. unfold top, bits. apply Forall_rev, Forall_forall. intros x Hx. apply (proj1 (Forall_forall _ _) B). rewrite <- (firstn_skipn lo). apply in_or_app. now right. Qed.
Lemma row_top0 : forall w n k r, (k <= n)%nat -> row w n r -> bits (top 0 k r).
Proof.
  intros w n k r K [_ B]. unfold top, bits. apply Forall_rev. cbn [skipn]. apply Forall_forall. intros x Hx. apply (proj1 (Forall_forall _ _) B).
  replace n with (k + (n - k))%nat by lia. rewrite <- (firstn_skipn k r) in B |- *. rewrite firstn_app. apply in_or_app. left. rewrite firstn_all2; [exact Hx|]. rewrite firstn_length. lia.
Qed.
Lemma top_length : forall lo n r, (n <= List.length r)%nat -> List.length (top lo n r) = (n - lo)%nat.
Proof. intros lo n r H. unfold top. rewrite rev_length, skipn_length, firstn_length. lia. Qed.
Ltac frames := repeat match goal with
  | H : imbe7200_frame _ |- _ => destruct H as (? & ? & ? & ? & ? & ? & ? & ? & -> & ? & ? & ? & ? & ? & ? & ? & ?)
  | H : imbe7100_frame _ |- _ => destruct H as (? & ? & ? & ? & ? & ? & ? & -> & ? & ? & ? & ? & ? & ? & ?)
  | H : ambe_frame _ |- _ => destruct H as (? & ? & ? & ? & -> & ? & ? & ? & ?)
  end.
Ltac lens := repeat match goal with H : row _ _ _ |- _ => destruct H as [? _] end.
Lemma frame7200_sized : forall fr, imbe7200_frame fr -> sized 8 23 fr.
Proof. intros fr F. frames. lens. split; [reflexivity|]. repeat constructor; assumption. Qed.
Lemma frame7100_sized : forall fr, imbe7100_frame fr -> sized 7 24 fr.
Proof. intros fr F. frames. lens. split; [reflexivity|]. repeat constructor; assumption. Qed.
Lemma frame3600_sized : forall fr, ambe_frame fr -> sized 4 24 fr.
Proof. intros fr F. frames. lens. split; [reflexivity|]. repeat constructor; assumption. Qed.
Ltac tops := repeat (apply Forall_cons; [first [eapply row_top; eassumption | eapply row_top0; [|eassumption]; lia]|]); apply Forall_nil.
Lemma words7200_bits : forall fr, imbe7200_frame fr -> Forall bits (words7200 fr) /\ map (@List.length Z) (words7200 fr) = [23; 23; 23; 23; 15; 15; 15; 7]%nat.
Proof. intros fr F. frames. cbn [words7200 map nth]. split; [tops|]. lens. rewrite !top_length by lia. reflexivity. Qed.
Lemma words7100_bits : forall fr, imbe7100_frame fr -> Forall bits (words7100 fr) /\ map (@List.length Z) (words7100 fr) = [7; 12; 12; 12; 12; 11; 12; 11; 11; 4; 11; 4; 23]%nat.
Proof. intros fr F. frames. cbn [words7100 map nth]. split; [tops|]. lens. rewrite !top_length by lia. reflexivity. Qed.
Lemma words3600_bits : forall fr, ambe_frame fr -> Forall bits (words3600 fr) /\ map (@List.length Z) (words3600 fr) = [24; 23; 11; 14]%nat.
Proof. intros fr F. frames. cbn [words3600 map nth]. split; [tops|]. lens. rewrite !top_length by lia. reflexivity. Qed.
Lemma labelled_inj : forall g g', List.length g = 4%nat -> Forall bits g -> Forall bits g' -> map (@List.length Z) g = map (@List.length Z) g' -> labelled g = labelled g' -> g = g'.
Proof.
  intros g g' L B B' LL E. destruct g as [|a [|b [|c [|d [|]]]]]; try discriminate L. destruct g' as [|a' [|b' [|c' [|d' [|]]]]]; try discriminate LL.
  repeat match goal with H : Forall bits (_ :: _) |- _ => apply Forall_cons_iff in H as (? & H) end. cbn [map] in LL. injection LL as L1 L2 L3 L4.
  unfold labelled in E. cbn [map combine] in E. rewrite !concat_cons in E. rewrite !app_assoc_s in E.
  assert (K : forall (l : string) (x x' : list Z) (s t : string), bits x -> bits x' -> List.length x = List.length x' ->
    (l ++ digits x ++ " " ++ s = l ++ digits x' ++ " " ++ t)%string -> x = x' /\ s = t).
  { intros l x x' s t Bx Bx' Lx Ex. apply split_s in Ex as [_ Ex]; [|reflexivity]. apply split_s in Ex as [E1 Ex]; [|now rewrite !digits_length].
    apply split_s in Ex as [_ Ex]; [|reflexivity]. split; [now apply digits_inj|exact Ex]. }
  apply K in E as [-> E]; [|assumption..]. apply K in E as [-> E]; [|assumption..]. apply K in E as [-> E]; [|assumption..]. apply K in E as [-> E]; [|assumption..]. reflexivity.
Qed.

(* frames of bits with the same output carry the same words *)
Lemma dump7200_inj : forall fr fr' s, imbe7200_frame fr -> imbe7200_frame fr' -> prints (mbe_dumpImbe7200x4400Frame fr) s -> prints (mbe_dumpImbe7200x4400Frame fr') s ->
  words7200 fr = words7200 fr'.
Proof.
  intros fr fr' s F F' P P'. pose proof (prints_one _ _ _ P (dump7200_frame _ (frame7200_sized _ F))) as E. pose proof (prints_one _ _ _ P' (dump7200_frame _ (frame7200_sized _ F'))) as E'.
  destruct (words7200_bits _ F) as [B L], (words7200_bits _ F') as [B' L']. apply spaced_inj; congruence.
Qed.
Lemma dump7100_inj : forall fr fr' s, imbe7100_frame fr -> imbe7100_frame fr' -> prints (mbe_dumpImbe7100x4400Frame fr) s -> prints (mbe_dumpImbe7100x4400Frame fr') s ->
  words7100 fr = words7100 fr'.
Proof.
  intros fr fr' s F F' P P'. pose proof (prints_one _ _ _ P (dump7100_frame _ (frame7100_sized _ F))) as E. pose proof (prints_one _ _ _ P' (dump7100_frame _ (frame7100_sized _ F'))) as E'.
  destruct (words7100_bits _ F) as [B L], (words7100_bits _ F') as [B' L']. apply spaced_inj; congruence.
Qed.
Lemma dump3600_inj : forall fr fr' s, ambe_frame fr -> ambe_frame fr' -> prints (mbe_dumpAmbe3600x2450Frame fr) s -> prints (mbe_dumpAmbe3600x2450Frame fr') s ->
  words3600 fr = words3600 fr'.
Proof.
  intros fr fr' s F F' P P'. pose proof (prints_one _ _ _ P (proj1 (dump3600_frame _ (frame3600_sized _ F)))) as E. pose proof (prints_one _ _ _ P' (proj1 (dump3600_frame _ (frame3600_sized _ F')))) as E'.
  destruct (words3600_bits _ F) as [B L], (words3600_bits _ F') as [B' L']. apply labelled_inj; try congruence. destruct F as (? & ? & ? & ? & -> & _). reflexivity.
Qed.
Lemma groups7200_all : forall d, List.length d = 88%nat -> List.concat (groups7200 d) = d.
Proof. intros d L. rows. reflexivity. Qed.
Lemma groups7100_all : forall d, List.length d = 88%nat -> List.concat (groups7100 d) = d.
Proof. intros d L. rows. reflexivity. Qed.
Lemma slice_bits : forall a n d, bits d -> bits (slice a n d).
Proof.
  intros a n d B. unfold slice, bits in *. rewrite Forall_forall in *. intros x Hx. apply B. rewrite <- (firstn_skipn a d). apply in_or_app. right.
  rewrite <- (firstn_skipn n (skipn a d)). apply in_or_app. now left.
Qed.
Lemma data_inj : forall (groups : list Z -> list (list Z)) lens, (forall d, List.length d = 88%nat -> List.concat (groups d) = d) ->
  (forall d, bits d -> Forall bits (groups d)) -> (forall d, List.length d = 88%nat -> map (@List.length Z) (groups d) = lens) ->
  forall d d', is_bits 88 d -> is_bits 88 d' -> spaced (groups d) = spaced (groups d') -> d = d'.
Proof.
  intros groups ls A B C d d' [L D] [L' D'] E. rewrite <- (A d L), <- (A d' L'). f_equal. apply spaced_inj; auto. now rewrite !C.
Qed.
Lemma dump7200_data_inj : forall d d' s, is_bits 88 d -> is_bits 88 d' -> prints (mbe_dumpImbe7200x4400Data d) s -> prints (mbe_dumpImbe7200x4400Data d') s -> d = d'.
Proof.
  intros d d' s D D' P P'. eapply (data_inj groups7200 [12; 12; 12; 12; 11; 11; 11; 7]%nat groups7200_all); try eassumption.
  - intros e B. repeat (apply Forall_cons; [now apply slice_bits|]). apply Forall_nil.
  - intros e L. rows. reflexivity.
  - rewrite <- (prints_one _ _ _ P (dump7200_data d (proj1 D))). exact (prints_one _ _ _ P' (dump7200_data d' (proj1 D'))).
Qed.
Lemma dump7100_data_inj : forall d d' s, is_bits 88 d -> is_bits 88 d' -> prints (mbe_dumpImbe7100x4400Data d) s -> prints (mbe_dumpImbe7100x4400Data d') s -> d = d'.
Proof.
  intros d d' s D D' P P'. eapply (data_inj groups7100 [7; 12; 12; 12; 11; 11; 23]%nat groups7100_all); try eassumption.
  - intros e B. repeat (apply Forall_cons; [now apply slice_bits|]). apply Forall_nil.
  - intros e L. rows. reflexivity.
  - rewrite <- (prints_one _ _ _ P (dump7100_data d (proj1 D))). exact (prints_one _ _ _ P' (dump7100_data d' (proj1 D'))).
Qed.
Lemma dump4400_data_inj : forall d d' s, is_bits 88 d -> is_bits 88 d' -> prints (mbe_dumpImbe4400Data d) s -> prints (mbe_dumpImbe4400Data d') s -> d = d'.
Proof.
  intros d d' s [L D] [L' D'] P P'. apply digits_inj; [exact D|exact D'|congruence|].
  rewrite <- (prints_one _ _ _ P (dump4400_data d L)). exact (prints_one _ _ _ P' (dump4400_data d' L')).
Qed.
Lemma dump3600_data_inj : forall d d' s, is_bits 49 d -> is_bits 49 d' -> prints (mbe_dumpAmbe2450Data d) s -> prints (mbe_dumpAmbe2450Data d') s -> d = d'.
Proof.
  intros d d' s [L D] [L' D'] P P'.
  pose proof (prints_one _ _ _ P (proj1 (dump3600_data d L))) as E. pose proof (prints_one _ _ _ P' (proj1 (dump3600_data d' L'))) as E'. rewrite E in E'.
  apply split_s in E' as [E' _]; [|rewrite !digits_length by assumption; congruence]. apply digits_inj; [exact D|exact D'|congruence|exact E'].
Qed.
Lemma data_bits : forall f d d' s, In f [mbe_dumpImbe4400Data; mbe_dumpImbe7200x4400Data; mbe_dumpImbe7100x4400Data] -> is_bits 88 d -> is_bits 88 d' ->
  prints (f d) s -> prints (f d') s -> d = d'.
Proof. intros f d d' s [<- | [<- | [<- | []]]]; [apply dump4400_data_inj|apply dump7200_data_inj|apply dump7100_data_inj]. Qed.
