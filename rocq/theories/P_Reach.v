(** How far one exchange sweep carries the walkers. *)
From Coq Require Import Permutation.
From Verif Require Import Prelude Num P_Core Spec_Train M_Core M_Kernels M_Strategies M_PT P_Lists Spec_Kernels Spec_Steps Spec_PT P_PT P_PT4 Spec_Reach.

Section Reach.
Context {N : Num} {G : Rng} {NF : NFOps}.
Lemma exch_nth {A} (dd : A) i l l' : exchanged i l l' ->
  length l' = length l /\ i + 1 < length l /\ nth i l' dd = nth (i + 1) l dd /\ nth (i + 1) l' dd = nth i l dd /\ forall j, j <> i -> j <> i + 1 -> nth j l' dd = nth j l dd.
Proof.
  intros (L & Hi & A1 & A2 & A3).
  assert (Q : forall a b, nth_error l' a = nth_error l b -> nth a l' dd = nth b l dd).
  { intros a b E. destruct (le_lt_dec (length l') a) as [C|C].
    - rewrite (proj2 (nth_error_None l' a) C) in E. symmetry in E. apply nth_error_None in E. now rewrite !nth_overflow by lia.
    - rewrite (nth_error_nth' l' dd C) in E. symmetry in E. apply nth_error_nth with (d := dd) in E. now symmetry. }
  repeat split; auto.
Qed.
Lemma sweep_lengths temps lp k (xs ys : list vec) accs ens : sweep_of temps lp k xs ys accs ens -> forall s, s <= length accs -> length (nth s ens []) = length xs.
Proof.
  intros (_ & _ & E0 & _ & H). induction s as [|s IH]; intros Hs; [now rewrite E0|].
  destruct (H s ltac:(lia)) as [_ E]. rewrite Nat.add_1_r in E. destruct (nth s accs false); [destruct E as [-> _]|rewrite E]; apply IH; lia.
Qed.

(** Down by at most one level. *)
Lemma sweep_down temps lp k (xs ys : list vec) accs ens : sweep_of temps lp k xs ys accs ens -> forall i, i < length xs ->
  exists j, j <= i + 1 /\ j < length xs /\ nth i ys [] = nth j xs [].
Proof.
  intros HS. pose proof (sweep_lengths _ _ _ _ _ _ _ HS) as HL. destruct HS as (La & _ & E0 & E1 & H).
  assert (Q : forall s, s <= length accs ->
    (forall q, q < s -> q < length xs -> exists j, j <= q + 1 /\ j < length xs /\ nth q (nth s ens []) [] = nth j xs []) /\
    (s < length xs -> exists j, j <= s /\ nth s (nth s ens []) [] = nth j xs []) /\
    (forall q, s < q -> nth q (nth s ens []) [] = nth q xs [])).
  { induction s as [|s IH]; intros Hs.
    - rewrite E0. split; [intros; lia|]. split; [exists 0; split; auto|auto].
    - destruct (IH ltac:(lia)) as (I1 & I2 & I3). destruct (H s ltac:(lia)) as [_ E]. rewrite Nat.add_1_r in E. destruct (nth s accs false).
      + apply (exch_nth []) in E as (L & Hi & A1 & A2 & A3). rewrite Nat.add_1_r in * . rewrite (HL s ltac:(lia)) in Hi. split; [|split].
        * intros q Hq Hq'. destruct (Nat.eq_dec q s) as [->|Nq].
          -- exists (S s). split; [lia|]. split; [exact Hi|]. rewrite A1. apply I3. lia.
          -- rewrite A3 by lia. apply I1; lia.
        * intros _. rewrite A2. destruct (I2 ltac:(lia)) as (j & J1 & J2). exists j. split; [lia|exact J2].
        * intros q Hq. rewrite A3 by lia. apply I3. lia.
      + rewrite E. split; [|split].
        * intros q Hq Hq'. destruct (Nat.eq_dec q s) as [->|Nq]; [|apply I1; lia]. destruct (I2 Hq') as (j & J1 & J2). exists j. split; [lia|]. split; [lia|exact J2].
        * intros Hl. exists (S s). split; [lia|]. apply I3. lia.
        * intros q Hq. apply I3. lia. }
  intros i Hi. destruct (Q (length accs) (le_n _)) as (I1 & I2 & _). rewrite E1 in I1, I2. rewrite La in * .
  destruct (lt_dec i (length xs - 1)) as [Hl|Hl]; [apply I1; assumption|].
  replace (length xs - 1) with i in I2 by lia. destruct (I2 Hi) as (j & J1 & J2). exists j. split; [lia|]. split; [lia|exact J2].
Qed.

(** Up by any number of levels. *)
Lemma skipn_nth {A} (dd : A) : forall i (l : list A), i < length l -> skipn i l = nth i l dd :: skipn (S i) l.
Proof. induction i as [|i IH]; intros [|a l] H; cbn in H; try lia; [reflexivity|]. cbn [skipn nth]. apply IH. lia. Qed.
Lemma sweep_up temps lp k (xs ys : list vec) accs ens : sweep_of temps lp k xs ys accs ens -> (forall s, s < length accs -> nth s accs false = true) -> xs <> [] ->
  ys = tl xs ++ [hd [] xs].
Proof.
  intros HS HA Hne. pose proof (sweep_lengths _ _ _ _ _ _ _ HS) as HL. destruct HS as (La & _ & E0 & E1 & H).
  assert (Hp : 0 < length xs) by (destruct xs; [congruence|cbn; lia]).
  assert (Q : forall s, s <= length accs -> (forall q, q < s -> nth q (nth s ens []) [] = nth (S q) xs []) /\ nth s (nth s ens []) [] = nth 0 xs [] /\ (forall q, s < q -> nth q (nth s ens []) [] = nth q xs [])).
  { induction s as [|s IH]; intros Hs.
    - rewrite E0. split; [intros; lia|]. split; auto.
    - destruct (IH ltac:(lia)) as (I1 & I2 & I3). destruct (H s ltac:(lia)) as [_ E]. rewrite Nat.add_1_r in E. rewrite (HA s ltac:(lia)) in E.
      apply (exch_nth []) in E as (L & Hi & A1 & A2 & A3). rewrite Nat.add_1_r in * . split; [|split].
      + intros q Hq. destruct (Nat.eq_dec q s) as [->|Nq]; [rewrite A1; apply I3; lia|]. rewrite A3 by lia. apply I1. lia.
      + rewrite A2. exact I2.
      + intros q Hq. rewrite A3 by lia. apply I3. lia. }
  destruct (Q (length accs) (le_n _)) as (I1 & I2 & _). rewrite E1 in I1, I2. pose proof (HL (length accs) (le_n _)) as LY. rewrite E1 in LY. rewrite La in * .
  destruct xs as [|x xs]; [congruence|]. cbn [tl hd length] in * . replace (S (length xs) - 1) with (length xs) in * by lia.
  apply (list_eq_nth []); [rewrite app_length; cbn; lia|]. intros i Hi. rewrite LY in Hi. destruct (Nat.eq_dec i (length xs)) as [->|Ni].
  - rewrite I2, app_nth2, Nat.sub_diag by lia. reflexivity.
  - rewrite I1, app_nth1 by lia. reflexivity.
Qed.

(** What the cold end depends on. *)
Lemma sweep_agree J temps temps' lp k (xs xs' ys ys' : list vec) accs accs' ens ens' : sweep_of temps lp k xs ys accs ens -> sweep_of temps' lp k xs' ys' accs' ens' ->
  length xs = length xs' -> (forall j, j <= J + 1 -> nth j temps f0 = nth j temps' f0) -> (forall j, j <= J + 1 -> nth j xs [] = nth j xs' []) ->
  (forall j, j <= J -> nth j accs false = nth j accs' false) /\ (forall j, j <= J -> nth j ys [] = nth j ys' []).
Proof.
  intros HS HS' HL HT HX. destruct HS as (La & _ & E0 & E1 & H), HS' as (La' & _ & E0' & E1' & H').
  assert (LL : length accs' = length accs) by lia.
  assert (Q : forall s, s <= length accs -> (forall j, j <= J -> nth j (nth s ens []) [] = nth j (nth s ens' []) []) /\
    (s <= J + 1 -> nth (J + 1) (nth s ens []) [] = nth (J + 1) (nth s ens' []) []) /\ forall r, r < s -> r <= J -> nth r accs false = nth r accs' false).
  { induction s as [|s IH]; intros Hs.
    - rewrite E0, E0'. split; [intros; apply HX; lia|]. split; [intros; apply HX; lia|intros; lia].
    - destruct (IH ltac:(lia)) as (I1 & I2 & I3). destruct (H s ltac:(lia)) as [D E]. destruct (H' s ltac:(lia)) as [D' E']. rewrite Nat.add_1_r in E, E'.
      destruct (le_lt_dec s J) as [C|C].
      + assert (I2' := I2 ltac:(lia)).
        assert (Ag : forall j, j <= J + 1 -> nth j (nth s ens []) [] = nth j (nth s ens' []) []).
        { intros j Hj. destruct (Nat.eq_dec j (J + 1)) as [->|]; [exact I2'|apply I1; lia]. }
        assert (DD : nth s accs false = nth s accs' false).
        { rewrite D, D'. unfold swap_log_ratio. rewrite !HT by lia. rewrite !Ag by lia. reflexivity. }
        rewrite <- DD in E'. assert (Ag' : forall j, j <= J + 1 -> nth j (nth (S s) ens []) [] = nth j (nth (S s) ens' []) []).
        { destruct (nth s accs false).
          - apply (exch_nth []) in E as (L & Hi & A1 & A2 & A3). apply (exch_nth []) in E' as (L' & Hi' & A1' & A2' & A3').
            intros j Hj. destruct (Nat.eq_dec j s) as [->|N1]; [rewrite A1, A1'; apply Ag; lia|].
            destruct (Nat.eq_dec j (s + 1)) as [->|N2]; [rewrite A2, A2'; apply Ag; lia|]. rewrite A3, A3' by assumption. apply Ag. lia.
          - rewrite E, E'. exact Ag. }
        split; [intros; apply Ag'; lia|]. split; [intros; apply Ag'; lia|].
        intros r Hr Hr'. destruct (Nat.eq_dec r s) as [->|]; [exact DD|]. apply I3; lia.
      + assert (Kp : forall (e e' : list vec) b j, j <= J -> (if b : bool then exchanged s e e' else e' = e) -> nth j e' [] = nth j e []).
        { intros e e' [|] j Hj X; [|now rewrite X]. apply (exch_nth []) in X as (_ & _ & _ & _ & A3). apply A3; lia. }
        split; [|split].
        * intros j Hj. rewrite (Kp _ _ _ j Hj E), (Kp _ _ _ j Hj E'). apply I1. exact Hj.
        * intros; lia.
        * intros r Hr Hr'. apply I3; lia. }
  destruct (Q (length accs) (le_n _)) as (I1 & _ & I3). split.
  - intros j Hj. destruct (lt_dec j (length accs)) as [Hl|Hl]; [apply I3; assumption|]. now rewrite !nth_overflow by lia.
  - rewrite <- E1, <- E1', LL. exact I1.
Qed.

Lemma moved_fun n kern t d temp k x y y' : moved n kern t d temp k x y -> moved n kern t d temp k x y' -> y = y'.
Proof. intros (tr & E & ->) (tr' & E' & ->). rewrite E in E'. injection E' as <-. reflexivity. Qed.

(** A production call: only the cold walker, the first stored one and the two lowest temperatures matter for what is returned. *)
Lemma production_cold pt k xs d w1 w2 kern t pl1 pb1 tl1 tb1 tr1 pl2 pb2 tl2 tb2 tr2 k1 ys1 w1' k2 ys2 w2' :
  pt_setup w1 pt kern t pl1 pb1 tl1 tb1 tr1 -> pt_setup w2 pt kern t pl2 pb2 tl2 tb2 tr2 ->
  keeps_dim kern t d (length (nth 0 xs [])) -> (forall x, In x xs -> length x = length (nth 0 xs [])) ->
  nth 1 (ashape (b_data pb1)) 0 = nth 1 (ashape (b_data pb2)) 0 ->
  (forall j, j < 2 -> nth j (temps_of tb1) f0 = nth j (temps_of tb2) f0) ->
  (forall c, c < length xs -> nth 1 (ensemble_before pb1 xs c) [] = nth 1 (ensemble_before pb2 xs c) []) ->
  parallel_tempering pt k xs d w1 = (Ok (k1, ys1), w1') -> parallel_tempering pt k xs d w2 = (Ok (k2, ys2), w2') -> k1 = k2 /\ ys1 = ys2.
Proof.
  intros S1 S2 KD HX SH HT HW R1 R2.
  destruct (C41_proof _ _ _ _ _ _ _ _ _ _ _ _ _ _ _ S1 KD HX R1) as (af1 & ac1 & _ & _ & L1 & -> & C1 & _).
  destruct (C41_proof _ _ _ _ _ _ _ _ _ _ _ _ _ _ _ S2 KD HX R2) as (af2 & ac2 & _ & _ & L2 & -> & C2 & _).
  split; [reflexivity|]. apply (list_eq_nth []); [congruence|]. intros c Hc. rewrite L1 in Hc.
  destruct (C1 c Hc) as (Q1 & Q2 & st1 & en1 & Q3 & M1 & W1 & ->). destruct (C2 c Hc) as (P1 & P2 & st2 & en2 & P3 & M2 & W2 & ->).
  assert (LT : length (temps_of tb2) = length (temps_of tb1)).
  { rewrite <- Q1, <- P1. unfold ensemble_before. cbn [length]. rewrite !map_length, !seq_length. now rewrite SH. }
  apply (sweep_agree 0 _ _ _ _ _ _ _ _ _ _ _ _ W1 W2); [congruence| | |lia].
  - intros j Hj. apply HT. lia.
  - intros j Hj. destruct (lt_dec j (length (temps_of tb1))) as [Hl|Hl]; [|now rewrite !nth_overflow by lia].
    pose proof (M1 j Hl) as A1. pose proof (M2 j ltac:(lia)) as A2. rewrite LT in A2. rewrite <- HT in A2 by lia.
    assert (EB : nth j (ensemble_before pb1 xs c) [] = nth j (ensemble_before pb2 xs c) []).
    { destruct j as [|[|j]]; [reflexivity|apply HW; exact Hc|lia]. }
    rewrite <- EB in A2. exact (moved_fun _ _ _ _ _ _ _ _ _ A1 A2).
Qed.

(** Later walkers of an ensemble do not depend on the current position. *)
Lemma second_stored pb xs xs' c : second_walker pb xs c = second_walker pb xs' c.
Proof. reflexivity. Qed.

Lemma call_dim pt k xs d w kern t pl pb tl tb tr k' ys w' D : pt_setup w pt kern t pl pb tl tb tr -> keeps_dim kern t d D -> (forall x, In x xs -> length x = D) ->
  parallel_tempering pt k xs d w = (Ok (k', ys), w') -> length ys = length xs /\ (forall y, In y ys -> length y = D) /\ (tr = false -> w' = w).
Proof.
  intros Hs KD HX R. destruct xs as [|x0 xs].
  - destruct (pt_inv _ _ _ _ _ _ _ _ _ _ _ _ _ _ _ Hs R) as (K & D' & st & ex & _ & _ & _ & _ & E & -> & W).
    cbn [length] in E. subst ex. cbn [length split_keys seq map combine] in * . split; [reflexivity|]. split; [intros y []|]. intros ->. exact W.
  - assert (E0 : length (nth 0 (x0 :: xs) []) = D) by (apply HX; left; reflexivity).
    assert (HX' : forall x, In x (x0 :: xs) -> length x = length (nth 0 (x0 :: xs) [])) by (intros; rewrite E0; auto).
    rewrite <- E0 in KD. destruct (C41_proof _ _ _ _ _ _ _ _ _ _ _ _ _ _ _ Hs KD HX' R) as (af & ac & _ & _ & L & _ & C & W).
    destruct (pt_inv _ _ _ _ _ _ _ _ _ _ _ _ _ _ _ Hs R) as (K & D' & _ & _ & Sh & SD & _).
    split; [exact L|]. split; [|intros ->; exact W]. intros y Hy. apply In_nth with (d := []) in Hy as (c & Hc & <-). rewrite L in Hc.
    destruct (C c Hc) as (Q1 & Q2 & st & en & Q3 & M & SW & ->).
    assert (Lt : 0 < length (temps_of tb)) by (rewrite <- Q1; unfold ensemble_before; cbn [length]; lia).
    destruct (sweep_down _ _ _ _ _ _ _ SW 0 ltac:(lia)) as (j & _ & Hj & ->). rewrite Q3 in Hj. rewrite <- E0.
    refine (moved_dim _ _ _ _ _ _ _ _ _ KD _ (M j Hj)).
    destruct j as [|j]; [exact (HX' _ (nth_In _ [] Hc))|].
    unfold ensemble_before in Q1 |- * . cbn [nth length] in Q1 |- * . rewrite map_length, seq_length in Q1.
    rewrite nth_map_seq by lia. unfold brow. rewrite map_length, seq_length, Sh. cbn [nth]. exact SD.
Qed.

Lemma production_calls pt d w1 w2 kern t pl1 pb1 tl1 tb1 pl2 pb2 tl2 tb2 D :
  pt_setup w1 pt kern t pl1 pb1 tl1 tb1 false -> pt_setup w2 pt kern t pl2 pb2 tl2 tb2 false -> keeps_dim kern t d D ->
  nth 1 (ashape (b_data pb1)) 0 = nth 1 (ashape (b_data pb2)) 0 -> (forall j, j < 2 -> nth j (temps_of tb1) f0 = nth j (temps_of tb2) f0) ->
  forall ks xs, (forall x, In x xs -> length x = D) -> (forall c, c < length xs -> second_walker pb1 xs c = second_walker pb2 xs c) ->
  forall ys1 ys2, pt_calls pt d ks xs w1 = Ok ys1 -> pt_calls pt d ks xs w2 = Ok ys2 -> ys1 = ys2.
Proof.
  intros S1 S2 KD SH HT. induction ks as [|k ks IH]; intros xs HX HW ys1 ys2 R1 R2; cbn [pt_calls] in R1, R2; [congruence|].
  destruct (parallel_tempering pt k xs d w1) as [[[k1 z1]|e1] v1] eqn:E1; [|discriminate].
  destruct (parallel_tempering pt k xs d w2) as [[[k2 z2]|e2] v2] eqn:E2; [|discriminate].
  destruct (call_dim _ _ _ _ _ _ _ _ _ _ _ _ _ _ _ D S1 KD HX E1) as (L1 & D1 & W1). rewrite (W1 eq_refl) in R1.
  destruct (call_dim _ _ _ _ _ _ _ _ _ _ _ _ _ _ _ D S2 KD HX E2) as (L2 & D2 & W2). rewrite (W2 eq_refl) in R2.
  assert (E : z1 = z2).
  { destruct xs as [|x0 xs].
    - destruct z1; [|discriminate]. destruct z2; [reflexivity|discriminate].
    - assert (E0 : length (nth 0 (x0 :: xs) []) = D) by (apply HX; left; reflexivity).
      rewrite <- E0 in KD. refine (proj2 (production_cold _ _ _ _ _ _ _ _ _ _ _ _ _ _ _ _ _ _ _ _ _ _ _ _ S1 S2 KD _ SH HT HW E1 E2)).
      intros; rewrite E0; auto. }
  subst z2. apply (IH z1); auto. intros c Hc. rewrite L1 in Hc. rewrite (second_stored pb1 z1 xs c), (second_stored pb2 z1 xs c). apply HW. exact Hc.
Qed.
End Reach.
