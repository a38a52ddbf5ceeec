(** Knots of the spline in single precision: cumulative sums and separation. *)
From Coq Require Import ZArith Reals Lra Lia Psatz Sorted.
From Flocq Require Import Core BinarySingleNaN.
From Verif Require Import Prelude Num M_Flow Float32 Float32t Spec_FSpline P_Lists P_FSpline1 P_FSpline2.
Open Scope R_scope.

Definition gapped (g : R) := Sorted (fun x y : B32 => V x + g <= V y).
Lemma gapped_nth g l : gapped g l -> forall i d, (S i < length l)%nat -> V (nth i l d) + g <= V (nth (S i) l d).
Proof.
  induction 1 as [|x l S IH H]; intros i d Hi; [cbn in Hi; lia|].
  destruct l as [|y l]; [cbn in Hi; lia|]. inversion H; subst. destruct i; [cbn; auto|]. apply (IH i d). cbn in * . lia.
Qed.
Section BN.
Variables (pi : B32) (fe fl ft : B32 -> B32).
Hypothesis LIB : lib_ok fe fl.
Let BN := B32Num pi fe fl ft.
Lemma cs_ok m : forall l a, fin a -> 0 <= V a -> (forall x, In x l -> fin x /\ V m <= V x) -> 0 <= V m ->
  V a + tot l + 16 * u * INR (length l) <= 32 ->
  (forall c, In c (@cumsum_from BN a l) -> fin c /\ V m - 16 * u <= V c <= V a + tot l + 16 * u * INR (length l)) /\
  gapped (V m - 16 * u) (a :: @cumsum_from BN a l).
Proof.
  pose proof u_val as U. induction l as [|x l IH]; intros a Fa Ha H Hm HB.
  - cbn. split; [easy|]. constructor; constructor.
  - cbn [cumsum_from]. change (@fadd BN a x) with (Bplus mode_NE a x).
    destruct (H x (or_introl eq_refl)) as [Fx Hx]. change (tot (x :: l)) with (V x + tot l) in * . cbn [length] in * . rewrite S_INR in * .
    assert (T0 : 0 <= tot l). { pose proof (tot_ge l 0 (fun y Hy => Rle_trans _ _ _ Hm (proj2 (H y (or_intror Hy))))). lra. }
    assert (N0 : 0 <= u * INR (length l)). { pose proof (pos_INR (length l)). rewrite U. lra. }
    assert (BA : 0 <= V a + V x <= 32). { rewrite U in * . lra. }
    destruct (plus_err a x 5 ltac:(lia) Fa Fx) as [F1 E1]. { rewrite Rabs_pos_eq by lra. cbn. lra. }
    apply Rabs_le_inv in E1. change (bpow radix2 (5 - 25)) with (/ 1048576) in E1. 
    set (s := Bplus mode_NE a x) in * .
    assert (P0 : 0 <= V s). { destruct (plus_in a x 0 32 Fa Fx (fbZ 0 ltac:(lia)) (fbZ 32 ltac:(lia)) BA) as [_ B]. exact (proj1 B). }
    destruct (IH s F1 P0 (fun y Hy => H y (or_intror Hy)) Hm) as [A1 A2]. { rewrite U in * . lra. }
    assert (G1 : V a + (V m - 16 * u) <= V s) by (rewrite U in * ; lra).
    split.
    + intros c [<-|Hc].
      * split; [exact F1|]. rewrite U in * . lra.
      * destruct (A1 c Hc) as [Fc Bc]. split; [exact Fc|]. rewrite U in * . lra.
    + constructor; [exact A2|]. constructor. exact G1.
Qed.
(** Sum of the sizes of some bins. *)
Lemma sizes_tot S T m es : fin S -> 1 <= V S -> fin T -> 0 <= V T <= 21 -> fin m -> 0 <= V m <= 10 ->
  (forall e, In e es -> fin e /\ 0 <= V e <= 1 /\ V e <= V S) ->
  tot (map (size_of S T m) es) <= (tot es / V S) * V T + 72 * u * (tot es / V S) + INR (length es) * (V m + u * V m + u / 1000).
Proof.
  intros FS HS FT HT Fm Hm. induction es as [|e es IH]; intros H.
  - cbn. unfold Rdiv. rewrite !Rmult_0_l, Rmult_0_r. lra.
  - change (tot (map (size_of S T m) (e :: es))) with (V (size_of S T m e) + tot (map (size_of S T m) es)). change (tot (e :: es)) with (V e + tot es).
    destruct (H e (or_introl eq_refl)) as (Fe & He & HeS). destruct (size_ok S T m e FS HS FT HT Fm Hm Fe He HeS) as (_ & _ & B).
    specialize (IH (fun y Hy => H y (or_intror Hy))). cbn [length]. rewrite S_INR. unfold Rdiv in * . lra.
Qed.
Lemma tot_removelast l : (forall x, In x l -> 0 <= V x) -> 0 <= tot (removelast l) <= tot l.
Proof.
  intros H. split.
  - pose proof (tot_ge (removelast l) 0) as A. lapply A; [lra|]. intros x Hx. apply H. clear -Hx. induction l as [|a [|b l] IH]; cbn in * ; auto. destruct Hx; auto.
  - destruct l as [|a l]; [cbn; lra|]. assert (N : a :: l <> []) by congruence. destruct (exists_last N) as (r & z & E). rewrite E, removelast_last, tot_app. cbn.
    assert (0 <= V z); [|lra]. apply H. rewrite E. apply in_or_app. right. now left.
Qed.
Lemma len_removelast {A} (l : list A) : length (removelast l) = (length l - 1)%nat.
Proof. induction l as [|a [|b l] IH]; cbn in * ; auto. rewrite IH. lia. Qed.
Lemma in_removelast {A} (x : A) l : In x (removelast l) -> In x l.
Proof. induction l as [|a [|b l] IH]; cbn in * ; auto. intros [H|H]; auto. Qed.
Lemma knots_gapped q w : w <> [] -> range_ok (@rq_min BN q) (@rq_max BN q) (@rq_min_bin BN q) (length w) -> (forall x, In x w -> fin x) ->
  (forall x, In x (@knot_positions BN q w) -> fin x) /\ gapped (/ 65536) (@knot_positions BN q w).
Proof.
  intros Hw RO Fw. set (lo := @rq_min BN q) in * . set (hi := @rq_max BN q) in * . set (m := @rq_min_bin BN q) in * . set (K := length w) in * .
  destruct (room_ok lo hi m K RO) as (FT & BT & UT). pose proof u_val as U.
  destruct RO as (Fl & Fh & Fm & HK & Hl & Hh & Hm & HT). change val with V in * .
  destruct (exps_ok fe fl LIB w Hw Fw) as [E1 E2].
  assert (Le : length (exps fe w) = K) by apply map_length.
  destruct (bsum_ok (exps fe w)) as (FS & BS & TS & MS); [lia|exact E1|]. specialize (MS E2). rewrite Le in * .
  set (S := bsum (exps fe w)) in * . set (T := room_of lo hi m K) in * .
  assert (K1 : 1 <= INR K <= 16). { split; [replace 1 with (INR 1) by reflexivity|replace 16 with (INR 16) by (cbn; lra)]; apply le_INR; lia. }
  assert (M0 : 0 <= V m <= 10) by (split; [lra|nra]).
  assert (RL : removelast (map (size_of S T m) (exps fe w)) = map (size_of S T m) (removelast (exps fe w))).
  { generalize (exps fe w). intros l. induction l as [|a [|b l] IH]; cbn in * ; auto. now rewrite IH. }
  assert (KE : @knot_positions BN q w = lo :: map (Bplus mode_NE lo) (@cumsum BN (map (size_of S T m) (removelast (exps fe w)))) ++ [hi]).
  { exact (f_equal (fun z : list B32 => lo :: map (Bplus mode_NE lo) (@cumsum BN z) ++ [hi])
      (eq_trans (f_equal (@removelast B32) (map_map (fun x => Bdiv mode_NE x S) (fun s => Bplus mode_NE (Bmult mode_NE s T) m) (exps fe w))) RL)). }
  rewrite KE. clear KE. set (es := removelast (exps fe w)) in * .
  assert (T1 : 0 <= tot es <= tot (exps fe w)) by (apply tot_removelast; intros; apply E1; auto).
  assert (KU : INR K * u <= 16 * u) by (rewrite U; lra).
  assert (T2 : tot (exps fe w) * (1 - 16 * u) <= V S). { assert (tot (exps fe w) * (INR K * u) <= tot (exps fe w) * (16 * u)) by (apply Rmult_le_compat_l; lra). lra. }
  assert (SI : 0 < / V S <= 1). { split; [apply Rinv_0_lt_compat; lra|]. rewrite <- Rinv_1. apply Rinv_le_contravar; lra. }
  assert (SV : V S * / V S = 1) by (field; lra).
  assert (QQ : 0 <= tot es / V S <= 1 + 17 * u).
  { split; [apply Rmult_le_pos; lra|]. apply Rmult_le_reg_r with (V S); [lra|]. unfold Rdiv. rewrite Rmult_assoc, (Rmult_comm (/ V S)), SV, Rmult_1_r.
    assert (tot es * (1 - 16 * u) <= V S). { eapply Rle_trans; [|exact T2]. apply Rmult_le_compat_r; [rewrite U; lra|lra]. }
    assert (tot es <= V S * (1 + 17 * u)); [|lra].
    assert (tot es * (1 - 16 * u) * (1 + 17 * u) <= V S * (1 + 17 * u)) by (apply Rmult_le_compat_r; [rewrite U; lra|auto]).
    assert (tot es * 1 <= tot es * ((1 - 16 * u) * (1 + 17 * u))) by (apply Rmult_le_compat_l; [lra|rewrite U; lra]). lra. }
  assert (Ees : forall e, In e es -> fin e /\ 0 <= V e <= 1 /\ V e <= V S).
  { intros e He. destruct (E1 e (in_removelast _ _ He)) as [A B]. split; [auto|]. split; [auto|]. lra. }
  pose proof (sizes_tot S T m es FS MS FT BT Fm M0 Ees) as ST.
  assert (Ln : INR (length es) = INR K - 1). { unfold es. rewrite len_removelast, Le. rewrite minus_INR by lia. reflexivity. }
  rewrite Ln in ST. set (Q := tot es / V S) in * . clearbody Q.
  assert (A1 : Q * V T <= V T + 357 * u). { assert (Q * V T <= (1 + 17 * u) * V T) by (apply Rmult_le_compat_r; lra). assert (17 * u * V T <= 17 * u * 21) by (apply Rmult_le_compat_l; [rewrite U|]; lra). lra. }
  assert (A2 : 72 * u * Q <= 73 * u). { assert (72 * u * Q <= 72 * u * (1 + 17 * u)) by (apply Rmult_le_compat_l; [rewrite U|]; lra). rewrite U in * . lra. }
  assert (KM : INR K * V m <= 10) by nra.
  assert (A3 : (INR K - 1) * (V m + u * V m + u / 1000) <= INR K * V m - V m + 10 * u + u).
  { assert (u * (INR K * V m) <= u * 10) by (apply Rmult_le_compat_l; [rewrite U|]; lra). assert (0 <= u * V m) by (rewrite U; lra).
    assert ((INR K - 1) * (u / 1000) <= 15 * (u / 1000)) by (apply Rmult_le_compat_r; [rewrite U|]; lra). rewrite U in * . lra. }
  assert (TT : tot (map (size_of S T m) es) <= V hi - V lo - V m + 489 * u) by lra.
  assert (Fs : forall x, In x (map (size_of S T m) es) -> fin x /\ V m <= V x).
  { intros x Hx. apply in_map_iff in Hx as (e & <- & He). destruct (Ees e He) as (Fe & Be & Le'). destruct (size_ok S T m e FS MS FT BT Fm M0 Fe Be Le') as (A & B & _). auto. }
  assert (LN : length (map (size_of S T m) es) = length es) by apply map_length.
  remember (map (size_of S T m) es) as sz eqn:Esz. clear Esz RL ST E1 E2.
  destruct sz as [|s0 sz].
  { cbn. split.
    - intros x [<-|[<-|[]]]; auto.
    - constructor; [constructor; constructor|]. constructor. nra. }
  cbn [cumsum map].
  destruct (Fs s0 (or_introl eq_refl)) as [F0 G0]. change (tot (s0 :: sz)) with (V s0 + tot sz) in TT.
  assert (NS : 0 <= INR (length sz) <= 14). { split; [apply pos_INR|]. assert (INR (length (s0 :: sz)) = INR K - 1) by (rewrite LN; exact Ln). cbn [length] in H. rewrite S_INR in H. lra. }
  assert (NU : 16 * u * INR (length sz) <= 224 * u) by (rewrite U; lra).
  destruct (cs_ok m sz s0 F0 ltac:(lra) (fun y Hy => Fs y (or_intror Hy)) ltac:(lra)) as [C1 C2]. { rewrite U in * . lra. }
  (* every cumulative value *)
  set (C := s0 :: @cumsum_from BN s0 sz) in * .
  assert (T0 : 0 <= tot sz). { pose proof (tot_ge sz 0 (fun y Hy => Rle_trans _ _ _ (proj1 M0) (proj2 (Fs y (or_intror Hy))))). lra. }
  assert (CA : forall c, In c C -> fin c /\ V m - 16 * u <= V c <= V hi - V lo - V m + 713 * u).
  { intros c [<-|Hc]; [split; [exact F0|]|].
    - assert (0 <= u * INR (length sz)) by (rewrite U; lra). rewrite U in * . lra.
    - destruct (C1 c Hc) as [A B]. split; [exact A|]. rewrite U in * . lra. }
  assert (KA : forall c, In c C -> fin (Bplus mode_NE lo c) /\ Rabs (V (Bplus mode_NE lo c) - (V lo + V c)) <= 8 * u).
  { intros c Hc. destruct (CA c Hc) as [Fc Bc]. destruct (plus_err lo c 4 ltac:(lia) Fl Fc) as [A B].
    - apply Rabs_le. cbn. rewrite U in * . lra.
    - split; [exact A|]. eapply Rle_trans; [exact B|]. rewrite U. cbn. lra. }
  change (Bplus mode_NE lo s0 :: map (Bplus mode_NE lo) (@cumsum_from BN s0 sz)) with (map (Bplus mode_NE lo) C).
  split.
  { intros x [<-|Hx]; [auto|]. apply in_app_iff in Hx as [Hx|[<-|[]]]; auto. apply in_map_iff in Hx as (c & <- & Hc). now apply KA. }
  assert (GC : gapped (/ 65536) (map (Bplus mode_NE lo) C ++ [hi])).
  { clear C1. assert (C2' : gapped (V m - 16 * u) C) by exact C2. clear C2. clearbody C. induction C as [|c C IH].
    - cbn. repeat constructor.
    - cbn [map app]. destruct (CA c (or_introl eq_refl)) as [Fc Bc]. destruct (KA c (or_introl eq_refl)) as [Fk Bk]. apply Rabs_le_inv in Bk. inversion C2' as [|? ? S1 H1]; subst.
      constructor; [apply IH; auto; intros; [apply CA|apply KA]; now right|].
      destruct C as [|c' C].
      + cbn. constructor. rewrite U in * . lra.
      + cbn [map app]. constructor. inversion H1; subst. destruct (KA c' (or_intror (or_introl eq_refl))) as [_ Bk']. apply Rabs_le_inv in Bk'. rewrite U in * . lra. }
  constructor; [exact GC|]. unfold C. cbn [map app]. constructor. destruct (KA s0 (or_introl eq_refl)) as [_ B]. apply Rabs_le_inv in B. rewrite U in * . lra.
Qed.
Lemma knots_ok q w : w <> [] -> range_ok (@rq_min BN q) (@rq_max BN q) (@rq_min_bin BN q) (length w) -> (forall x, In x w -> isfin x) ->
  separated (@knot_positions BN q w) (@rq_min BN q) (@rq_max BN q) /\ length (@knot_positions BN q w) = Datatypes.S (length w).
Proof.
  intros Hw RO Fw. destruct (knots_gapped q w Hw RO Fw) as [A B]. split; [split; [exact A|]; split; [reflexivity|]; split|].
  - eexists (_ :: _). reflexivity.
  - intros i d Hi. exact (gapped_nth _ _ B i d Hi).
  - unfold knot_positions. cbn [length]. rewrite app_length, map_length. cbn [length]. f_equal.
    assert (CL : forall l a, length (@cumsum_from BN a l) = length l) by (intros l; induction l; intros; cbn; auto).
    assert (CL2 : forall l, length (@cumsum BN l) = length l) by (intros [|x l]; cbn; auto).
    rewrite CL2. rewrite len_removelast. unfold normalize_bin_sizes, softmax. rewrite !map_length. destruct w; [congruence|cbn; lia].
Qed.
End BN.
