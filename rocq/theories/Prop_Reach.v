(** C94: how far parallel tempering carries the walkers. *)
From Coq Require Import Reals Permutation Psatz.
From Coquelicot Require Import Coquelicot.
From Verif Require Import Prelude Num P_Core Spec_Train M_Core M_Kernels M_Strategies M_PT P_Lists Spec_Kernels Spec_Steps RNum Spec_Real Spec_PT P_PT P_PT4 Toy Prop_PT Spec_Reach P_Reach.
Close Scope R_scope.

Section Gen.
Context {N : Num} {G : Rng} {NF : NFOps}.
(** C94.  An exchange sweep (what C38 and C41 say happens in a call) brings a walker down by at most one temperature: the walker
    found at index i afterwards was at index i + 1 or lower before. *)
Theorem C94_down : forall temps lp k (xs ys : list vec) accs ens, sweep_of temps lp k xs ys accs ens -> forall i, i < length xs ->
  exists j, j <= i + 1 /\ j < length xs /\ nth i ys [] = nth j xs [].
Proof. exact sweep_down. Qed.
(** Upwards there is no such limit: when every exchange is accepted, the cold walker ends at the hottest temperature. *)
Theorem C94_up : forall temps lp k (xs ys : list vec) accs ens, sweep_of temps lp k xs ys accs ens ->
  (forall s, s < length accs -> nth s accs false = true) -> xs <> [] -> ys = tl xs ++ [hd [] xs].
Proof. exact sweep_up. Qed.
(** The walkers at indices 0..J after a sweep, and the decisions about them, depend only on the walkers and temperatures at
    indices 0..J+1 before. *)
Theorem C94_cold_end : forall J temps temps' lp k (xs xs' ys ys' : list vec) accs accs' ens ens', sweep_of temps lp k xs ys accs ens -> sweep_of temps' lp k xs' ys' accs' ens' ->
  length xs = length xs' -> (forall j, j <= J + 1 -> nth j temps f0 = nth j temps' f0) -> (forall j, j <= J + 1 -> nth j xs [] = nth j xs' []) ->
  (forall j, j <= J -> nth j accs false = nth j accs' false) /\ (forall j, j <= J -> nth j ys [] = nth j ys' []).
Proof. exact sweep_agree. Qed.
(** So the positions a call returns depend only on the current positions, the first stored walker of each chain and the two lowest
    temperatures, whatever the other stored walkers and temperatures are (and however many data the buffers count as written). *)
Theorem C94_call : forall pt k xs d w1 w2 kern t pl1 pb1 tl1 tb1 tr1 pl2 pb2 tl2 tb2 tr2 k1 ys1 w1' k2 ys2 w2',
  pt_setup w1 pt kern t pl1 pb1 tl1 tb1 tr1 -> pt_setup w2 pt kern t pl2 pb2 tl2 tb2 tr2 ->
  keeps_dim kern t d (length (nth 0 xs [])) -> (forall x, In x xs -> length x = length (nth 0 xs [])) ->
  nth 1 (ashape (b_data pb1)) 0 = nth 1 (ashape (b_data pb2)) 0 -> (forall j, j < 2 -> nth j (temps_of tb1) f0 = nth j (temps_of tb2) f0) ->
  (forall c, c < length xs -> second_walker pb1 xs c = second_walker pb2 xs c) ->
  parallel_tempering pt k xs d w1 = (Ok (k1, ys1), w1') -> parallel_tempering pt k xs d w2 = (Ok (k2, ys2), w2') -> k1 = k2 /\ ys1 = ys2.
Proof. exact production_cold. Qed.
(** In production the stored walkers are frozen (C41), so over any number of production calls everything above the second
    temperature is computed and never used. *)
Theorem C94_production : forall pt d w1 w2 kern t pl1 pb1 tl1 tb1 pl2 pb2 tl2 tb2 dim,
  pt_setup w1 pt kern t pl1 pb1 tl1 tb1 false -> pt_setup w2 pt kern t pl2 pb2 tl2 tb2 false -> keeps_dim kern t d dim ->
  nth 1 (ashape (b_data pb1)) 0 = nth 1 (ashape (b_data pb2)) 0 -> (forall j, j < 2 -> nth j (temps_of tb1) f0 = nth j (temps_of tb2) f0) ->
  forall ks xs, (forall x, In x xs -> length x = dim) -> (forall c, c < length xs -> second_walker pb1 xs c = second_walker pb2 xs c) ->
  forall ys1 ys2, pt_calls pt d ks xs w1 = Ok ys1 -> pt_calls pt d ks xs w2 = Ok ys2 -> ys1 = ys2.
Proof. exact production_calls. Qed.
End Gen.

Section Price.
Local Open Scope R_scope.
(** The probability of exchanging two neighbours: at least exp(-|1/T - 1/T'| |difference of their log-densities|) ... *)
Theorem C94_price : forall (t : @tempered RNum) d temps (xs : list (list R)) i a, (i + 1 < length xs)%nat -> swap_prob temps t d xs i a ->
  exp (- (Rabs (1 / nth (i + 1) temps 0 - 1 / nth i temps 0) * Rabs (lp_val (l_pdf (t_base t)) (nth i xs []) d - lp_val (l_pdf (t_base t)) (nth (i + 1) xs []) d))) <= a.
Proof.
  intros t d temps xs i a Hi A. pose proof (swap_prob_value t d temps xs i Hi) as B. unfold swap_prob in A, B.
  rewrite <- (is_RInt_unique _ _ _ _ A), (is_RInt_unique _ _ _ _ B). unfold ratioR, lpR, tempered_call, logpdf_call. rewrite <- Rabs_mult.
  match goal with |- exp (- Rabs ?x) <= Rmin 1 (exp ?y) => change y with x; generalize x end. intros x. apply Rmin_glb.
  - rewrite <- exp_0. destruct (Req_dec (Rabs x) 0) as [->|N0]; [right; f_equal; ring|left; apply exp_increasing; pose proof (Rabs_pos x); lra].
  - destruct (Rcase_abs x) as [Ng|Ps].
    + right. rewrite Rabs_left by assumption. f_equal. ring.
    + destruct (Req_dec x 0) as [->|N0]; [right; rewrite Rabs_R0; f_equal; ring|]. left. apply exp_increasing. rewrite Rabs_right by assumption. lra.
Qed.
(** ... and 1 when the hotter of the two is the better one. *)
Theorem C94_better_comes_down : forall (t : @tempered RNum) d temps (xs : list (list R)) i a, (i + 1 < length xs)%nat -> swap_prob temps t d xs i a ->
  0 < nth i temps 0 <= nth (i + 1) temps 0 -> lp_val (l_pdf (t_base t)) (nth i xs []) d <= lp_val (l_pdf (t_base t)) (nth (i + 1) xs []) d -> a = 1.
Proof.
  intros t d temps xs i a Hi A T L. pose proof (swap_prob_value t d temps xs i Hi) as B. unfold swap_prob in A, B.
  rewrite <- (is_RInt_unique _ _ _ _ A), (is_RInt_unique _ _ _ _ B). unfold ratioR, lpR, tempered_call, logpdf_call.
  assert (Q : 1 / nth (i + 1) temps 0 - 1 / nth i temps 0 <= 0).
  { unfold Rdiv. rewrite !Rmult_1_l. pose proof (Rinv_le_contravar (nth i temps 0) (nth (i + 1) temps 0)) as V. lra. }
  assert (Al : forall u b c : R, u <= 0 -> b <= c -> Rmin 1 (exp (u * (b - c))) = 1).
  { intros u b c U V. apply Rmin_left. rewrite <- exp_0 at 1. destruct (Req_dec (u * (b - c)) 0) as [->|N0]; [lra|]. left. apply exp_increasing. nra. }
  exact (Al _ _ _ Q L).
Qed.
End Price.

(* ------------------------------------------------------------------ concrete cases *)
(** One chain, four temperatures; the two settings differ in the walkers and temperatures above the second. *)
Definition r_pb (v : Z) : @buffer ZNum := @mkBuffer ZNum "tp" (@mkArr ZNum [1; 3; 1] (fun ix => match ix with [_; 0; _] => 4%Z | _ => v end)) 0 2.
Definition r_tb (v : Z) : @buffer ZNum := @mkBuffer ZNum "tm" (@mkArr ZNum [4] (fun ix => match ix with [0] => 1%Z | [1] => 1%Z | _ => v end)) 0 0.
Definition r_world (v : Z) : @world ZNum ZRng ZNF := @mkWorld ZNum ZRng ZNF
  [OBuf (r_pb v); OBuf (r_tb v); OState (mkState "st" [("training"%string, SBool false)])]
  [("tp", RObj 0); ("tm", RObj 1); ("st", RObj 2);
   ("k", RSer (@grw_kernel ZNum ZRng (@SScalar ZNum 1%Z))); ("t", RTemp zt)]%string.
Example C94_case_setup : forall v n, pt_setup (r_world v) (zpt n) (@grw_kernel ZNum ZRng (@SScalar ZNum 1%Z)) zt 0 (r_pb v) 1 (r_tb v) false.
Proof. intros. split; try reflexivity; try (split; reflexivity). exists 2, (mkState "st" [("training"%string, SBool false)]), (SBool false). repeat split. Qed.
Example C94_case_agree : forall v v' xs c, second_walker (r_pb v) xs c = second_walker (r_pb v') xs c /\ (forall j, j < 2 -> nth j (temps_of (r_tb v)) 0%Z = nth j (temps_of (r_tb v')) 0%Z) /\
  nth 2 (ensemble_before (r_pb 7%Z) xs c) [] = [7%Z] /\ nth 2 (ensemble_before (r_pb 50%Z) xs c) [] = [50%Z].
Proof. intros. split; [reflexivity|]. split; [|split; reflexivity]. intros [|[|j]] Hj; [reflexivity|reflexivity|lia]. Qed.
Example C94_case_run : @pt_calls ZNum ZRng ZNF (zpt 2) [] [[]; [3]; [5; 1]] [[9]]%Z (r_world 7) = @pt_calls ZNum ZRng ZNF (zpt 2) [] [[]; [3]; [5; 1]] [[9]]%Z (r_world 50) /\
  exists y, @pt_calls ZNum ZRng ZNF (zpt 2) [] [[]; [3]; [5; 1]] [[9]]%Z (r_world 7) = Ok y /\ y <> [[9]]%Z.
Proof. vm_compute. split; [reflexivity|]. eexists. split; [reflexivity|discriminate]. Qed.
(** The sweep of C38_run: the walker at index 2 came down to index 1, one level. *)
Example C94_case_sweep : exists ens, @sweep_of ZNum ZRng [1; 1; 2]%Z (fun x => @tempered_call ZNum zt x []) ([] : @key ZNum ZRng) [[0]; [9]; [1]]%Z [[0]; [1]; [9]]%Z [false; true] ens.
Proof. destruct (@C38_proof ZNum ZRng zt [] _ _ _ _ _ _ C38_run) as (_ & _ & H). exact H. Qed.
Definition r_t : @tempered RNum := @mkTempered RNum (mkLogPDF (@mkLpdf RNum (fun x _ => (- nth 0 x 0)%R) (fun _ _ => [(-1)%R])) []) (@mkLpdf RNum (fun _ _ => 0%R) (fun _ _ => [0%R])).
(** Temperatures 1 and 2, log-densities 0 and -1: at least exp(-1/2). *)
Example C94_case_price : exists a, swap_prob [1; 2]%R r_t [] [[0]; [1]]%R 0 a /\ (exp (- (1 / 2)) <= a)%R.
Proof.
  pose proof (swap_prob_value r_t [] [1; 2]%R [[0]; [1]]%R 0 ltac:(cbn; lia)) as A. eexists. split; [exact A|].
  pose proof (C94_price r_t [] [1; 2]%R [[0]; [1]]%R 0 _ ltac:(cbn; lia) A) as B. refine (Rle_trans _ _ _ _ B). right. f_equal. f_equal. cbn.
  rewrite (Rabs_left (1 / 2 - 1 / 1)) by lra. rewrite (Rabs_right (-0 - - (1))) by lra. lra.
Qed.

Print Assumptions C94_down.
Print Assumptions C94_up.
Print Assumptions C94_cold_end.
Print Assumptions C94_call.
Print Assumptions C94_production.
Print Assumptions C94_price.
Print Assumptions C94_better_comes_down.
