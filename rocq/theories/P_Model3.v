(** Proofs of C60 for freshly constructed flows. *)
From Coq Require Import Reals Psatz.
From Coquelicot Require Import Coquelicot.
From Verif Require Import Prelude Num M_Core M_Kernels M_Flow M_Net M_Model P_Lists RNum MxR Spec_Kernels Spec_Jac P_Jac Spec_Real Spec_Spline Spec_Flow P_Real1 P_Real2 P_Real3 P_Spline P_Spline2 P_Spline3 P_Flow P_Flow2 P_Flow3 P_Flow4 P_Flow5 P_Flow6 Spec_Net P_Gauss P_Net P_Net2 P_Net3 P_Net4 P_Model P_Model2.
Open Scope R_scope.

Section Fresh.
Context {G : @Rng RNum}.
Variable li : nat -> nat -> key -> bool -> @linear RNum.
Hypothesis Hli : linear_law li.
Hypothesis Hno : @normal_shape RNum G.
Variables (decode : list R -> @flow RNum) (put : list R -> list R -> list (list R) -> list R) (grad : list R -> list (list R) -> list R).
Variables (p : list R) (bs : nat) (k k' : @key RNum G) (f : @lpdf RNum) (d : @datad RNum) (x y : list R) (a b : R).
Hypothesis Hbs : (0 < bs)%nat.
Hypothesis Hf : ignores_n_steps f.
Lemma fresh_rqs_balance n bins w hs L k0 : linear_bounded li -> (0 < n)%nat -> (1 <= bins)%nat -> INR bins < 200000 -> (1 <= w)%nat -> INR w <= 399999990 ->
  rqs_new li n L bins (hs ++ [w]) (-10) 10 k0 = Ok (decode p) ->
  let m := decode p in
  model_sample m (split k 2 1) 1 = [y] -> model_sample m (split k' 2 1) 1 = [x] ->
  let NF := rqs_ops decode put grad in
  accept_prob (flow_run (@mkNfp RNum G NF p bs) k f d x) a -> accept_prob (flow_run (@mkNfp RNum G NF p bs) k' f d y) b ->
  latent m y = normal (split k 2 1) n /\ latent m x = normal (split k' 2 1) n /\
  exists dx dy, 0 < dx /\ 0 < dy /\
    density_through n (latent m) (std_density n) x dx /\ density_through n (latent m) (std_density n) y dy /\
    exp (lp_val f x d) * dy * a = exp (lp_val f y d) * dx * b.
Proof.
  intros Hb H1 H2 H3 H4 H5 E m Hy Hx NF A1 A2. destruct (fresh_rqs_parts li Hli Hb Hno n bins w hs H1 H2 H3 H4 H5 L k0) as (ps & E' & Hok & Hz).
  rewrite E in E'. injection E' as E'. assert (En : fl_n m = n) by (unfold m; now rewrite E').
  pose proof (rqs_balance Hno decode put grad p bs k k' f d x y a b ps) as H. cbv zeta in H. fold m in H. rewrite En in H. apply H; auto.
  - unfold m. rewrite E'. apply unit_good.
  - unfold m. rewrite E'. reflexivity.
Qed.
Lemma fresh_realnvp_balance n h L k0 :
  realnvp_new li n L h k0 = Ok (decode p) ->
  let m := decode p in
  model_sample m (split k 2 1) 1 = [y] -> model_sample m (split k' 2 1) 1 = [x] ->
  let NF := realnvp_ops decode put grad in
  accept_prob (flow_run (@mkNfp RNum G NF p bs) k f d x) a -> accept_prob (flow_run (@mkNfp RNum G NF p bs) k' f d y) b ->
  exists ms, Forall2 (fun i st => nvp_pair li n h (split k0 L i) st) (seq 0 L) ms /\
  (flow_off_kinks n 0 ms x -> flow_off_kinks n 0 ms y ->
  latent m y = normal (split k 2 1) n /\ latent m x = normal (split k' 2 1) n /\
  exists dx dy, 0 < dx /\ 0 < dy /\
    density_through n (latent m) (std_density n) x dx /\ density_through n (latent m) (std_density n) y dy /\
    exp (lp_val f x d) * dy * a = exp (lp_val f y d) * dx * b).
Proof.
  intros E m Hy Hx NF A1 A2. destruct (realnvp_new_spec li n h L k0) as (ms & F & E').
  rewrite E in E'. injection E' as E'. exists ms. split; [exact F|]. intros Ox Oy.
  pose proof (Forall2_keys li n h _ _ _ _ F) as F'. pose proof (calls_shape li Hli Hno n h _ _ F') as Hs.
  assert (En : fl_n m = n) by (unfold m; now rewrite E').
  assert (Ell : fl_layers m = map coupling_layer (realnvp_layers n (map calls2 ms))) by (unfold m; now rewrite E').
  assert (Hg : good_stats m) by (unfold m; rewrite E'; apply unit_good).
  assert (EX : exact_inverse (fl_n m) (flow_fwd (fl_layers m)) (flow_inv (fl_layers m))) by (rewrite Ell, En; now apply realnvp_exact).
  pose proof (flow_balance Hno decode put grad (@realnvp_log_prob RNum) p bs k k' f d x y a b) as H. cbv zeta in H. fold m in H.
  pose proof EX as EX0. rewrite En in H, EX. apply H; auto.
  - intros v Iv Lv. assert (Ew : whiten m v = v) by (unfold m; rewrite E'; apply unit_whiten; auto). rewrite Ew, Ell.
    apply (realnvp_logdet n (map calls2 ms) v Hs); [auto|]. unfold realnvp_layers. rewrite map_length.
    apply (off_differentiable li Hli Hno n h _ _ F'); [auto|]. destruct Iv as [-> | ->]; auto.
  - intros v Lv. rewrite <- En. rewrite <- En in Lv. apply realnvp_ratio. apply (ei_fwd_len _ _ _ EX0). now apply whiten_len.
Qed.
End Fresh.

Lemma trained_unbalanced {G : @Rng RNum} (decode : list R -> @flow RNum) put grad (p : list R) bs (tg : @lpdf RNum) (d : @datad RNum) (q : @rqspline RNum) (shift : R) :
  @normal_shape RNum G -> (forall z : R, exists k, @normal RNum G (split k 2 1) 1 = [z]) ->
  rq_admissible q -> rq_shape q 1 -> rq_conditioned q 1 -> shift <> 0 ->
  (forall xp yp sl, nth 0 (get_params q 1 [0]) ([], [], []) = (xp, yp, sl) -> nth (rq_bins q) sl 0 <> 1) ->
  let m := decode p in
  fl_n m = 1%nat -> good_stats m -> fl_layers m = map rqs_model_layer (rqs_layers 1 [(0, shift, q)]) ->
  (0 < bs)%nat -> ignores_n_steps tg ->
  let S z := unwhiten m (fst (flow_inv (fl_layers m) z)) in
  let NF := rqs_ops decode put grad in
  exists T : list R -> list R,
    (forall z, length z = 1%nat -> T (S z) = z) /\ (forall x, length x = 1%nat -> S (T x) = x) /\
  exists k k' (x y : list R) a b dx dy,
    model_sample m (split k 2 1) 1 = [y] /\ model_sample m (split k' 2 1) 1 = [x] /\
    accept_prob (flow_run (@mkNfp RNum G NF p bs) k tg d x) a /\ accept_prob (flow_run (@mkNfp RNum G NF p bs) k' tg d y) b /\
    density_through 1 T (std_density 1) x dx /\ density_through 1 T (std_density 1) y dy /\
    exp (lp_val tg x d) * dy * a <> exp (lp_val tg y d) * dx * b.
Proof.
  intros Hno Hall A Hs W Hsh Hd m Hn Hg El Hbs Htg S NF.
  assert (El' : fl_layers m = [rqs_model_layer (make_rqs_layer 1 0 0 shift q)]) by exact El.
  exists (tru q shift m). split; [|split].
  - intros z. exact (tru_smp q shift A Hs W m Hn Hg El' z).
  - intros z. exact (smp_tru q shift A Hs W m Hn Hg El' z).
  - apply (one_unbalanced q shift A Hs W m Hn Hg El' decode put grad Hno Hall Hsh); auto.
    unfold par_s. destruct (nth 0 (get_params q 1 [0]) ([], [], [])) as [[xp yp] sl]. exact (Hd xp yp sl eq_refl).
Qed.
