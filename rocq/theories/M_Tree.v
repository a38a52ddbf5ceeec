(** The two normalizing flows as what they are in Python: trees of leaves (equinox modules).  Construction,
    save_model/load_model, to_precision, the optimiser step on the floating-point leaves, and the flow that a
    tree of leaves computes. *)
From Coq Require Import Ascii.
From Verif Require Import Prelude Num M_Core M_Kernels M_Flow M_Net M_Model.

Section Tree.
Context {N : Num} {G : Rng}.

(** Array dtypes that occur in the models. *)
Inductive dtype := DBool | DFloat16 | DBFloat16 | DFloat32 | DFloat64.
Definition dtype_eqb (a b : dtype) : bool :=
  match a, b with
  | DBool, DBool | DFloat16, DFloat16 | DBFloat16, DBFloat16 | DFloat32, DFloat32 | DFloat64, DFloat64 => true
  | _, _ => false
  end.

(** A leaf of a module: a JAX array (dtype, shape, row-major entries; booleans are 0/1), a Python scalar, or a
    function (the activation).  None (an absent bias) is no leaf. *)
Inductive leaf :=
| LArr (d : dtype) (shape : list nat) (vals : list F)
| LBool (b : bool) | LInt (z : Z) | LFloat (x : F)
| LFun.
Definition leaf_vals (l : leaf) : list F := match l with LArr _ _ v => v | _ => [] end.
Definition leaf_int (l : leaf) : Z := match l with LInt z => z | _ => 0%Z end.
Definition leaf_float (l : leaf) : F := match l with LFloat x => x | _ => f0 end.

(* ------------------------------------------------------------------------------------ *)
(** * Layers stacked by filter_vmap *)

(** The j-th linear layer of an MLP (common.py 92-107; activations are between them). *)
Definition mlp_linear (m : mlp) (j : nat) : linear := nth j (ml_hidden m ++ [ml_last m]) (ml_last m).

(** eqx.nn.Linear has the leaves weight and bias (in_features, out_features and use_bias are static); filter_vmap
    (realNVP.py 172, rqSpline.py 443) stacks the arrays of the layers along a new first axis. *)
Definition linear_leaves (a b : nat) (ls : list linear) : list leaf :=
  [ LArr DFloat32 [length ls; b; a] (concat (map (fun l => concat (ln_w l)) ls));
    LArr DFloat32 [length ls; b] (concat (map (fun l => match ln_b l with Some v => v | None => [] end) ls)) ].

(** Leaves of the stacked networks [ms] of the given shape: weight, bias, activation, ..., weight, bias. *)
Definition mlp_leaves (shape : list nat) (ms : list mlp) : list leaf :=
  let lin j := linear_leaves (nth j shape 0) (nth (S j) shape 0) (map (fun m => mlp_linear m j) ms) in
  flat_map (fun j => lin j ++ [LFun]) (seq 0 (length shape - 2)) ++ lin (length shape - 2).

(** The linear layer, and the network, that layer i of the stack uses (eqx.combine inside the scan,
    realNVP.py 188, rqSpline.py 466). *)
Definition linear_at (a b : nat) (w bias : leaf) (i : nat) : linear :=
  mkLinear (reshape_rows b a (slice (i * (b * a)) (i * (b * a) + b * a) (leaf_vals w)))
           (Some (slice (i * b) (i * b + b) (leaf_vals bias))).
Definition mlp_at (shape : list nat) (act : F -> F) (lv : list leaf) (i : nat) : mlp :=
  let lin j := linear_at (nth j shape 0) (nth (S j) shape 0) (nth (3 * j) lv LFun) (nth (3 * j + 1) lv LFun) i in
  mkMlp (map lin (seq 0 (length shape - 2))) (lin (length shape - 2)) act.

(** Row i of a stacked array of rows of length n. *)
Definition row_at (n : nat) (l : leaf) (i : nat) : vec := slice (i * n) (i * n + n) (leaf_vals l).
Definition matrix_of (n : nat) (l : leaf) : list vec := reshape_rows n n (leaf_vals l).

Variable linear_init : nat -> nat -> key -> bool -> linear.
(** jnp.linalg.cholesky, used by the base distribution (common.py 285-293). *)
Variable chol : list vec -> list vec.

(* ------------------------------------------------------------------------------------ *)
(** * Leaves common to both models *)

(** Fields in dataclass order (base.py 20-22, then the subclass; common.py 256-258):
    0 _n_features, 1 _data_mean, 2 _data_cov, 3 base_dist._mean, 4 base_dist._cov, 5 base_dist.learnable. *)
Definition header_leaves (n : nat) : list leaf :=
  [ LInt (Z.of_nat n); LArr DFloat32 [n] (repeat f0 n); LArr DFloat32 [n; n] (concat (eye n));
    LArr DFloat32 [n] (repeat f0 n); LArr DFloat32 [n; n] (concat (eye n)); LBool false ].
Definition lv_at (lv : list leaf) (i : nat) : leaf := nth i lv LFun.
Definition tree_n (lv : list leaf) : nat := Z.to_nat (leaf_int (lv_at lv 0)).
Definition tree_base (lv : list leaf) : dist :=
  gaussian (leaf_vals (lv_at lv 3)) (chol (matrix_of (tree_n lv) (lv_at lv 4))).
Definition tree_flow (lv : list leaf) (layers : list layer) : flow :=
  mkFlow (tree_n lv) layers (leaf_vals (lv_at lv 1)) (diag (matrix_of (tree_n lv) (lv_at lv 2))).

(* ------------------------------------------------------------------------------------ *)
(** * RealNVP (realNVP.py 102-228) *)

(** realNVP.py 162-169: the two networks of layer i. *)
Definition nvp_networks (n n_hidden : nat) (k : key) : res (mlp * mlp) :=
  let* s := mlp_new linear_init [n; n_hidden; n] (split k 3 1) (f1 /. fofZ 10000) relu true in
  let* t := mlp_new linear_init [n; n_hidden; n] (split k 3 2) (f1 /. fofZ 10000) relu true in
  Ok (s, t).
(** realNVP.py 133-172: constructor; 6 mask, then scale_MLP, shift_MLP, dt (common.py 171-179). *)
Definition nvp_tree (n L h : nat) (k : key) : res (list leaf) :=
  let* st := per_layer (fun _ => nvp_networks n h) L k in
  Ok (header_leaves n
      ++ [LArr DFloat32 [L; n] (concat (map (realnvp_mask n) (seq 0 L)))]
      ++ mlp_leaves [n; h; n] (map fst st) ++ mlp_leaves [n; h; n] (map snd st) ++ [LInt 1]).
(** The flow computed by leaves of that structure. *)
Definition nvp_flow (L h : nat) (lv : list leaf) : flow :=
  let n := tree_n lv in
  tree_flow lv (map (fun i =>
    coupling_layer (mkCoupling (row_at n (lv_at lv 6) i)
      (mlp_affine (mlp_call (mlp_at [n; h; n] relu (skipn 7 lv) i))
                  (mlp_call (mlp_at [n; h; n] relu (skipn 12 lv) i)) (fofZ (leaf_int (lv_at lv 17))))))
    (seq 0 L)).
(** realNVP.py 216-223 and 210-214. *)
Definition nvp_logp (L h : nat) (lv : list leaf) (x : vec) : F := realnvp_log_prob (nvp_flow L h lv) x.
Definition nvp_sample (L h : nat) (lv : list leaf) (k : key) (ns : nat) : list vec :=
  flow_sample (nvp_flow L h lv) (ds_sample (tree_base lv) k ns).

(* ------------------------------------------------------------------------------------ *)
(** * MaskedCouplingRQSpline (rqSpline.py 364-507) *)

(** rqSpline.py 427-433: the conditioner of a layer. *)
Definition rqs_net_shape (n bins : nat) (hidden : list nat) : list nat := n :: hidden ++ [n * (bins * 3 + 1)].
Definition rqs_network (n bins : nat) (hidden : list nat) (k : key) : res mlp :=
  mlp_new linear_init (rqs_net_shape n bins hidden) k (f1 /. fofZ 100) ftanh true.
(** rqSpline.py 384-443: constructor; 6 mask_all, 7 scale, 8 shift, 9 mask, 10-14 the scalars of RQSpline
    (rqSpline.py 243-248), then the conditioner. *)
Definition rqs_tree (n L bins : nat) (hidden : list nat) (lo hi : F) (k : key) : res (list leaf) :=
  let* ms := per_layer (fun _ => rqs_network n bins hidden) L k in
  Ok (header_leaves n
      ++ [ LArr DBool [L; n] (concat (map (fun _ => repeat f0 n) (seq 0 L)));
           LArr DFloat32 [L] (repeat f0 L); LArr DFloat32 [L] (repeat f0 L);
           LArr DBool [L; n] (concat (map (rqs_mask n) (seq 0 L)));
           LFloat lo; LFloat hi; LInt (Z.of_nat (num_bins_of (n * (bins * 3 + 1)) n));
           LFloat (f1 /. fofZ 10000); LFloat (f1 /. fofZ 10000) ]
      ++ mlp_leaves (rqs_net_shape n bins hidden) ms).
Definition rqs_flow (L bins : nat) (hidden : list nat) (lv : list leaf) : flow :=
  let n := tree_n lv in
  tree_flow lv (map (fun i => rqs_model_layer (mkRqsLayer
    (mkCoupling (row_at n (lv_at lv 6) i)
       (scalar_affine (nth i (leaf_vals (lv_at lv 7)) f0) (nth i (leaf_vals (lv_at lv 8)) f0)))
    (mkCoupling (row_at n (lv_at lv 9) i)
       (rqspline_bij (mkRQ (leaf_float (lv_at lv 10)) (leaf_float (lv_at lv 11))
          (Z.to_nat (leaf_int (lv_at lv 12))) (leaf_float (lv_at lv 13)) (leaf_float (lv_at lv 14))
          (mlp_call (mlp_at (rqs_net_shape n bins hidden) ftanh (skipn 15 lv) i)))))))
    (seq 0 L)).
(** rqSpline.py 498-504 and 490-496. *)
Definition rqs_tree_logp (L bins : nat) (hidden : list nat) (lv : list leaf) (x : vec) : F :=
  rqs_log_prob (ds_logp (tree_base lv)) (rqs_flow L bins hidden lv) x.
Definition rqs_tree_sample (L bins : nat) (hidden : list nat) (lv : list leaf) (k : key) (ns : nat) : list vec :=
  flow_sample (rqs_flow L bins hidden lv) (ds_sample (tree_base lv) k ns).

(* ------------------------------------------------------------------------------------ *)
(** * save_model / load_model (nf_model/base.py 91-95) *)

(** eqx.tree_serialise_leaves writes arrays and Python scalars in leaf order and skips everything else. *)
Definition serialise (lv : list leaf) : list leaf :=
  filter (fun l => match l with LFun => false | _ => true end) lv.
(** Type, and for arrays shape and dtype, must be those of the leaf being replaced. *)
Definition same_kind (l x : leaf) : bool :=
  match l, x with
  | LArr d sh _, LArr d' sh' _ => dtype_eqb d d' && (if list_eq_dec Nat.eq_dec sh sh' then true else false)
  | LBool _, LBool _ | LInt _, LInt _ | LFloat _, LFloat _ => true
  | _, _ => false
  end.
(** eqx.tree_deserialise_leaves: reads one record for every array or scalar leaf of [like], in order; a record of
    another kind or a missing one raises (RuntimeError, EOFError); further records are not looked at. *)
Fixpoint deserialise (like : list leaf) (file : list leaf) : res (list leaf) :=
  match like with
  | [] => Ok []
  | LFun :: r => let* o := deserialise r file in Ok (LFun :: o)
  | l :: r =>
      match file with
      | [] => Raise OtherError
      | x :: file' => if same_kind l x then let* o := deserialise r file' in Ok (x :: o) else Raise OtherError
      end
  end.

(** nf_model/base.py 91-95 on a file system: file names to contents; FileNotFoundError is OtherError. *)
Definition save_model (fs : dict (list leaf)) (path : string) (lv : list leaf) : dict (list leaf) :=
  dset fs (append path ".eqx") (serialise lv).
Definition load_model (fs : dict (list leaf)) (path : string) (like : list leaf) : res (list leaf) :=
  match dget fs (append path ".eqx") with Some f => deserialise like f | None => Raise OtherError end.

(* ------------------------------------------------------------------------------------ *)
(** * to_precision (nf_model/base.py 209-242) *)

(** str.lower() on ASCII. *)
Definition lower_ascii (c : ascii) : ascii :=
  let n := nat_of_ascii c in if (65 <=? n) && (n <=? 90) then ascii_of_nat (n + 32) else c.
Fixpoint lower (s : string) : string :=
  match s with EmptyString => EmptyString | String c r => String (lower_ascii c) (lower r) end.
(** nf_model/base.py 222-227: precisions_dict. *)
Definition precisions : dict dtype :=
  [("float16"%string, DFloat16); ("bfloat16"%string, DBFloat16); ("float32"%string, DFloat32); ("float64"%string, DFloat64)].
(** Rounding to a dtype (astype); external. *)
Variable round : dtype -> F -> F.
(** nf_model/base.py 228-242: KeyError becomes ValueError; every array leaf, of whatever dtype, is converted. *)
Definition to_precision (lv : list leaf) (precision : string) : res (list leaf) :=
  match dget precisions (lower precision) with
  | None => Raise ValueError
  | Some d => Ok (map (fun l => match l with LArr _ sh v => LArr d sh (map (round d) v) | _ => l end) lv)
  end.

(* ------------------------------------------------------------------------------------ *)
(** * Training on leaves (nf_model/base.py 98-125, 187-188) *)

(** eqx.filter_value_and_grad differentiates with respect to floating-point arrays; boolean arrays and
    non-arrays get None and are left alone by optim.update and eqx.apply_updates. *)
Definition trainable (l : leaf) : bool := match l with LArr DBool _ _ => false | LArr _ _ _ => true | _ => false end.
(** All floating-point leaves as one vector, and back. *)
Definition ravel (lv : list leaf) : vec := flat_map (fun l => if trainable l then leaf_vals l else []) lv.
Fixpoint unravel (lv : list leaf) (p : vec) : list leaf :=
  match lv with
  | [] => []
  | l :: r =>
      match l with
      | LArr d sh v => if trainable l then LArr d sh (firstn (length v) p) :: unravel r (skipn (length v) p)
                       else l :: unravel r p
      | _ => l :: unravel r p
      end
  end.
Variable logp : list leaf -> vec -> F.
Variable sample : list leaf -> key -> nat -> list vec.
Variable grad : list leaf -> list vec -> vec.
(** nf_model/base.py 102-125: loss and gradient at the current leaves, optimiser update, apply_updates. *)
Definition tree_train_step (lv : list leaf) (xs : list vec) (a : adamw) (s : adamw_state)
  : F * list leaf * adamw_state :=
  let '(p', s') := adamw_step a (grad lv xs) (ravel lv) s in (nf_loss (logp lv) xs, unravel lv p', s').
(** nf_model/base.py 187-188: tree_at on _data_mean and _data_cov.  (For n = 1 jnp.cov returns a 0-d array that the
    first optimiser step broadcasts back to shape (1, 1); here it has shape (1, 1) at once.  The dtype is the
    data's, float32.) *)
Definition tree_set_stats (lv : list leaf) (data : list vec) : list leaf :=
  let n := tree_n lv in
  set_nth 1 (LArr DFloat32 [n] (data_mean n data)) (set_nth 2 (LArr DFloat32 [n; n] (concat (data_cov n data))) lv).
(** The model as strategies see it. *)
Definition tree_ops : NFOps :=
  {| mdl := list leaf; optst := adamw_state; gtx := adamw; m_logp := logp; m_sample := sample;
     m_step := tree_train_step; m_stats := tree_set_stats |}.
(** optimizer.py 13-23: state of a new optimiser for a model. *)
Definition tree_optimizer_init (lv : list leaf) : adamw_state := adamw_init (ravel lv).
End Tree.
