(** Properties C04, C05, C06: Sampler. *)
From Verif Require Import Prelude Num M_Core M_Kernels M_Strategies M_PT M_Bundle
  Spec Spec_Sampler P_Lists P_Sampler.

Section Props.
Context {N : Num} {G : Rng} {NF : NFOps}.

(* ==================================================================================== *)
(** C04.  Explicit resources and strategies win over the bundle; otherwise the bundle is used;
    otherwise ValueError. *)
Theorem C04_precedence :
  forall n c k (r : option (dict resource)) (s : option (dict strategy)) (o : order_t)
         (b : option bundle) kw,
  match r, s, b with
  | Some rr, Some ss, _ => exists sm, sampler_init n c k r s o b kw = Ok sm /\
        sm_resources sm = rr /\ sm_strategies sm = ss /\ sm_order sm = o
  | _, _, Some bb => exists sm, sampler_init n c k r s o b kw = Ok sm /\
        sm_resources sm = bd_resources bb /\ sm_strategies sm = bd_strategies bb /\
        sm_order sm = OList (bd_order bb)
  | _, _, None => sampler_init n c k r s o b kw = Raise ValueError
  end.
Proof. exact C04_precedence_proof. Qed.

(** Keyword arguments: the last value given for a settable name is what reading the attribute
    returns (the class's default if none was given), any other keyword has no effect, and no keyword changes n_dim, n_chains, rng_key, resources, strategies or
    strategy_order, nor whether construction succeeds. *)
Theorem C04_keywords :
  forall n c k (r : option (dict resource)) (s : option (dict strategy)) (o : order_t)
         (b : option bundle) kw sm,
  sampler_init n c k r s o b kw = Ok sm ->
  sm_n_dim sm = n /\ sm_n_chains sm = c /\ sm_key sm = k /\
  (forall name, In name settable -> dget (sm_attrs sm) name = last_value kw name) /\
  (forall name, ~ In name settable -> dget (sm_attrs sm) name = None) /\
  (forall name dflt, In name settable ->
     attr sm name dflt = match last_value kw name with Some v => v | None => dflt end) /\
  (forall kw', exists sm', sampler_init n c k r s o b kw' = Ok sm' /\
     sm_resources sm' = sm_resources sm /\ sm_strategies sm' = sm_strategies sm /\
     sm_order sm' = sm_order sm).
Proof. exact C04_kwargs_proof. Qed.

(* ==================================================================================== *)
(** C05.  With a list as strategy_order, sample does exactly what the relational account says:
    the named strategies run in order, threading key, position and world; an unregistered name
    raises ValueError at its turn; a raising strategy stops the run; effects so far are kept. *)
Theorem C05_runs_in_order :
  forall (s : sampler) (init : initpos) (d : datad) (h : list obj) (order : list string)
         (r : res (key * pos_t)) (w' : world),
    sm_order s = OList order ->
    (sampler_sample s init d h = (r, w') <->
     exists trace, runs (sm_strategies s) d order (sm_key s)
                        (match init with P1 v => [v] | P2 m => m end)
                        (mkWorld h (sm_resources s)) trace r w').
Proof. exact C05_runs_proof. Qed.

(** The relational account determines the outcome, and the strategies called are a prefix of
    the order, all of it when the run succeeds. *)
Theorem C05_trace_is_a_prefix :
  forall (S : dict strategy) (d : datad) order k xs w trace r w',
    runs S d order k xs w trace r w' ->
    map (fun t => fst (fst t)) trace = firstn (length trace) order /\
    (forall k' xs', r = Ok (k', xs') -> length trace = length order).
Proof. exact runs_trace_names. Qed.

Theorem C05_deterministic :
  forall (S : dict strategy) (d : datad) order k xs w t1 r1 w1 t2 r2 w2,
    runs S d order k xs w t1 r1 w1 -> runs S d order k xs w t2 r2 w2 ->
    t1 = t2 /\ r1 = r2 /\ w1 = w2.
Proof. exact runs_fun. Qed.

(** An unregistered name raises after all and only the preceding strategies took effect. *)
Theorem C05_unknown_name :
  forall (s : sampler) init d h pre name post k1 xs1 w1 trace,
    sm_order s = OList (pre ++ name :: post) -> dget (sm_strategies s) name = None ->
    runs (sm_strategies s) d pre (sm_key s) (match init with P1 v => [v] | P2 m => m end)
         (mkWorld h (sm_resources s)) trace (Ok (k1, xs1)) w1 ->
    sampler_sample s init d h = (Raise ValueError, w1).
Proof. exact C05_unknown_proof. Qed.

(** A strategy_order that is not a list raises before anything runs. *)
Theorem C05_not_a_list :
  forall (s : sampler) init d h,
    (forall order, sm_order s <> OList order) ->
    sampler_sample s init d h = (Raise AssertionError, mkWorld h (sm_resources s)).
Proof. exact C05_notlist_proof. Qed.

(** A two-strategy run with an unregistered third name. *)
Example C05_example :
  forall (k : key) (f : key -> key), exists s : sampler,
    sm_order s = OList (["a"; "b"]%string ++ "zz"%string :: ["a"%string]) /\
    dget (sm_strategies s) "zz" = None /\
    runs (sm_strategies s) [] ["a"; "b"]%string (sm_key s) [[f0]] (mkWorld [] (sm_resources s))
      [("a", k, [[f0]]); ("b", f k, [])]%string (Ok (f (f k), [])) (mkWorld [] (sm_resources s)).
Proof.
  intros k f.
  exists (mkSampler 1 1 k []
     [("a", fun k xs d => mret (f k, tl xs)); ("b", fun k xs d => mret (f k, xs))]%string
     (OList ["a"; "b"; "zz"; "a"]%string) []).
  split; [reflexivity|]. split; [reflexivity|].
  eapply runs_next; [reflexivity|reflexivity|].
  eapply runs_next; [reflexivity|reflexivity|]. constructor.
Qed.

(* ==================================================================================== *)
(** C06.  No number of calls changes the sampler's key. *)
Theorem C06_key_never_advances :
  forall (s : sampler) (ws : list world),
    sm_key (fold_left sampler_after ws s) = sm_key s /\
    sm_strategies (fold_left sampler_after ws s) = sm_strategies s /\
    sm_order (fold_left sampler_after ws s) = sm_order s.
Proof. exact C06_key_kept_proof. Qed.

(** Hence a second call feeds its strategies the same keys in the same sequence, whatever the
    positions, data and resources. *)
Theorem C06_second_call_same_keys :
  forall (s : sampler) w1 init1 init2 d1 d2 h1 h2 order o1 o2 wf1 wf2,
    sm_order s = OList order ->
    (forall n st, In n order -> dget (sm_strategies s) n = Some st -> key_deterministic st) ->
    sampler_sample s init1 d1 h1 = (Ok o1, wf1) ->
    sampler_sample (sampler_after s w1) init2 d2 h2 = (Ok o2, wf2) ->
    exists tr1 tr2,
      runs (sm_strategies s) d1 order (sm_key s) (match init1 with P1 v => [v] | P2 m => m end)
           (mkWorld h1 (sm_resources s)) tr1 (Ok o1) wf1 /\
      runs (sm_strategies s) d2 order (sm_key s) (match init2 with P1 v => [v] | P2 m => m end)
           (mkWorld h2 (rdict w1)) tr2 (Ok o2) wf2 /\
      map (fun t => (fst (fst t), snd (fst t))) tr1 = map (fun t => (fst (fst t), snd (fst t))) tr2 /\
      fst o1 = fst o2.
Proof. exact C06_same_keys_proof. Qed.

(** All strategies of both bundles, and AdamOptimization, meet that hypothesis. *)
Theorem C06_repository_strategies_qualify :
  forall (c : config) (pc : pt_config) (window : nat) (a : adam) (n : string) (st : strategy),
    dget (base_strategies c window) n = Some st \/ dget (pt_strategies pc) n = Some st
      \/ st = adam_strategy a ->
    key_deterministic st.
Proof. exact C06_bundle_strategies_proof. Qed.

End Props.

Print Assumptions C04_precedence.
Print Assumptions C04_keywords.
Print Assumptions C05_runs_in_order.
Print Assumptions C05_trace_is_a_prefix.
Print Assumptions C05_deterministic.
Print Assumptions C05_unknown_name.
Print Assumptions C05_not_a_list.
Print Assumptions C06_key_never_advances.
Print Assumptions C06_second_call_same_keys.
Print Assumptions C06_repository_strategies_qualify.

(** C04: a concrete call. *)
Example C04_example :
  forall {N : Num} {G : Rng} {NF : NFOps} (k : key),
    exists sm, sampler_init 3 5 k None None ONone (Some (mkBundle [] [] []))
                 [("verbose", VBool true); ("n_dim", VInt 7); ("__init__", VOther); ("typo", VInt 1)]%string
               = Ok sm /\ dget (sm_attrs sm) "verbose" = Some (VBool true) /\
               sm_n_dim sm = 3 /\ length (sm_attrs sm) = 1.
Proof. intros. eexists. split; [reflexivity|]. vm_compute. auto. Qed.
