(** C99: parallel tempering with a single temperature. *)
From Verif Require Import Prelude Num M_Core M_Kernels M_Strategies M_PT Spec_Kernels Spec_Train Spec_PT P_PT P_PT4 Toy Prop_PT Spec_Reach P_Reach Spec_Single P_Single.

Section Gen.
Context {N : Num} {G : Rng} {NF : NFOps}.
(** C99.  A successful call with one temperature T, in training or production: every chain ends where the local sampler
    with the target tempered at T, run for n_steps with a key of its own, takes it; T is not adapted. *)
Theorem C99_call : forall pt k xs d w kern t pl pb tl tb training T k' xs' w',
  pt_setup w pt kern t pl pb tl tb training -> temps_of tb = [T] ->
  keeps_dim kern t d (length (nth 0 xs [])) -> (forall x, In x xs -> length x = length (nth 0 xs [])) ->
  parallel_tempering pt k xs d w = (Ok (k', xs'), w') ->
  length xs' = length xs /\
  (forall c, c < length xs ->
     (exists tr, serial_sample kern (tempered_lpdf t T) d (pt_n_steps pt) (walker_key k (length xs) c) (nth c xs []) = Ok tr) /\
     nth c xs' [] = end_of kern (tempered_lpdf t T) d (pt_n_steps pt) (walker_key k (length xs) c) (nth c xs [])) /\
  exists pl' pb' tl' tb' training', pt_setup w' pt kern t pl' pb' tl' tb' training' /\ temps_of tb' = [T].
Proof.
  intros pt k xs d w kern t pl pb tl tb tr T k' xs' w' SU HT KD LX H.
  destruct (single_call pt kern t d T _ KD k xs w k' xs' w' (ex_intro _ pl (ex_intro _ pb (ex_intro _ tl (ex_intro _ tb (ex_intro _ tr (conj SU HT)))))) LX eq_refl H) as (A & B & C).
  split; [exact A|]. split; [exact C|exact B].
Qed.
(** C99.  So any number of such calls is a run of the local sampler in pieces of n_steps, chain by chain. *)
Theorem C99_calls : forall pt ks xs d w kern t pl pb tl tb training T dim ys,
  pt_setup w pt kern t pl pb tl tb training -> temps_of tb = [T] ->
  keeps_dim kern t d dim -> xs <> [] -> (forall x, In x xs -> length x = dim) ->
  pt_calls pt d ks xs w = Ok ys ->
  length ys = length xs /\
  forall c, c < length xs ->
    nth c ys [] = fold_left (fun x k => end_of kern (tempered_lpdf t T) d (pt_n_steps pt) (walker_key k (length xs) c) x) ks (nth c xs []).
Proof.
  intros pt ks xs d w kern t pl pb tl tb tr T dim ys SU HT KD NE LX H.
  exact (single_calls pt kern t d T dim KD ks xs w ys (ex_intro _ pl (ex_intro _ pb (ex_intro _ tl (ex_intro _ tb (ex_intro _ tr (conj SU HT)))))) NE LX H).
Qed.
End Gen.

(** Two chains, one temperature, training. *)
Definition s_pb : @buffer ZNum := @mkBuffer ZNum "tp" (@mkArr ZNum [2; 0; 1] (fun _ => 0%Z)) 0 2.
Definition s_tb : @buffer ZNum := @mkBuffer ZNum "tm" (@mkArr ZNum [1] (fun _ => 1%Z)) 0 0.
Definition s_world : @world ZNum ZRng ZNF := @mkWorld ZNum ZRng ZNF
  [OBuf s_pb; OBuf s_tb; OState (mkState "st" [("training"%string, SBool true)])]
  [("tp", RObj 0); ("tm", RObj 1); ("st", RObj 2);
   ("k", RSer (@grw_kernel ZNum ZRng (@SScalar ZNum 1%Z))); ("t", RTemp zt)]%string.
Example C99_case_setup : forall n, pt_setup s_world (zpt n) (@grw_kernel ZNum ZRng (@SScalar ZNum 1%Z)) zt 0 s_pb 1 s_tb true /\ temps_of s_tb = [1%Z].
Proof. intros. split; [|reflexivity]. split; try reflexivity; try (split; reflexivity). exists 2, (mkState "st" [("training"%string, SBool true)]), (SBool true). repeat split. Qed.
Example C99_case_run : exists ys, @pt_calls ZNum ZRng ZNF (zpt 2) [] [[]; [3]; [5; 1]] [[9]; [4]]%Z s_world = Ok ys /\ nth 0 ys [] <> [9]%Z /\ nth 1 ys [] <> [4]%Z.
Proof. eexists. split; [vm_compute; reflexivity|]. vm_compute. split; discriminate. Qed.

Print Assumptions C99_call.
Print Assumptions C99_calls.
