(** Properties of the results of fit and populate and of the arguments of populate: C84-C88.  [fit_dict sv rp t b] is fit with the
    full dictionary it returns; [rp] is what the solver reports about its run, [t] the time it took. *)
From Verif Require Import Spec_info Proofs_concrete Proofs_scen Proofs_builder8 Proofs_dict.
#[local] Open Scope string_scope.
#[local] Open Scope list_scope.
#[local] Open Scope Qc_scope.

(** * C84.  Every result is consistent: it shows the solution of the theorems above, or that there is none, in all its entries. *)
Theorem C84_fit_result : forall sv rp t b b1 d, fit_dict sv rp t b = Ok (b1, d) ->
  exists r, fit sv b = Ok (b1, r) /\ shows (length (bd_w b)) d r /\ d_runtime d = Fin t.
Proof. exact c84_fit. Qed.
Print Assumptions C84_fit_result.
Theorem C84_report : forall sv rp t b b1 d, fit_dict sv rp t b = Ok (b1, d) -> exists ms, bd_mip b = Some ms /\ reports (bd_kind b) (rp (bd_calls b) (ms_mip ms)) d.
Proof. exact c84_report. Qed.
Print Assumptions C84_report.
Theorem C84_fit_returns : forall sv rp t b b1 r, fit sv b = Ok (b1, r) -> exists d, fit_dict sv rp t b = Ok (b1, d) /\ shows (length (bd_w b)) d r.
Proof. exact c84_fit_total. Qed.
Print Assumptions C84_fit_returns.
(** populate returns the same solutions as in the theorems on populate.  The full property includes their runtime; that is
    false of the code: populate never fills it in. *)
Theorem C84_populate_runtime_refuted : forall sv rp fuel total et b b1 l, populate_call sv rp fuel total et b = Some (Ok (b1, l)) -> Forall (fun d => d_runtime d = Fin 0) l.
Proof.
  intros sv rp fuel total et b b1 l H. unfold populate_call in H. destruct (bd_mip b); [|discriminate H].
  destruct (let! n := parse_total total in let! e := parse_enum et in Ok (n, e)) as [[n e]|]; [|discriminate H].
  pose proof (loop_dicts sv rp e fuel n b) as K. rewrite H in K. destruct (populate_loop sv fuel n e b) as [[[b2 l']|]|]; [apply K|destruct K|destruct K].
Qed.
Print Assumptions C84_populate_runtime_refuted.
Theorem C84_populate_results_partial : forall sv rp fuel total et b b1 l, populate_call sv rp fuel total et b = Some (Ok (b1, l)) ->
  exists n e l', asks_for total n /\ names_enum et e /\ populate sv fuel n e b = Some (Ok (b1, l')) /\ Forall2 shows_solution l l'.
Proof.
  intros sv rp fuel total et b b1 l H. pose proof H as H0. unfold populate_call in H. destruct (bd_mip b); [|discriminate H].
  destruct (parse_total total) as [n|] eqn:Hn; cbn [bind] in H; [|discriminate H]. destruct (parse_enum et) as [e|] eqn:He; cbn [bind] in H; [|discriminate H].
  apply parse_total_spec in Hn. apply parse_enum_spec in He. exists n, e. pose proof (c87_call sv rp fuel total et b n e Hn He) as K. rewrite H0 in K.
  destruct (populate sv fuel n e b) as [[[b2 l']|]|]; try (destruct K; fail). destruct K as (<- & K & _). eauto 6.
Qed.
Print Assumptions C84_populate_results_partial.
Example C84_nonvacuous : forall (k : backend) (ct : cost_type) rp t, exists b0 b1 d, (exists b, forall sv, assigned env0 sv b [z 0; z 1] b0) /\ (exists sv, fit_dict sv rp t b0 = Ok (b1, d)) /\ d_feasible d = false /\ d_actions d = [NaN; NaN].
Proof.
  intros k ct rp t. destruct (regular_case k ct) as (b & b0 & HA & _ & _ & _ & _ & Hk & _). exists b0.
  destruct (HA (fun _ _ => SInfeasible)) as [_ HX]. destruct (Proofs_session.assigned_good env0 (fun _ _ => SInfeasible) b [z 0; z 1] b0 env0_ok (HA _)) as (ms & G & _ & (_ & K2 & _) & _ & _ & _ & L1 & L2 & _).
  pose proof (Proofs_enum.gd_mip _ _ _ G) as Hm. eexists _, _. split; [exists b; exact HA|]. split.
  - exists (fun _ _ => SInfeasible). unfold fit_dict, solve_mip. rewrite Hm. cbn [bind]. unfold get_dict. cbn [with_mip with_call bd_mip bd_sol bind]. reflexivity.
  - cbn [with_mip with_call bd_kind bd_cost bd_w]. rewrite K2, L1, <- L2. destruct (bd_kind b0); split; reflexivity.
Qed.

(** * C85.  The full property: lowerbound is at most the cost of every action that reaches the desired outcome.  False of the code
      when the solver was stopped without a solution, for both back ends ... *)
Theorem C85_stopped_refuted : forall k, exists b b0 x a sv, (forall sv', assigned env0 sv' b x b0) /\ plain_setup env0 b x /\ bd_kind b = k /\ acceptable b x a /\ sound_solver sv /\
  forall rp t, exists b1 d, fit_dict sv rp t b0 = Ok (b1, d) /\ d_lowerbound d = PosInf.
Proof. exact c85_stopped_refuted. Qed.
Print Assumptions C85_stopped_refuted.
(** ... and for the cost type 'max', where it exceeds the cost of the returned action as soon as the gap is closed. *)
Theorem C85_max_refuted : forall k, exists b b0 x, (forall sv, assigned env0 sv b x b0) /\ plain_setup env0 b x /\ regular env0 (bd_A b) x /\ bd_kind b = k /\ bd_cost b = CMax /\
  forall sv rp t, sound_solver sv -> finishing_solver sv -> exists b1 d, fit_dict sv rp t b0 = Ok (b1, d) /\ d_feasible d = true /\
    (d_lowerbound d = d_upperbound d -> ~ fle (d_lowerbound d) (d_cost d)).
Proof. exact c85_max_refuted. Qed.
Print Assumptions C85_max_refuted.
(** What holds, for solvers whose own bounds are correct: for 'total' and 'local' it is a lower bound whenever an action is
    returned or the solver finishes ... *)
Theorem C85_lower_bound_partial : forall E sv rp b x b0 t b1 d a cs,
  ok_env E -> sound_solver sv -> honest rp -> assigned E sv b x b0 -> density E -> log_ok E (bd_cost b) -> good_setup E b x -> regular E (bd_A b) x -> bd_cost b <> CMax ->
  fit_dict sv rp t b0 = Ok (b1, d) -> d_feasible d = true \/ finishing_solver sv ->
  permitted_action (bd_A b) x a -> (Z.of_nat (n_changed a) <= bd_max b)%Z -> on_side (as_y (bd_A b)) (score (bd_w b) (bd_t b) (vadd x a)) -> compliant (bd_A b) x a ->
  action_costs E (bd_cost b) (bd_A b) x a cs -> fle (d_lowerbound d) (Fin (qsum cs)).
Proof. intros E sv rp b x b0 t b1 d a cs HE HS HR HA HD HL HG HRg. exact (c85_sum E sv rp b x b0 HE HS HR HA HD HL HG HRg t b1 d a cs). Qed.
Print Assumptions C85_lower_bound_partial.
(** ... and for 'max' up to the difference of the prices of any two changes offered for one feature. *)
Theorem C85_lower_bound_max_partial : forall E sv rp b x b0 t b1 d a cs m j e xj u v c c',
  ok_env E -> sound_solver sv -> honest rp -> assigned E sv b x b0 -> density E -> log_ok E (bd_cost b) -> good_setup E b x -> regular E (bd_A b) x -> bd_cost b = CMax ->
  fit_dict sv rp t b0 = Ok (b1, d) -> d_feasible d = true \/ finishing_solver sv ->
  permitted_action (bd_A b) x a -> (Z.of_nat (n_changed a) <= bd_max b)%Z -> on_side (as_y (bd_A b)) (score (bd_w b) (bd_t b) (vadd x a)) -> compliant (bd_A b) x a ->
  action_costs E (bd_cost b) (bd_A b) x a cs -> largest cs m ->
  nth_error (as_elems (bd_A b)) j = Some e -> nth_error x j = Some xj -> (exists wj, nth_error (bd_w b) j = Some wj /\ wj <> 0) ->
  permitted e xj u -> improving e xj u -> permitted e xj v -> improving e xj v ->
  move_cost E (bd_cost b) e xj u c -> move_cost E (bd_cost b) e xj v c' -> c < c' ->
  fle (d_lowerbound d) (Fin (m + (c' - c))).
Proof. intros E sv rp b x b0 t b1 d a cs m j e xj u v c c' HE HS HR HA HD HL HG HRg. exact (c85_max E sv rp b x b0 HE HS HR HA HD HL HG HRg t b1 d a cs m j e xj u v c c'). Qed.
Print Assumptions C85_lower_bound_max_partial.
(** Reporters with correct bounds exist; the other hypotheses are met by regular_case in Props_builder.v. *)
Example C85_nonvacuous : honest (fun _ _ => {| rp_status := "optimal"; rp_bound := NegInf; rp_gap := Fin 0; rp_iterations := Fin 1; rp_processed := Fin 1; rp_remaining := Fin 0 |}).
Proof. intros n m s _. exact I. Qed.

(** * C86.  The full property: upperbound is the cost of the returned action.  False of the code for 'max', where it is larger. *)
Theorem C86_max_refuted : forall E sv rp b x b0 l b1 t b2 d,
  ok_env E -> sound_solver sv -> assigned E sv b x b0 -> density E -> log_ok E (bd_cost b) -> orderly E (bd_A b) (bd_w b) x -> flips_match (bd_A b) (bd_w b) -> regular E (bd_A b) x ->
  bd_cost b = CMax -> session sv b0 l b1 -> fit_dict sv rp t b1 = Ok (b2, d) -> d_feasible d = true ->
  exists p q, d_cost d = Fin p /\ d_upperbound d = Fin q /\ p < q.
Proof. intros E sv rp b x b0 l b1 t b2 d HE HS HA. exact (c86_above E sv rp b x b0 HE HS HA l b1 t b2 d). Qed.
Print Assumptions C86_max_refuted.
(** For 'total' and 'local' it is equal, in every call on the individual; for 'max' the excess is at most the difference of the
    prices of any two changes offered for one feature. *)
Theorem C86_equal_partial : forall E sv rp b x b0 l b1 t b2 d,
  ok_env E -> sound_solver sv -> assigned E sv b x b0 -> bd_cost b <> CMax -> session sv b0 l b1 -> fit_dict sv rp t b1 = Ok (b2, d) -> d_upperbound d = d_cost d.
Proof. intros E sv rp b x b0 l b1 t b2 d HE HS HA. exact (c86_equal E sv rp b x b0 HE HS HA l b1 t b2 d). Qed.
Print Assumptions C86_equal_partial.
Theorem C86_max_partial : forall E sv rp b x b0 l b1 t b2 d j e xj u v c c',
  ok_env E -> sound_solver sv -> assigned E sv b x b0 -> density E -> log_ok E (bd_cost b) -> orderly E (bd_A b) (bd_w b) x -> flips_match (bd_A b) (bd_w b) -> regular E (bd_A b) x ->
  bd_cost b = CMax -> session sv b0 l b1 -> fit_dict sv rp t b1 = Ok (b2, d) -> d_feasible d = true ->
  nth_error (as_elems (bd_A b)) j = Some e -> nth_error x j = Some xj -> (exists wj, nth_error (bd_w b) j = Some wj /\ wj <> 0) ->
  permitted e xj u -> improving e xj u -> permitted e xj v -> improving e xj v ->
  move_cost E (bd_cost b) e xj u c -> move_cost E (bd_cost b) e xj v c' -> c < c' ->
  exists p q, d_cost d = Fin p /\ d_upperbound d = Fin q /\ p < q /\ q <= p + (c' - c).
Proof. intros E sv rp b x b0 l b1 t b2 d j e xj u v c c' HE HS HA. exact (c86_max E sv rp b x b0 HE HS HA l b1 t b2 d j e xj u v c c'). Qed.
Print Assumptions C86_max_partial.
Example C86_nonvacuous : forall k ct, exists b b0, (forall sv, assigned env0 sv b [z 0; z 1] b0) /\ plain_setup env0 b [z 0; z 1] /\ regular env0 (bd_A b) [z 0; z 1] /\ bd_kind b = k /\ bd_cost b = ct /\
  forall sv rp t, sound_solver sv -> finishing_solver sv -> exists b1 d, fit_dict sv rp t b0 = Ok (b1, d) /\ d_feasible d = true.
Proof.
  intros k ct. destruct (regular_case k ct) as (b & b0 & HA & HP & HR & _ & _ & Hk & Hc & _ & _ & _ & HF). exists b, b0. repeat (split; [assumption|]).
  intros sv rp t HS HFi. destruct (HF sv HS HFi) as (b1 & s & Hf). destruct (c84_fit_total sv rp t _ _ _ Hf) as (d & Hd & Hs). exists b1, d. split; [exact Hd|apply Hs].
Qed.

(** * C87.  populate accepts positive ints and inf for total_items and the two documented enumeration types (and, for flipsets, the three
      cost types) and does what the other theorems say; everything else is rejected before the solver is called. *)
Theorem C87_accepted : forall sv rp fuel total et b n e, asks_for total n -> names_enum et e ->
  match populate_call sv rp fuel total et b, populate sv fuel n e b with
  | None, None => True
  | Some (Ok (b1, l)), Some (Ok (b2, l')) => b1 = b2 /\ Forall2 shows_solution l l' /\ Forall (fun d => d_runtime d = Fin 0) l
  | Some (Err e), Some (Err e') => e = e'
  | _, _ => False end.
Proof. exact c87_call. Qed.
Print Assumptions C87_accepted.
Theorem C87_rejected : forall sv rp fuel total et b, (forall n e, ~ (asks_for total n /\ names_enum et e)) ->
  exists e, populate_call sv rp fuel total et b = Some (Err e) /\ (e = AssertionError \/ e = TypeError).
Proof. exact c87_reject. Qed.
Print Assumptions C87_rejected.
Theorem C87_flipset_accepted : forall E sv srt fuel total et ct f n e c, asks_for total n -> names_enum et e -> names_cost ct c ->
  f_populate_call E sv srt fuel total et ct f = f_populate E sv srt fuel n e c f.
Proof. exact c87_flip_ok. Qed.
Print Assumptions C87_flipset_accepted.
Theorem C87_flipset_rejected : forall E sv srt fuel total et ct f, (forall n e c, ~ (asks_for total n /\ names_enum et e /\ names_cost ct c)) ->
  exists f' e, f_populate_call E sv srt fuel total et ct f = Some (f', Err e) /\ f_df f' = f_df f /\ (f' = f \/ exists b, f' = f_with_builder f (Some b)).
Proof. exact c87_flip_bad. Qed.
Print Assumptions C87_flipset_rejected.
Example C87_nonvacuous : asks_for (PInt 5) (Some 5%nat) /\ asks_for (PFloat PosInf) None /\ (forall v n, v = PInt 0 \/ v = PNpInt 5 \/ v = PFloat (Fin (qz 5)) \/ v = PBool false \/ v = PNone -> ~ asks_for v n) /\
  names_enum (PStr "distinct_subsets") DistinctSubsets /\ forall e, ~ names_enum (PStr "all") e.
Proof.
  split; [left; exists 5%nat; repeat split; lia|]. split; [right; right; auto|]. split.
  - intros v n Hv H. apply parse_total_spec in H. destruct Hv as [->|[->|[->|[->| ->]]]]; discriminate H.
  - split; [reflexivity|]. intros e H. apply parse_enum_spec in H. discriminate H.
Qed.

(** * C88.  The full property: a mip_cost_type other than 'total', 'local', 'max' is rejected.  False of the code: the builder
      accepts it wherever it accepts 'total'. *)
Theorem C88_unknown_cost_type_refuted : forall E k A a x b0, mk_builder E k A a CTotal (Some x) = Ok b0 -> exists n ms, other_builder E k A a x = Ok (n, ms).
Proof. exact other_accepted. Qed.
Print Assumptions C88_unknown_cost_type_refuted.
(** But no action is ever returned with it: fit raises or reports that there is none; and what is rejected with 'total', other than
    for having nothing to change, is rejected. *)
Theorem C88_no_action_partial : forall E sv k A a x n ms, sound_solver sv -> other_builder E k A a x = Ok (n, ms) -> forall s, fit_other sv k n ms <> Ok (Some s).
Proof. exact other_no_action. Qed.
Print Assumptions C88_no_action_partial.
Theorem C88_rejected_like_total_partial : forall E k A a x e, mk_builder E k A a CTotal (Some x) = Err e -> e <> KeyError -> other_builder E k A a x = Err e.
Proof. exact other_rejected_same. Qed.
Print Assumptions C88_rejected_like_total_partial.
Example C88_nonvacuous : ok_and (sc_aset (sc2 PyMIP CTotal 0)) (fun A => match mk_builder env0 PyMIP A (coef_args [qz 1; qz 1] 0) CTotal (Some [qz 0; qz 1]) with Ok _ => true | Err _ => false end) = true.
Proof. vm_compute. reflexivity. Qed.
