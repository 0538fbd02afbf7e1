(** Proofs for C134: counterexamples and a case. *)
From Verif Require Import Spec_origin Spec_setup Proofs_props_element Proofs_props_actionset Proofs_actionset Proofs_num Proofs_setup Proofs_concrete Proofs_scen Proofs_audit4 Proofs_flipset3 Proofs_units4 Proofs_origin Proofs_origin2.
#[local] Open Scope string_scope.
#[local] Open Scope list_scope.
#[local] Open Scope Qc_scope.

(** ** Refutations *)
Definition X134 : list (list Qc) := [[z 0]; [z 1]; [z 2]].
Definition half : Qc := qfrac 1 2.
Lemma origin_types : exists A A', mk_action_set X134 ["a"] 1 [] default_bounds default_step_type = Ok A /\ mk_action_set (map (moved [half]) X134) ["a"] 1 [] default_bounds default_step_type = Ok A' /\
  (exists a, permitted_action A [z 0] a /\ on_side 1 (score [z 1] (- z 2) (vadd [z 0] a))) /\
  forall a, permitted_action A' (moved [half] [z 0]) a -> ~ on_side 1 (score [z 1] (- z 2 - dot [z 1] [half]) (vadd (moved [half] [z 0]) a)).
Proof.
  assert (HT : match mk_action_set X134 ["a"] 1 [] default_bounds default_step_type, mk_action_set (map (moved [half]) X134) ["a"] 1 [] default_bounds default_step_type with
    | Ok A, Ok A' => permittedb A [z 0] [z 2] && on_sideb 1 (score [z 1] (- z 2) (vadd [z 0] [z 2])) && none_on_side A' [z 1] (- z 2 - dot [z 1] [half]) 1 (moved [half] [z 0]) | _, _ => false end = true) by (vm_compute; reflexivity).
  destruct (mk_action_set X134 ["a"] 1 [] default_bounds default_step_type) as [A|] eqn:H1; [|discriminate HT]. destruct (mk_action_set (map (moved [half]) X134) ["a"] 1 [] default_bounds default_step_type) as [A'|] eqn:H2; [|discriminate HT].
  apply andb_true_iff in HT. destruct HT as [HT T3]. apply andb_true_iff in HT. destruct HT as [T1 T2]. exists A, A'. split; [reflexivity|]. split; [reflexivity|].
  split; [exists [z 2]; split; [now apply permittedb_ok|now apply on_sideb_iff]|now apply none_on_side_ok].
Qed.
(** A yes/no answer given by one person in 151. *)
Definition flag134 : list (list Qc) := repeat [z 0] 150 ++ [[z 1]].
Lemma origin_flag : (exists A, mk_action_set flag134 ["a"] 1 [] default_bounds default_step_type = Ok A) /\ mk_action_set (map (moved [z 1]) flag134) ["a"] 1 [] default_bounds default_step_type = Err ValueError.
Proof.
  assert (HT : match mk_action_set flag134 ["a"] 1 [] default_bounds default_step_type, mk_action_set (map (moved [z 1]) flag134) ["a"] 1 [] default_bounds default_step_type with Ok _, Err ValueError => true | _, _ => false end = true) by (vm_compute; reflexivity).
  destruct (mk_action_set flag134 ["a"] 1 [] default_bounds default_step_type) as [A|]; [|discriminate HT]. destruct (mk_action_set (map (moved [z 1]) flag134) ["a"] 1 [] default_bounds default_step_type) as [A'|[]]; try discriminate HT. split; [now exists A|reflexivity].
Qed.
(** With a limit on a group of features, the value 0 is special. *)
Definition X134l : list (list Qc) := [[z 0; z 0]; [z 1; z 1]; [z 2; z 2]; [z 3; z 3]].
Definition lim134 : aset_op := OAdd ["a"; "b"] (z 0) (z 1) (Some "one").
Definition oks134 (E : env) (ds x : list Qc) (t : Qc) (f : res unit -> bool) : bool :=
  match mk_action_set (map (moved ds) X134l) ["a"; "b"] 1 [] default_bounds default_step_type with
  | Ok A0 => match mk_builder E PyMIP (aset_run E A0 [lim134]) (coef_args [z 1; z 1] t) CMax None with Ok b => f (snd (set_x E b x)) | _ => false end
  | _ => false end.
Lemma oks134_ok ds x t f : oks134 env0 ds x t f = true -> exists A0 b, mk_action_set (map (moved ds) X134l) ["a"; "b"] 1 [] default_bounds default_step_type = Ok A0 /\
  mk_builder env0 PyMIP (aset_run env0 A0 [lim134]) (coef_args [z 1; z 1] t) CMax None = Ok b /\ f (snd (set_x env0 b x)) = true.
Proof.
  unfold oks134. destruct (mk_action_set (map (moved ds) X134l) ["a"; "b"] 1 [] default_bounds default_step_type) as [A0|]; [|discriminate]. destruct (mk_builder env0 PyMIP (aset_run env0 A0 [lim134]) (coef_args [z 1; z 1] t) CMax None) as [b|] eqn:Hb; [|discriminate].
  intro H. exists A0, b. auto.
Qed.
Lemma X134l_zero : map (moved [z 0; z 0]) X134l = X134l.
Proof. apply lists_eqb. vm_compute. reflexivity. Qed.
Lemma origin_limits : exists A A' b b', mk_action_set X134l ["a"; "b"] 1 [] default_bounds default_step_type = Ok A /\ mk_action_set (map (moved [z 1; z 0]) X134l) ["a"; "b"] 1 [] default_bounds default_step_type = Ok A' /\
  mk_builder env0 PyMIP (aset_run env0 A [lim134]) (coef_args [z 1; z 1] (- z 2)) CMax None = Ok b /\
  mk_builder env0 PyMIP (aset_run env0 A' [lim134]) (coef_args [z 1; z 1] (- z 2 - dot [z 1; z 1] [z 1; z 0])) CMax None = Ok b' /\
  snd (set_x env0 b [z 0; z 0]) = Ok tt /\ snd (set_x env0 b' (moved [z 1; z 0] [z 0; z 0])) = Err IndexError.
Proof.
  assert (H1 : oks134 env0 [z 0; z 0] [z 0; z 0] (- z 2) (fun r => match r with Ok tt => true | _ => false end) = true) by (vm_compute; reflexivity).
  assert (H2 : oks134 env0 [z 1; z 0] (moved [z 1; z 0] [z 0; z 0]) (- z 2 - dot [z 1; z 1] [z 1; z 0]) (fun r => match r with Err IndexError => true | _ => false end) = true) by (vm_compute; reflexivity).
  apply oks134_ok in H1, H2. rewrite X134l_zero in H1. destruct H1 as (A & b & P1 & P2 & P3). destruct H2 as (A' & b' & Q1 & Q2 & Q3). exists A, A', b, b'. do 4 (split; [assumption|]).
  split; [destruct (snd (set_x env0 b [z 0; z 0])) as [[]|]; [reflexivity|discriminate P3]|]. destruct (snd (set_x env0 b' _)) as [|[]]; try discriminate Q3; reflexivity.
Qed.

(** ** A case: one real-valued column shifted by 273.15, one of whole numbers by -3 *)
Lemma env_u_moves : moves_along env_u.
Proof.
  intros vs d. change (kde env_u vs) with (uniform (qsort vs)). change (kde env_u (map (fun v => v + d) vs)) with (uniform (qsort (map (pl d) vs))). rewrite pl_sort. destruct (qsort vs) as [|u l]; [exact I|]. unfold uniform. cbn [map].
  change (pl d u :: map (pl d) l) with (map (pl d) (u :: l)). assert (K : last (map (pl d) (u :: l)) (pl d u) - pl d u = last (u :: l) u - u).
  { assert (L : forall m v, last (map (pl d) m) (pl d v) = pl d (last m v)) by (intros m v; induction m as [|a [|b m] IH]; [reflexivity|reflexivity|exact IH]). rewrite L. unfold pl. ring. }
  rewrite K. destruct (last (u :: l) u - u <=? 0); [exact I|]. intro v. reflexivity.
Qed.
Definition X134c : list (list Qc) := [[z 0; z 0]; [half; z 1]; [z 1; z 2]; [qfrac 3 2; z 3]; [z 2; z 4]].
Definition ds134 : list Qc := [qfrac 27315 100; - z 3].
Definition ops134 : list aset_op := [OSetAttr "step_type" (PStr "absolute"); OSetAttr "step_size" (PFloat (Fin (qfrac 1 4))); OUpdateGrid 0; OIndexSet (IStr "b") "step_direction" (PInt 1)].
Definition x134 : list Qc := [half; z 1].
Definition sc134 := mk env_u X134c ["a"; "b"] 1 ops134 PyMIP [z 1; z 1] (- z 4) CMax x134.
Definition moves134 (r : option (list Qc * list Qc * Qc)) : bool := match r with Some (a, _, _) => negb (listeqb a [z 0; z 0]) | None => false end.
#[local] Transparent sc_run sc_builder sc_aset.
Lemma sc_set c b b0 : sc_run c = Ok (b, b0) -> set_x (sc_env c) b (sc_x c) = (b0, Ok tt).
Proof. unfold sc_run. intro H. destruct (sc_builder c) as [b2|]; [|discriminate H]. cbn [bind] in H. destruct (set_x (sc_env c) b2 (sc_x c)) as [b3 [[]|]] eqn:Q; [|discriminate H]. cbn [bind] in H. injection H as <- <-. exact Q. Qed.
#[global] Opaque sc_run sc_builder sc_aset.
Lemma builder_with E k A args ct x b b0 : mk_builder E k A args ct None = Ok b -> set_x E b x = (b0, Ok tt) -> mk_builder E k A args ct (Some x) = Ok b0.
Proof.
  unfold mk_builder. destruct (parse_classifier_args args) as [[w t]|]; [|discriminate]. cbn [bind]. destruct (passert (Nat.eqb (as_len A) (length w))); [|discriminate]. cbn [bind].
  match goal with |- (let! _ := ?r in _) = _ -> _ => destruct r as [A2|] end; [|discriminate]. cbn [bind]. intros H K. injection H as <-. now rewrite K.
Qed.
Lemma ops134_free : Forall position_free ops134.
Proof. apply Forall_forall. intros o [<-|[<-|[<-|[<-|[]]]]]; cbn; tauto. Qed.
Lemma not_int v : is_integer v = false -> ~ is_int v.
Proof. intros H K. apply is_integer_iff in K. congruence. Qed.
Lemma change134 : origin_change X134c ["a"; "b"] ds134.
Proof.
  split; [reflexivity|]. intros [|[|j]] d Hd _; cbn in Hd; [injection Hd as <-; left|injection Hd as <-; right|destruct j; discriminate Hd].
  - split; [exists half; split; [right; now left|apply not_int; vm_compute; reflexivity]|exists (z 0); split; [now left|apply not_int; vm_compute; reflexivity]].
  - split; [exists (-3)%Z; reflexivity|]. split; [intros v Hv; apply is_integer_iff; repeat (destruct Hv as [<-|Hv]; [reflexivity|]); destruct Hv|].
    split; [exists (z 2); split; [right; right; now left|split; intro K; discriminate K]|]. exists (z 1). split; [right; now left|]. split; intro K; discriminate K.
Qed.
Lemma origin_case : exists A A' b, other_zeros env_u X134c ds134 A A' /\ moves_along env_u /\ ok_env env_u /\ length x134 = as_len A /\ like_rows X134c x134 /\
  mk_builder env_u PyMIP A (coef_args [z 1; z 1] (- z 4)) CMax (Some x134) = Ok b /\
  (forall sv, sound_solver sv -> finishing_solver sv -> exists b1 s, fit sv b = Ok (b1, Some s) /\ s_actions s <> [z 0; z 0]) /\ moved ds134 x134 = [qfrac 27365 100; - z 2].
Proof.
  assert (H1 : sc_check sc134 (fun b b0 => fit_test b0 moves134) = true) by (vm_compute; reflexivity). apply sc_check_ok in H1. destruct H1 as (b & b0 & R1 & T1). destruct (sc_parts _ _ _ R1) as (A0 & P1 & P2). pose proof (sc_set _ _ _ R1) as SX.
  assert (HT : match mk_action_set (map (moved ds134) X134c) ["a"; "b"] 1 [] default_bounds default_step_type with Ok _ => true | _ => false end = true) by (vm_compute; reflexivity).
  destruct (mk_action_set (map (moved ds134) X134c) ["a"; "b"] 1 [] default_bounds default_step_type) as [A0'|] eqn:P1'; [|discriminate HT].
  cbn [sc134 mk sc_X Proofs_concrete.sc_names sc_y sc_env sc_kind sc_ops sc_w sc_t sc_cost sc_x] in *.
  exists (aset_run env_u A0 ops134), (aset_run env_u A0' ops134), b0.
  assert (HZ : other_zeros env_u X134c ds134 (aset_run env_u A0 ops134) (aset_run env_u A0' ops134)).
  { exists ["a"; "b"], 1%Z, [], default_bounds, default_step_type, A0, A0', ops134. split; [exact change134|]. split; [exact default_pct|]. split; [discriminate|]. split; [exact ops134_free|]. auto. }
  split; [exact HZ|]. split; [exact env_u_moves|]. split; [exact env_u_ok|].
  split; [pose proof (other_zeros_spec _ _ _ _ _ HZ) as (_ & _ & L & _); rewrite <- L; reflexivity|].
  split; [apply rows_like_rows; right; now left|]. split; [exact (builder_with _ _ _ _ _ _ _ _ P2 SX)|].
  split; [|apply listeqb_ok; vm_compute; reflexivity]. intros sv HS HF. destruct (sc_fit _ _ _ _ R1 env_u_ok T1 sv HS HF) as (b1 & [s|] & Hf & Ht); [|discriminate Ht]. exists b1, s. split; [exact Hf|].
  intro Q. cbn [moves134] in Ht. apply negb_true_iff in Ht. rewrite Q in Ht. vm_compute in Ht. discriminate Ht.
Qed.
