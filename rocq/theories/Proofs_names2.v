(** A case for the theorems about names. *)
From Coq Require Import Strings.String.
From Verif Require Import Proofs_props_element Proofs_props_actionset Spec_names Proofs_names Proofs_concrete Proofs_scen Proofs_scen2 Proofs_audit3.
#[local] Open Scope string_scope.
#[local] Open Scope list_scope.
#[local] Open Scope Qc_scope.
Definition sc58 k := mk env0 tab3 ["a"; "b"; "c"] 1 [OAdd ["a"; "b"] (z 0) (z 1) (Some "one")] k [z 1; z 1; z 1] (- z 2) CMax [z 0; z 0; z 0].
Definition has_names (b0 : builder) (vs rs : list string) : bool :=
  match bd_mip b0 with Some ms => forallb (fun s => existsb (String.eqb s) (map var_name (registered (ms_mip ms)))) vs && forallb (fun s => existsb (String.eqb s) (given_row_names (bd_kind b0) (ms_mip ms))) rs | None => false end.
Lemma has_names_ok b0 vs rs : has_names b0 vs rs = true -> exists ms, bd_mip b0 = Some ms /\ incl vs (map var_name (registered (ms_mip ms))) /\ incl rs (given_row_names (bd_kind b0) (ms_mip ms)).
Proof.
  unfold has_names. destruct (bd_mip b0) as [ms|]; [|intro H; discriminate H]. intro H. apply andb_true_iff in H. destruct H as [H1 H2]. exists ms. split; [reflexivity|].
  rewrite forallb_forall in H1, H2. split; intros s Hs; [apply H1 in Hs|apply H2 in Hs]; apply existsb_exists in Hs; destruct Hs as (s' & Hs & E); apply String.eqb_eq in E; now subst.
Qed.
Definition some_rows (k : backend) : list string := match k with CPX => ["score"; "pick_a[2]"; "subset_limit_one"; "max_items"; "set_max_cost[0]"] | PyMIP => ["flip_prediction"; "pick_a['2']"; "constr_0_lb"; "constr_0_ub"; "min_items"] end.
Lemma c58_case k : exists b, (forall sv, builder_reachable env0 sv b) /\ exists ms, bd_mip b = Some ms /\
  incl ["a[0]"; "u[0][1]"; "u[1][0]"; "c[2]"; "max_cost"] (map var_name (registered (ms_mip ms))) /\ incl (some_rows k) (given_row_names (bd_kind b) (ms_mip ms)).
Proof.
  destruct (sc_check_ok (sc58 k) (fun b b0 => has_names b0 ["a[0]"; "u[0][1]"; "u[1][0]"; "c[2]"; "max_cost"] (some_rows k))) as (b & b0 & HR & H).
  { destruct k; vm_compute; reflexivity. }
  exists b0. split; [|apply has_names_ok, H]. intro sv. pose proof (sc_assigned _ _ _ HR sv) as [H1 H2]. change (sc_env (sc58 k)) with env0 in H1, H2.
  pose proof (Proofs_audit3.reach_set_x env0 sv b (sc_x (sc58 k)) H1) as K. rewrite H2 in K. exact K.
Qed.
