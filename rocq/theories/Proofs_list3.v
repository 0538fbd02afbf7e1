(** A concrete flipset for C126. *)
From Verif Require Import Proofs_props_element Proofs_props_actionset Spec_list Spec_audit Proofs_mip Proofs_info Proofs_session Proofs_recourse Proofs_subset Proofs_concrete Proofs_builder3 Proofs_builder6 Proofs_builder7 Proofs_builder8 Proofs_scen Proofs_scen2 Proofs_flipset Proofs_flipset2 Proofs_flipset3 Proofs_audit Proofs_audit2 Proofs_audit3 Proofs_audit4 Proofs_agree Proofs_list2.
#[local] Open Scope list_scope.
#[local] Open Scope Qc_scope.
Definition w11_ : list Qc := [z 1; z 1].
Definition way1 : list Qc := [z 2; z 0].
Definition way2 : list Qc := [z 1; z 2].
Lemma list_case k : exists A f, aset_reachable env0 A /\ alignment_known A = false /\ unconstrained A /\ regular env0 A x01 /\ as_y A = 1%Z /\ denied 1 (score w11_ (- z 3) x01) /\
  flipset_created k A x01 w11_ (- z 3) None f /\ reaches A w11_ (- z 3) x01 way1 /\ reaches A w11_ (- z 3) x01 way2 /\
  forall sv srt fuel et ct, sound_solver sv -> finishing_solver sv -> ok_sorter srt -> (2 ^ as_len A < fuel)%nat -> exists f', f_populate env0 sv srt fuel None et ct f = Some (f', Ok tt) /\ f_items f' <> [].
Proof.
  assert (HT : aud_case (sc2 k CMax (- z 3)) (fun A b => unconstrainedb A && negb (alignment_known A) && (as_y A =? 1)%Z && strictb env0 A x01 && resolvableb A x01 && permittedb A x01 way1 && permittedb A x01 way2 &&
     forallb (fun ct => match mk_builder env0 k A (coef_args w11_ (- z 3)) ct (Some x01) with Ok _ => true | _ => false end) [CTotal; CLocal; CMax]) = true) by (destruct k; vm_compute; reflexivity).
  apply aud_case_ok in HT. destruct HT as (A & b & HA & _ & HT). do 7 (apply andb_true_iff in HT; destruct HT as [HT ?]). change (sc_env (sc2 k CMax (- z 3))) with env0 in *.
  assert (D : denied 1 (score w11_ (- z 3) x01)) by (apply deniedb; vm_compute; reflexivity).
  destruct (flipset_made k A x01 w11_ (- z 3)) as (f & Hf). exists A, f. split; [exact HA|]. split; [now apply negb_true_iff|].
  pose proof (unconstrainedb_ok _ HT) as U. assert (EY : as_y A = 1%Z) by now apply Z.eqb_eq.
  assert (RG : regular env0 A x01) by (split; [now apply strictb_ok|now apply resolvableb_ok]).
  assert (W1 : reaches A w11_ (- z 3) x01 way1). { split; [now apply permittedb_ok|]. split; [now apply unconstrained_compliant|]. rewrite EY. apply on_sideb_iff. vm_compute. reflexivity. }
  assert (W2 : reaches A w11_ (- z 3) x01 way2). { split; [now apply permittedb_ok|]. split; [now apply unconstrained_compliant|]. rewrite EY. apply on_sideb_iff. vm_compute. reflexivity. }
  split; [exact U|]. split; [exact RG|]. split; [exact EY|]. split; [exact D|]. split; [exact Hf|]. split; [exact W1|]. split; [exact W2|].
  intros sv srt fuel et ct HS HF HSr Hfu.
  assert (FR : flipset_reachable env0 sv srt k A x01 w11_ (- z 3) None f) by (exists f, []; split; [exact Hf|reflexivity]).
  assert (F3 : scalar_keys (f_by f)). { destruct Hf as (a & Pa & HCr). unfold mk_flipset in HCr. rewrite Pa in HCr. cbn [bind] in HCr. injection HCr as <-. reflexivity. }
  assert (DA : denied (as_y A) (score w11_ (- z 3) x01)) by now rewrite EY.
  assert (NT : @None nat <> Some 0%nat) by discriminate.
  destruct (c45 env0 sv srt k A x01 w11_ (- z 3) f fuel None et ct env0_ok HS HSr HA FR DA F3 NT Hfu) as [(e & _ & K & _)|(b0 & b1 & l & f1 & K1 & K2 & K3 & _)].
  - exfalso. rewrite forallb_forall in H. assert (In ct [CTotal; CLocal; CMax]) as Hin by (destruct ct; cbn; auto). specialize (H _ Hin). cbv beta in H. rewrite K in H. discriminate H.
  - exists f1. split; [exact K3|]. assert (FL : alignment_known A = false \/ flips_match A w11_) by (left; now apply negb_true_iff).
    destruct (list_complete env0 sv srt k A x01 w11_ (- z 3) f f1 fuel None et ct env0_ok HS HF HSr HA FL DA NT Hfu Hf K3 way1 env0_density) as (v & Hv & _); try assumption.
    + intros _. exact env0_log.
    + now apply unconstrained_orderly.
    + intros _. now apply c37_unconstrained.
    + discriminate.
    + intro Q. rewrite Q in Hv. destruct Hv.
Qed.
