(** The attributes min_items and max_items. *)
From Verif Require Import Proofs_props_element Proofs_props_actionset Spec_recourse.
#[local] Open Scope list_scope.

Lemma limits_fit sv b lo hi : fit sv (with_limits b lo hi) = match fit sv b with Ok (b1, r) => Ok (with_limits b1 lo hi, r) | Err e => Err e end.
Proof. unfold fit, solve_mip. cbn [with_limits bd_mip]. destruct (bd_mip b); reflexivity. Qed.
Lemma limits_exclude et b lo hi : remove_solution et (with_limits b lo hi) = match remove_solution et b with Ok b1 => Ok (with_limits b1 lo hi) | Err e => Err e end.
Proof.
  unfold remove_solution. destruct et; unfold remove_all_features, remove_feature_combination, with_solution; cbn [with_limits bd_mip bd_sol bd_kind];
    destruct (bd_mip b) as [ms|]; try reflexivity; destruct (bd_sol b) as [[s g|s| |]|]; reflexivity.
Qed.
Definition lift_limits (lo hi : Z) (r : option (res (builder * list sol))) : option (res (builder * list sol)) :=
  match r with Some (Ok (b1, l)) => Some (Ok (with_limits b1 lo hi, l)) | r => r end.
Lemma limits_loop sv et lo hi : forall fuel total b, populate_loop sv fuel total et (with_limits b lo hi) = lift_limits lo hi (populate_loop sv fuel total et b).
Proof.
  induction fuel as [|fuel IH]; intros total b; cbn [populate_loop]; destruct total as [[|n]|]; try reflexivity;
    (rewrite limits_fit; destruct (fit sv b) as [[b1 [s|]]|e]; try reflexivity; rewrite limits_exclude; destruct (remove_solution et b1) as [b2|e]; try reflexivity;
     rewrite IH; destruct (populate_loop sv fuel _ et b2) as [[[b3 l]|e]|]; reflexivity).
Qed.
Lemma limits_populate sv fuel total et b lo hi : populate sv fuel total et (with_limits b lo hi) = lift_limits lo hi (populate sv fuel total et b).
Proof. unfold populate. cbn [with_limits bd_mip]. destruct (bd_mip b); [|reflexivity]. destruct total as [[|n]|]; try reflexivity; apply limits_loop. Qed.

(** Same answers. *)
Definition answers_alike (b b' : builder) : Prop :=
  (forall sv r, (exists b1, fit sv b = Ok (b1, r)) <-> (exists b1, fit sv b' = Ok (b1, r))) /\
  (forall sv fuel total et l, (exists b1, populate sv fuel total et b = Some (Ok (b1, l))) <-> (exists b1, populate sv fuel total et b' = Some (Ok (b1, l)))).
Lemma limits_alike b lo hi : answers_alike b (with_limits b lo hi).
Proof.
  split.
  - intros sv r. rewrite limits_fit. split; intros [b1 H]; [rewrite H; eauto|]. destruct (fit sv b) as [[b2 r2]|e]; [|discriminate H]. injection H as _ <-. eauto.
  - intros sv fuel total et l. rewrite limits_populate. split; intros [b1 H]; [rewrite H; cbn; eauto|]. destruct (populate sv fuel total et b) as [[[b2 l2]|e]|]; cbn in H; try discriminate H. injection H as _ <-. eauto.
Qed.
Lemma min_setter b k : (forall b', set_min_items b k = Ok b' -> bd_min b' = match k with None => 0%Z | Some k => k end /\ bd_max b' = bd_max b /\ answers_alike b b') /\
  ((exists e, set_min_items b k = Err e) <-> exists m, k = Some m /\ (m < 0)%Z).
Proof.
  unfold set_min_items. destruct k as [k|].
  - destruct (Z.leb_spec 0 k); split; try discriminate.
    + intros b' H'. injection H' as <-. split; [reflexivity|]. split; [reflexivity|]. apply limits_alike.
    + split; [intros [e K]; discriminate K|]. intros (m & E & K). injection E as <-. lia.
    + split; [intros _; exists k; auto|eauto].
  - split; [intros b' H'; injection H' as <-; split; [reflexivity|]; split; [reflexivity|]; apply limits_alike|]. split; [intros [e K]; discriminate K|intros (m & E & _); discriminate E].
Qed.
Lemma max_setter b k : (forall b', set_max_items b k = Ok b' -> bd_max b' = match k with None => n_actionable b | Some k => Z.min k (n_actionable b) end /\ bd_min b' = bd_min b /\ answers_alike b b') /\
  ((exists e, set_max_items b k = Err e) <-> exists m, k = Some m /\ (m < 0)%Z).
Proof.
  unfold set_max_items. destruct k as [k|].
  - destruct (Z.leb_spec 0 k); split; try discriminate.
    + intros b' H'. injection H' as <-. split; [reflexivity|]. split; [reflexivity|]. apply limits_alike.
    + split; [intros [e K]; discriminate K|]. intros (m & E & K). injection E as <-. lia.
    + split; [intros _; exists k; auto|eauto].
  - split; [intros b' H'; injection H' as <-; split; [reflexivity|]; split; [reflexivity|]; apply limits_alike|]. split; [intros [e K]; discriminate K|intros (m & E & _); discriminate E].
Qed.
