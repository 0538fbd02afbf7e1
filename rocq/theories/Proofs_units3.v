(** Proofs for C133: percentiles in other units. *)
From Verif Require Import Spec_units Spec_setup Proofs_props_element Proofs_props_actionset Proofs_actionset Proofs_bounds Proofs_element Proofs_pct Proofs_units Proofs_units2 Proofs_setup.
#[local] Open Scope string_scope.
#[local] Open Scope list_scope.
#[local] Open Scope Qc_scope.

Lemma last_cumsum l : forall a, l <> [] -> last (cumsum_from a l) 0 = a + qsum l.
Proof.
  induction l as [|u l IH]; intros a H; [now contradiction H|]. cbn [cumsum_from]. destruct l as [|u' l]; [cbn; ring|].
  change (last ((a + u) :: cumsum_from (a + u) (u' :: l)) 0) with (last (cumsum_from (a + u) (u' :: l)) 0). rewrite IH by discriminate. cbn [qsum]. ring.
Qed.
Lemma cumsum_mul k l : forall a, cumsum_from (k * a) (map (Qcmult k) l) = map (Qcmult k) (cumsum_from a l).
Proof. induction l as [|u l IH]; intro a; [reflexivity|]. cbn. rewrite <- Qcmult_plus_distr_r, IH. reflexivity. Qed.
Lemma qsum_mul k l : qsum (map (Qcmult k) l) = k * qsum l.
Proof. induction l as [|u l IH]; cbn; [ring|]. rewrite IH. ring. Qed.
Lemma cumsum_range l : Forall (fun v => 0 <= v) l -> forall a r, In r (cumsum_from a l) -> a <= r /\ r <= a + qsum l.
Proof.
  induction 1 as [|u l Hu Hl IH]; intros a r Hr; [destruct Hr|]. cbn in Hr. assert (S0 : 0 <= qsum l). { clear IH Hr. induction Hl; cbn; [apply Qcle_refl|qlra]. }
  destruct Hr as [<-|Hr]; [cbn; split; qlra|]. apply IH in Hr. cbn. destruct Hr. split; qlra.
Qed.
(** One value of the scale, in two units. *)
Lemma div_le a b m : 0 < m -> a <= b -> a / m <= b / m.
Proof. intros Hm H. unfold Qcdiv. apply Qcmult_le_compat_r; [exact H|]. apply Qclt_le_weak. apply Qcnot_le_lt. intro K. assert (Q : m * / m <= 0). { replace 0 with (m * 0) by ring. rewrite !(Qcmult_comm m). now apply Qcmult_le_compat_r, Qclt_le_weak. } rewrite Qcmult_inv_r in Q by (intro Z0; rewrite Z0 in Hm; discriminate Hm). apply Q. reflexivity. Qed.
Lemma near_share T r b : 0 < T -> 0 < b -> 0 <= r -> r <= T -> qabs ((b + r) / (T + b + b) - r / T) <= b / T.
Proof.
  intros HT Hb H1 H2. assert (HD : 0 < T + b + b) by qlra. assert (NT : T <> 0) by (intro Q; rewrite Q in HT; discriminate HT). assert (ND : T + b + b <> 0) by (intro Q; rewrite Q in HD; discriminate HD).
  assert (E : (b + r) / (T + b + b) - r / T = (b * (T - r - r) / (T + b + b)) / T) by (field; auto). rewrite E.
  assert (B1 : b * (T - r - r) / (T + b + b) <= b /\ - b <= b * (T - r - r) / (T + b + b)).
  { assert (P0 : 0 <= b * r) by (replace 0 with (0 * r) by ring; apply Qcmult_le_compat_r; [now apply Qclt_le_weak|exact H1]). assert (P1 : b * r <= b * T) by (rewrite !(Qcmult_comm b); now apply Qcmult_le_compat_r, Qclt_le_weak).
    assert (P2 : 0 <= b * b) by (replace 0 with (0 * b) by ring; apply Qcmult_le_compat_r; now apply Qclt_le_weak). split.
    - assert (EB : b * (T + b + b) / (T + b + b) = b) by (field; auto). rewrite <- EB at 4. apply div_le; [exact HD|]. replace (b * (T - r - r)) with (b * T - b * r - b * r) by ring. replace (b * (T + b + b)) with (b * T + b * b + b * b) by ring. qlra.
    - assert (EB : - (b * (T + b + b)) / (T + b + b) = - b) by (field; auto). rewrite <- EB. apply div_le; [exact HD|]. replace (b * (T - r - r)) with (b * T - b * r - b * r) by ring. replace (b * (T + b + b)) with (b * T + b * b + b * b) by ring. qlra. }
  destruct B1 as [B1 B2]. apply qabs_le. split; [replace (- (b / T)) with (- b / T) by (field; auto)|]; now apply div_le.
Qed.
Lemma near_shares T k r b : 0 < T -> 0 < k -> 0 < b -> 0 <= r -> r <= T -> qabs ((b + r) / (T + b + b) - (b + k * r) / (k * T + b + b)) <= b / T + b / (k * T).
Proof.
  intros HT Hk Hb H1 H2. assert (NT : T <> 0) by (intro Q; rewrite Q in HT; discriminate HT). assert (Nk : k <> 0) by (intro Q; rewrite Q in Hk; discriminate Hk).
  assert (HkT : 0 < k * T). { replace 0 with (0 * T) by ring. now apply Qcmult_lt_compat_r. }
  pose proof (near_share T r b HT Hb H1 H2) as N1. assert (N2 : qabs ((b + k * r) / (k * T + b + b) - k * r / (k * T)) <= b / (k * T)).
  { apply near_share; auto; rewrite ?(Qcmult_comm k); [replace 0 with (0 * k) by ring|]; apply Qcmult_le_compat_r; auto; now apply Qclt_le_weak. }
  replace (k * r / (k * T)) with (r / T) in N2 by (field; auto). apply qabs_le in N1, N2. apply qabs_le. destruct N1, N2. split; qlra.
Qed.
(** Linear interpolation between nearby values. *)
Lemma mix_near d l y1 y2 z1 z2 : 0 <= l -> l <= 1 -> qabs (y1 - z1) <= d -> qabs (y2 - z2) <= d -> qabs (y1 + (y2 - y1) * l - (z1 + (z2 - z1) * l)) <= d.
Proof.
  intros H1 H2 A1 A2. apply qabs_le in A1, A2. destruct A1 as [A1 A1'], A2 as [A2 A2']. set (a := y1 - z1) in *. set (b := y2 - z2) in *.
  replace (y1 + (y2 - y1) * l - (z1 + (z2 - z1) * l)) with ((1 - l) * a + l * b) by (unfold a, b; ring).
  assert (HL : 0 <= 1 - l) by qlra. assert (M : forall u v w, 0 <= u -> v <= w -> u * v <= u * w) by (intros u v w Hu Hvw; rewrite !(Qcmult_comm u); now apply Qcmult_le_compat_r).
  apply qabs_le. pose proof (M _ _ _ HL A1) as B1. pose proof (M _ _ _ HL A1') as B2. pose proof (M _ _ _ H1 A2) as B3. pose proof (M _ _ _ H1 A2') as B4.
  replace ((1 - l) * - d) with (- d + l * d) in B1 by ring. replace ((1 - l) * d) with (d - l * d) in B2 by ring. replace (l * - d) with (- (l * d)) in B3 by ring. split; qlra.
Qed.
Lemma seg_near c d xs ys zs x : 0 < c -> 0 <= d -> Forall2 (fun y w => qabs (y - w) <= d) ys zs -> (forall x0, nth_error xs 0 = Some x0 -> x0 <= x) -> qabs (interp_seg xs ys x - interp_seg (map (Qcmult c) xs) zs (c * x)) <= d.
Proof.
  intros Hc Hd H. revert xs. induction H as [|y w ys zs Hy H IH]; intros xs Hx; [replace (interp_seg (map (Qcmult c) xs) [] (c * x)) with 0 by (destruct xs as [|? [|? ?]]; reflexivity); replace (interp_seg xs [] x) with 0 by (destruct xs as [|? [|? ?]]; reflexivity); apply qabs_le; split; qlra|].
  destruct xs as [|x1 [|x2 xs]]; [destruct ys, zs; exact Hy|destruct ys, zs; exact Hy|]. inversion H as [|y2 w2 ys' zs' Hy2 H']; subst; [exact Hy|]. cbn [map].
  change (interp_seg (x1 :: x2 :: xs) (y :: y2 :: ys') x) with (if x <=? x2 then y + (y2 - y) / (x2 - x1) * (x - x1) else interp_seg (x2 :: xs) (y2 :: ys') x).
  change (interp_seg (c * x1 :: c * x2 :: map (Qcmult c) xs) (w :: w2 :: zs') (c * x)) with (if c * x <=? c * x2 then w + (w2 - w) / (c * x2 - c * x1) * (c * x - c * x1) else interp_seg (map (Qcmult c) (x2 :: xs)) (w2 :: zs') (c * x)).
  rewrite (mul_qle c Hc). destruct (x <=? x2) eqn:Q; [|apply IH; intros x0 Q0; injection Q0 as <-; qbool; now apply Qclt_le_weak].
  qbool. specialize (Hx x1 eq_refl). pose proof (cne c Hc) as Nc. destruct (qeq_spec x2 x1) as [->|Ne].
  - replace (c * x1 - c * x1) with 0 by ring. replace (x1 - x1) with 0 by ring. assert (D0 : forall u, u / 0 = 0) by (intro u; unfold Qcdiv; change (/ 0) with 0; ring). rewrite !D0. replace (y + 0 * (x - x1) - (w + 0 * (c * x - c * x1))) with (y - w) by ring. exact Hy.
  - assert (NN : x2 - x1 <> 0) by (intro K; apply Ne; qlra). assert (LT : 0 < x2 - x1). { apply Qcnot_le_lt. intro K. apply NN. qlra. }
    replace ((y2 - y) / (x2 - x1) * (x - x1)) with ((y2 - y) * ((x - x1) / (x2 - x1))) by (field; auto).
    replace ((w2 - w) / (c * x2 - c * x1) * (c * x - c * x1)) with ((w2 - w) * ((x - x1) / (x2 - x1))) by (field; split; auto; intro K; apply NN; apply (mul_eq c Hc); replace (c * 0) with 0 by ring; rewrite <- K; ring).
    apply mix_near; auto.
    + replace 0 with (0 / (x2 - x1)) by (field; auto). apply div_le; [exact LT|qlra].
    + replace 1 with ((x2 - x1) / (x2 - x1)) by (field; auto). apply div_le; [exact LT|qlra].
Qed.
Lemma last_mul c l d : last (map (Qcmult c) l) (c * d) = c * last l d.
Proof. induction l as [|a [|b l] IH]; [reflexivity|reflexivity|exact IH]. Qed.
Lemma interp_near c d xs ys zs x : 0 < c -> 0 <= d -> Forall2 (fun y w => qabs (y - w) <= d) ys zs -> qabs (interp xs ys x - interp (map (Qcmult c) xs) zs (c * x)) <= d.
Proof.
  intros Hc Hd H. unfold interp. destruct xs as [|x0 xs]; [cbn [map]; apply qabs_le; split; qlra|]. cbn [map]. rewrite !qlt_qle, (mul_qle c Hc). destruct (x0 <=? x) eqn:Q; cbn [negb]; [|apply qabs_le; split; qlra].
  change (c * x0 :: map (Qcmult c) xs) with (map (Qcmult c) (x0 :: xs)). rewrite last_mul, (mul_qle c Hc). destruct (x <=? last (x0 :: xs) x0); cbn [negb]; [|apply qabs_le; split; qlra].
  apply seg_near; auto. intros x1 E. injection E as <-. now qbool.
Qed.
Lemma Ok_eq {B} (a b : B) : Ok a = Ok b -> a = b.
Proof. congruence. Qed.
Lemma buffer_pos : 0 < buffer. Proof. reflexivity. Qed.
Lemma percentile_units E c k e v p p' m m' : 0 < c -> 0 < k -> e_interp e = None -> unit_density E c k (e_values e) -> mass E e m -> mass E (sc c e) m' -> 0 < m ->
  percentile E e v = Ok p -> percentile E (sc c e) (c * v) = Ok p' -> qabs (p - p') <= buffer / m + buffer / m'.
Proof.
  intros Hc Hk Hi HD (f & Hf & Hf0 & ->) (f' & Hf' & _ & ->) Hm Hp Hp'. destruct (HD f Hf) as (f2 & Hf2 & HM). cbn [sc e_values] in Hf'. rewrite Hf2 in Hf'. injection Hf' as ->.
  assert (Em : map f' (map (Qcmult c) (e_grid e)) = map (Qcmult k) (map f (e_grid e))) by (rewrite !map_map; apply map_ext; exact HM). cbn [sc e_grid]. rewrite Em, qsum_mul.
  unfold percentile, get_interp in Hp, Hp'. cbn [sc e_interp] in Hp'. rewrite Hi in Hp, Hp'. cbn [option_map] in Hp'. unfold fresh_interp in Hp, Hp'. cbn [sc e_values e_grid] in Hp'. rewrite Hf in Hp. rewrite Hf2 in Hp'.
  destruct (e_grid e) as [|g0 g]; [discriminate Hp|]. set (gr := g0 :: g) in *. change (map (Qcmult c) gr) with (c * g0 :: map (Qcmult c) g) in Hp'. cbv zeta in Hp, Hp'. change (c * g0 :: map (Qcmult c) g) with (map (Qcmult c) gr) in Hp'. rewrite Em in Hp'.
  cbn [bind] in Hp, Hp'. apply Ok_eq in Hp, Hp'. rewrite <- Hp, <- Hp'. clear Hp Hp' p p'.
  assert (NE : map f gr <> []) by discriminate. set (r := map f gr) in *. assert (Hr : Forall (fun u => 0 <= u) r) by (apply Forall_forall; intros u Hu; apply in_map_iff in Hu; destruct Hu as (a & <- & _); apply Hf0).
  unfold np_cumsum. rewrite last_cumsum by exact NE. assert (C0 : cumsum_from 0 (map (Qcmult k) r) = map (Qcmult k) (cumsum_from 0 r)) by (rewrite <- cumsum_mul; f_equal; ring). rewrite last_cumsum by (intro Q; destruct r; [now apply NE|discriminate Q]). rewrite C0, qsum_mul, !Qcplus_0_l.
  pose proof buffer_pos as Hb. assert (HkT : 0 < k * qsum r) by (replace 0 with (0 * qsum r) by ring; now apply Qcmult_lt_compat_r).
  apply interp_near; [exact Hc| |].
  - assert (P : forall t, 0 < t -> 0 <= buffer / t) by (intros t Ht; replace 0 with (0 / t) by (field; intro Q; rewrite Q in Ht; discriminate Ht); apply div_le; [exact Ht|now apply Qclt_le_weak]). pose proof (P _ Hm). pose proof (P _ HkT). qlra.
  - rewrite map_map. assert (G : forall l, (forall u, In u l -> 0 <= u /\ u <= qsum r) -> Forall2 (fun y w => qabs (y - w) <= buffer / qsum r + buffer / (k * qsum r)) (map (fun r0 => (buffer + r0) / (qsum r + buffer + buffer)) l) (map (fun x => (buffer + k * x) / (k * qsum r + buffer + buffer)) l)).
    { induction l as [|u l IH]; intro HL; constructor; [|apply IH; intros; apply HL; now right]. destruct (HL u (or_introl eq_refl)) as [L1 L2]. now apply near_shares. }
    apply G. intros u Hu. pose proof (cumsum_range r Hr 0 u Hu) as K. now rewrite Qcplus_0_l in K.
Qed.
