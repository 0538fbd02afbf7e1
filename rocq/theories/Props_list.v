(** Property theorems for the list of items a new flipset gets: C126.  Vocabulary: Spec_list.v.
    [reaches A w t x a]: a is permitted for x, within the constraints, and x + a gets the desired outcome.
    [covers et a a']: 'mutually_exclusive': a and a' change a common feature; 'distinct_subsets': a' changes all features a does.
    Everything is said about one call of populate on a new flipset, in terms of the action set, the classifier and the individual. *)
From Verif Require Import Spec_list Spec_recourse Proofs_concrete Proofs_scen Proofs_builder8 Proofs_list2 Proofs_list3.
#[local] Open Scope list_scope.
#[local] Open Scope Qc_scope.

(** * C126 *)
(** Every item is a way to the desired outcome, flips the prediction, and its cost is the cost of its changes. *)
Theorem C126_items : forall E sv srt k A x w t f f' fuel total et ct,
  ok_env E -> sound_solver sv -> finishing_solver sv -> ok_sorter srt -> aset_reachable E A -> alignment_known A = false \/ flips_match A w ->
  denied (as_y A) (score w t x) -> total <> Some 0%nat -> (2 ^ as_len A < fuel)%nat ->
  flipset_created k A x w t None f -> f_populate E sv srt fuel total et ct f = Some (f', Ok tt) ->
  forall v, orderly E A w x -> In v (f_items f') ->
    reaches A w t x (fi_actions v) /\ flips w t x (fi_actions v) /\
    exists c cs, fi_cost v = Fin c /\ action_costs E ct A x (fi_actions v) cs /\ overall_cost ct cs c.
Proof. exact list_ways. Qed.
Print Assumptions C126_items.
(** Items are listed in order of cost ('total' and 'local'). *)
Theorem C126_order : forall E sv srt k A x w t f f' fuel total et ct,
  ok_env E -> sound_solver sv -> finishing_solver sv -> ok_sorter srt -> aset_reachable E A -> alignment_known A = false \/ flips_match A w ->
  denied (as_y A) (score w t x) -> total <> Some 0%nat -> (2 ^ as_len A < fuel)%nat ->
  flipset_created k A x w t None f -> f_populate E sv srt fuel total et ct f = Some (f', Ok tt) ->
  forall i j v v' c c', ct <> CMax -> (i < j)%nat -> nth_error (f_items f') i = Some v -> nth_error (f_items f') j = Some v' ->
    fi_cost v = Fin c -> fi_cost v' = Fin c' -> c <= c'.
Proof. exact list_sorted. Qed.
Print Assumptions C126_order.
(** No two items use the same set of features, or any common feature. *)
Theorem C126_distinct : forall E sv srt k A x w t f f' fuel total et ct,
  ok_env E -> sound_solver sv -> ok_sorter srt -> aset_reachable E A -> alignment_known A = false \/ flips_match A w ->
  denied (as_y A) (score w t x) -> total <> Some 0%nat -> (2 ^ as_len A < fuel)%nat ->
  flipset_created k A x w t None f -> f_populate E sv srt fuel total et ct f = Some (f', Ok tt) ->
  forall i j v v', (k = CPX -> switches_off E A x) -> (i < j)%nat -> nth_error (f_items f') i = Some v -> nth_error (f_items f') j = Some v' ->
    match et with MutuallyExclusive => forall n, ~ (changes (fi_actions v) n /\ changes (fi_actions v') n)
    | DistinctSubsets => ~ forall n, changes (fi_actions v) n <-> changes (fi_actions v') n end.
Proof.
  intros E sv srt k A x w t f f' fuel total et ct H1 H2 H3 H4 H5 H6 H7 H8 H9 H10 i j v v' H11 H12 H13 H14.
  pose proof (list_distinct E sv srt k A x w t f f' fuel total et ct H1 H2 H3 H4 H5 H6 H7 H8 H9 H10 i j v v' H11 H12 H13 H14) as K.
  destruct et; [intros n Hn; apply K; exists n; exact Hn|exact K].
Qed.
Print Assumptions C126_distinct.
(** An item is no dearer than any way to the desired outcome that no earlier item covers ('total' and 'local'). *)
Theorem C126_cheapest : forall E sv srt k A x w t f f' fuel total et ct,
  ok_env E -> sound_solver sv -> finishing_solver sv -> ok_sorter srt -> aset_reachable E A -> alignment_known A = false \/ flips_match A w ->
  denied (as_y A) (score w t x) -> total <> Some 0%nat -> (2 ^ as_len A < fuel)%nat ->
  flipset_created k A x w t None f -> f_populate E sv srt fuel total et ct f = Some (f', Ok tt) ->
  forall i v c a cs, density E -> log_ok E ct -> orderly E A w x -> regular E A x -> (k = CPX -> switches_off E A x) -> ct <> CMax ->
    nth_error (f_items f') i = Some v -> fi_cost v = Fin c -> reaches A w t x a ->
    (forall i' v', (i' < i)%nat -> nth_error (f_items f') i' = Some v' -> ~ covers et (fi_actions v') a) ->
    action_costs E ct A x a cs -> c <= qsum cs.
Proof. exact list_cheapest. Qed.
Print Assumptions C126_cheapest.
(** If fewer items are listed than asked for (or all were asked for), every way to the desired outcome is covered by an item. *)
Theorem C126_complete : forall E sv srt k A x w t f f' fuel total et ct,
  ok_env E -> sound_solver sv -> finishing_solver sv -> ok_sorter srt -> aset_reachable E A -> alignment_known A = false \/ flips_match A w ->
  denied (as_y A) (score w t x) -> total <> Some 0%nat -> (2 ^ as_len A < fuel)%nat ->
  flipset_created k A x w t None f -> f_populate E sv srt fuel total et ct f = Some (f', Ok tt) ->
  forall a, density E -> log_ok E ct -> orderly E A w x -> regular E A x -> (k = CPX -> switches_off E A x) ->
    total <> Some (length (f_items f')) -> reaches A w t x a -> exists v, In v (f_items f') /\ covers et (fi_actions v) a.
Proof. exact list_complete. Qed.
Print Assumptions C126_complete.
(** Never more items than asked for. *)
Theorem C126_total : forall E sv srt k A x w t f f' fuel total et ct,
  ok_env E -> sound_solver sv -> ok_sorter srt -> aset_reachable E A -> alignment_known A = false \/ flips_match A w ->
  denied (as_y A) (score w t x) -> total <> Some 0%nat -> (2 ^ as_len A < fuel)%nat ->
  flipset_created k A x w t None f -> f_populate E sv srt fuel total et ct f = Some (f', Ok tt) ->
  forall n, total = Some n -> (length (f_items f') <= n)%nat.
Proof. exact list_size. Qed.
Print Assumptions C126_total.
(** Hypotheses met, for every backend, cost type and enumeration type; two ways to the outcome, and the list is not empty.
    ([C37_unconstrained]: without constraints [switches_off] and [orderly] hold.) *)
Example C126_nonvacuous : forall k, exists A f, aset_reachable env0 A /\ alignment_known A = false /\ unconstrained A /\ regular env0 A x01 /\ as_y A = 1%Z /\ denied 1 (score w11_ (- z 3) x01) /\
  flipset_created k A x01 w11_ (- z 3) None f /\ reaches A w11_ (- z 3) x01 way1 /\ reaches A w11_ (- z 3) x01 way2 /\
  forall sv srt fuel et ct, sound_solver sv -> finishing_solver sv -> ok_sorter srt -> (2 ^ as_len A < fuel)%nat -> exists f', f_populate env0 sv srt fuel None et ct f = Some (f', Ok tt) /\ f_items f' <> [].
Proof. exact list_case. Qed.
