(** Specification vocabulary for statistics. *)
From Verif Require Export Spec_report Model_stats.
#[local] Open Scope list_scope.
#[local] Open Scope Qc_scope.

(** [m] lists what [P] relates to the members of [l], in order; members related to nothing are left out. *)
Inductive collects {A B} (P : A -> B -> Prop) : list A -> list B -> Prop :=
| co_nil : collects P [] []
| co_yes : forall a b l m, P a b -> collects P l m -> collects P (a :: l) (b :: m)
| co_no : forall a l m, (forall b, ~ P a b) -> collects P l m -> collects P (a :: l) m.
(** The average of a list. *)
Definition average (l : list Qc) (m : Qc) : Prop := l <> [] /\ qz (Z.of_nat (length l)) * m = qsum l.
(** The median: at least half of the members are at most [m], at least half are at least [m], and [m] is halfway between two members (possibly the same)
    with no member between them. *)
Definition is_median (l : list Qc) (m : Qc) : Prop :=
  (length l <= 2 * length (filter (fun v => (v <=? m)%Qc) l))%nat /\ (length l <= 2 * length (filter (fun v => (m <=? v)%Qc) l))%nat /\
  exists u v, In u l /\ In v l /\ u <= v /\ u + v = qz 2 * m /\ forall q, In q l -> q <= u \/ v <= q.
