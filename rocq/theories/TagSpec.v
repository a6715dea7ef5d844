(** Clusters of hits: what DBSCAN means *)
From Coq Require Import Relations.
From Verif Require Import Base.

Section Clusters.
  (** n points, numbered from 0; which are close, and how many close points (itself counted) make a dense one *)
  Variable n : nat.
  Variable close : nat -> nat -> Prop.
  Variable dense : nat -> Prop.
  (** a chain of dense points, each close to the next *)
  Definition chain : nat -> nat -> Prop := clos_refl_trans nat (fun a b => (a < n)%nat /\ (b < n)%nat /\ dense a /\ dense b /\ close a b).
  (** labels: None for noise *)
  Definition are_clusters (labels : list (option nat)) : Prop :=
    length labels = n /\
    (* dense points are in clusters, and two are in the same exactly when a chain joins them *)
    (forall a, (a < n)%nat -> dense a -> exists l, nth a labels None = Some l) /\
    (forall a b, (a < n)%nat -> (b < n)%nat -> dense a -> dense b -> (nth a labels None = nth b labels None <-> chain a b)) /\
    (* the other points are noise if no dense point is close; otherwise in the first of the clusters of the dense points close to it *)
    (forall a, (a < n)%nat -> ~ dense a -> nth a labels None = None -> forall b, (b < n)%nat -> dense b -> ~ close b a) /\
    (forall a l, (a < n)%nat -> ~ dense a -> nth a labels None = Some l ->
      (exists b, (b < n)%nat /\ dense b /\ close b a /\ nth b labels None = Some l) /\
      forall b k, (b < n)%nat -> dense b -> close b a -> nth b labels None = Some k -> (l <= k)%nat) /\
    (* the clusters are numbered from zero without gaps, each with a dense point *)
    exists m, (forall a l, nth a labels None = Some l -> (l < m)%nat) /\ forall l, (l < m)%nat -> exists a, (a < n)%nat /\ dense a /\ nth a labels None = Some l.
End Clusters.
