(** Vocabulary for C70 *)
From Verif Require Import Base PeaksModel PeaksSpec PmapioModel FiltersModel HitsModel SophModel.
Local Open Scope Q_scope.

(** the elements of [l] that are marked, with their positions counted from [i] *)
Inductive picked {A} : nat -> list bool -> list A -> list (nat * A) -> Prop :=
| pk_nil i : picked i [] [] []
| pk_yes i a f l out : picked (S i) f l out -> picked i (true :: f) (a :: l) ((i, a) :: out)
| pk_no i a f l out : picked (S i) f l out -> picked i (false :: f) (a :: l) out.

(** the time from which the drift is measured: that of the first selected S1, or the start of the first selected S2 *)
Definition start_of_drift (pm : pmap) (sel : selection) (t0 : Q) : Prop :=
  (exists i p rest, picked 0 (s1_peaks sel) (s1s pm) ((i, p) :: rest) /\ t0 = time_at_max_energy p) \/
  (picked 0 (s1_peaks sel) (s1s pm) [] /\ exists i p rest ts, picked 0 (s2_peaks sel) (s2s pm) ((i, p) :: rest) /\ p_times p = t0 :: ts).

(** the light of the PMTs in a sample *)
Definition energy_at (p : peak) (k : nat) : Q := sumF (fun r => nth k r 0) (rows (r_wfs (p_pmts p))).
(** the light of all the PMTs in all the samples *)
Definition peak_energy (p : peak) : Q := sumF sumQ (rows (r_wfs (p_pmts p))).

(** the charges of the SiPMs: those measured, or their ratio to the noise *)
Definition charge_of (ct : charge_type) (noise : list nat -> list Q -> Z -> list Q) (sample_width : Q -> Z) (ids : list nat) (qs : list Q) (width : Q) : list Q :=
  match ct with Raw => qs | SignalToNoise => noise ids qs (sample_width width) end.

(** the arguments that choose a way of rebinning, in the order in which the city gives them *)
Definition args_of (md : rebin_model) : arg * arg :=
  match md with ByStride f => (Number (inject_Z f), Method stride) | ByThreshold x => (Number x, Method threshold) end.

(** a peak whose SiPMs are in the database *)
Definition usable (xys : list (Q * Q)) (p : peak) : Prop :=
  consistent p /\ r_ids (p_sipms p) <> [] /\ Forall (fun i => (i < length xys)%nat) (r_ids (p_sipms p)).
(** the algorithm that gives the position of a peak ends, perhaps without a position *)
Definition global_ends (reco : list (Q * Q) -> list Q -> result (option (list (Q * Q)))) : Prop := forall ps qs, exists o, reco ps qs = Ok o /\ o <> Some [].
(** the position of a peak is that of the first cluster found *)
Definition position_found (reco : list (Q * Q) -> list Q -> result (option (list (Q * Q)))) (ps : list (Q * Q)) (qs : list Q) (xy : Q * Q) : Prop :=
  (exists more, reco ps qs = Ok (Some (xy :: more))) \/ (reco ps qs = Ok None /\ xy = (HitsModel.NN, HitsModel.NN)).

Section Spec.
  Variable xys : list (Q * Q).
  Variable v t0 : Q.
  Variable charges : list nat -> list Q -> Q -> list Q.

  (** the charges in a sample and in the peak *)
  Definition charges_at (p : peak) (k : nat) : list Q :=
    charges (r_ids (p_sipms p)) (map (fun r => nth k r 0) (rows (r_wfs (p_sipms p)))) (nth k (p_widths p) 0).
  Definition charges_in (p : peak) : list Q :=
    charges (r_ids (p_sipms p)) (map sumQ (rows (r_wfs (p_sipms p)))) (peak_width p).
  (** the SiPMs over threshold in a sample *)
  Definition lit (thr : Q) (p : peak) (k : nat) : list (nat * Q) :=
    filter (fun s => Qle_bool thr (snd s)) (combine (r_ids (p_sipms p)) (charges_at p k)).

  (** the hits of a sample: one for each SiPM over threshold, that share the energy according to the charges, or one
      without position that has all the energy *)
  Definition hits_of_sample (thr : Q) (p : peak) (k : nat) (hs : list shit) : Prop :=
    Forall (fun h => q_Z h == (nth k (p_times p) 0 - t0) * v) hs /\
    let total := sumF snd (lit thr p k) in
    (lit thr p k = [] /\ exists h, hs = [h] /\ q_X h = HitsModel.NN /\ q_Y h = HitsModel.NN /\ q_Q h = HitsModel.NN /\ q_E h == energy_at p k) \/
    (lit thr p k <> [] /\
     Forall2 (fun s h => nth_error xys (fst s) = Some (q_X h, q_Y h) /\ q_Q h = snd s /\ q_E h * (total + EPSILON) == snd s * energy_at p k) (lit thr p k) hs).

  (** the hits of a peak of number [i] *)
  Definition hits_of_peak (reco : list (Q * Q) -> list Q -> result (option (list (Q * Q)))) (thr : Q) (i : nat) (p : peak) (hs : list shit) : Prop :=
    Forall (fun h => q_npeak h = i) hs /\
    (exists xy ps, Forall2 (fun j q => nth_error xys j = Some q) (r_ids (p_sipms p)) ps /\ position_found reco ps (charges_in p) xy /\
                   Forall (fun h => (q_Xpeak h, q_Ypeak h) = xy) hs) /\
    exists groups, Forall2 (hits_of_sample thr p) (seq 0 (length (p_times p))) groups /\ hs = concat groups.

  (** the hits of a sample when they are made from the clusters found in it *)
  Definition clusters_of_sample (reco : list (Q * Q) -> list Q -> result (option (list cluster))) (p : peak) (k : nat) (hs : list shit) : Prop :=
    Forall (fun h => q_Z h == (nth k (p_times p) 0 - t0) * v) hs /\
    exists ps, Forall2 (fun j q => nth_error xys j = Some q) (r_ids (p_sipms p)) ps /\
    ((reco ps (charges_at p k) = Ok None /\ exists h, hs = [h] /\ q_X h = HitsModel.NN /\ q_Y h = HitsModel.NN /\ q_Q h = HitsModel.NN /\ q_E h == energy_at p k) \/
     (exists cs, reco ps (charges_at p k) = Ok (Some cs) /\
      Forall2 (fun c h => q_X h = cX c /\ q_Y h = cY c /\ q_Q h = cQ c /\ q_E h * (sumF cQ cs + EPSILON) == cQ c * energy_at p k) cs hs)).
  Definition clusters_of_peak (reco : list (Q * Q) -> list Q -> result (option (list cluster))) (i : nat) (p : peak) (hs : list shit) : Prop :=
    Forall (fun h => q_npeak h = i) hs /\
    exists groups, Forall2 (clusters_of_sample reco p) (seq 0 (length (p_times p))) groups /\ hs = concat groups.
End Spec.
(** an algorithm that finds some cluster, of positive charge, or fails *)
Definition finds_clusters (reco : list (Q * Q) -> list Q -> result (option (list cluster))) : Prop :=
  forall ps qs, exists o, reco ps qs = Ok o /\ match o with None => True | Some cs => cs <> [] /\ 0 < sumF cQ cs end.
