(** C63: the time slices and the region of the lifetime *)
From Verif Require Import Base Arrays PeaksModel PeaksProofs BuffersProofs WfmModel PmapioProofs DbModel DbProps DbThr CorrModel CorrSpec CorrProps CorrMore KmapModel KmapSpec KmapProps KmapGrid.
Local Open Scope Q_scope.

Lemma min_time_least l q : min_time l = Some q -> is_least (map ktime l) q.
Proof.
  unfold min_time. destruct (maxQ (map (fun e => - ktime e) l)) as [m|] eqn:E; [|discriminate]. injection 1 as <-. apply maxQ_greatest in E. destruct E as [E1 E2]. apply in_map_iff in E1. destruct E1 as (e & E & He). split.
  - apply in_map_iff. exists e. split; [|assumption]. rewrite <- E. unfold Qopp. destruct (ktime e) as [a b]. cbn. now rewrite Z.opp_involutive.
  - intros x Hx. apply in_map_iff in Hx. destruct Hx as (e' & <- & He'). specialize (E2 _ (in_map (fun e => - ktime e) _ _ He')). cbn beta in E2. lra.
Qed.
Lemma min_time_some l : l <> [] -> exists q, min_time l = Some q.
Proof. destruct l as [|e l]; [contradiction|]. intros _. unfold min_time. cbn [map maxQ]. eauto. Qed.
Lemma max_time_some l : l <> [] -> exists q, max_time l = Some q.
Proof. destruct l as [|e l]; [contradiction|]. intros _. unfold max_time. cbn [map maxQ]. eauto. Qed.
Lemma digitize_arange a b len t : 0 < len -> a <= t <= b -> exists k, digitize t (arange a (b + len) len) = S k /\ a + qn k * len <= t < a + qn (S k) * len.
Proof.
  intros L [H1 H2]. set (q := (t - a) / len). assert (Q1 : q * len == t - a) by (unfold q; field; lra). assert (Q0 : 0 <= q) by (unfold q; apply Qle_shift_div_l; lra).
  pose proof (proj1 (Qfloor_spec q (Qfloor q)) eq_refl) as [F1 F2]. assert (F0 : (0 <= Qfloor q)%Z) by (apply (Qfloor_resp_le 0 q) in Q0; exact Q0).
  set (d := Z.to_nat (Qfloor q)). assert (D : inject_Z (Qfloor q) = qn d) by (unfold qn, d; now rewrite Z2Nat.id). rewrite inj_plus in F2. rewrite D in F1, F2. change (inject_Z 1) with 1 in F2.
  set (r := (b + len - a) / len). assert (R : r * len == b + len - a) by (unfold r; field; lra). assert (Rq : q + 1 <= r) by nra. pose proof (Qle_ceiling r) as C. set (N := Z.to_nat (Qceiling r)).
  assert (DN : (d < N)%nat). { assert (X : inject_Z (Z.of_nat d + 1) <= inject_Z (Qceiling r)) by (rewrite inj_plus; change (inject_Z 1) with 1; change (inject_Z (Z.of_nat d)) with (qn d); lra). apply inj_le_inv in X. unfold N. lia. }
  exists d. split.
  - unfold digitize, arange. fold r. fold N. rewrite filter_map_swap, map_length. replace N with (S (N - 1)) by lia. rewrite <- (count_le_seq d (N - 1)) by lia. f_equal. apply filter_ext. intros k. destruct (Nat.leb_spec k d) as [K|K].
    + apply Qleb_le. apply qn_le in K. nra.
    + apply Qleb_gt. assert (K' : (S d <= k)%nat) by lia. apply qn_le in K'. rewrite qn_S in K'. nra.
  - rewrite qn_S. split; nra.
Qed.
Lemma slice_number_unique t0 len e k k' : 0 < len -> slice_number t0 len e k -> slice_number t0 len e k' -> k = k'.
Proof.
  intros L [H1 H2] [K1 K2]. destruct (Nat.lt_trichotomy k k') as [X|[X|X]]; [exfalso|assumption|exfalso].
  - assert (X' : (S k <= k')%nat) by lia. apply qn_le in X'. nra.
  - assert (X' : (S k' <= k)%nat) by lia. apply qn_le in X'. nra.
Qed.
Lemma leb_total a b : (a <=? b)%nat = true \/ (b <=? a)%nat = true.
Proof. rewrite !Nat.leb_le. lia. Qed.
Lemma leb_trans a b c : (a <=? b)%nat = true -> (b <=? c)%nat = true -> (a <=? c)%nat = true.
Proof. rewrite !Nat.leb_le. lia. Qed.
Lemma slices_perm {A} (f : A -> nat) (l : list A) ks : NoDup ks -> (forall a, In a l -> In (f a) ks) -> Permutation (concat (map (fun n => filter (fun a => (f a =? n)%nat) l) ks)) l.
Proof.
  intros N. revert l. induction N as [|k ks Nk N IH]; intros l H.
  - destruct l as [|a l]; [constructor|]. destruct (H a (or_introl eq_refl)).
  - cbn [map concat]. assert (E : map (fun n => filter (fun a => (f a =? n)%nat) l) ks = map (fun n => filter (fun a => (f a =? n)%nat) (filter (fun a => negb (f a =? k)%nat) l)) ks).
    { apply map_ext_in. intros n Hn. rewrite filter_filter'. apply filter_ext. intros a. destruct (Nat.eqb_spec (f a) n) as [->|]; [|now rewrite andb_false_r]. destruct (Nat.eqb_spec n k); [subst; contradiction|reflexivity]. }
    rewrite E, IH.
    + clear. induction l as [|a l IH]; [constructor|]. cbn [filter]. destruct (f a =? k)%nat; cbn [negb app]; [now constructor|]. rewrite <- Permutation_middle. now constructor.
    + intros a Ha. apply filter_In in Ha. destruct Ha as [Ha Hb]. destruct (H a Ha) as [K|K]; [|assumption]. rewrite <- K, Nat.eqb_refl in Hb. discriminate.
Qed.
(** Every row is in exactly one slice, the slices are intervals of the given length in order of time, and none is empty. *)
Theorem C63_slices len df : 0 < len -> df <> [] ->
  exists t0 ks, is_least (map ktime df) t0 /\ StronglySorted lt ks /\
    Forall2 (fun k s => s <> [] /\ forall e, In e s <-> In e df /\ slice_number t0 len e k) ks (time_slices len df) /\ Permutation (concat (time_slices len df)) df.
Proof.
  intros L N. unfold time_slices. destruct (min_time_some df N) as (t0 & Et). destruct (max_time_some df N) as (t1 & Et1). rewrite Et, Et1. apply min_time_least in Et. apply maxQ_greatest in Et1.
  set (bins := arange t0 (t1 + len) len). set (f := fun e => digitize (ktime e) bins). set (ns := sort_by Nat.leb (nodup Nat.eq_dec (map f df))).
  assert (F : forall e, In e df -> exists k, f e = S k /\ slice_number t0 len e k).
  { intros e He. unfold f, bins. apply digitize_arange; [assumption|]. split; [apply Et|apply Et1]; now apply in_map. }
  assert (In_ns : forall n, In n ns <-> exists e, In e df /\ f e = n) by (intros n; unfold ns; rewrite in_sort_by, nodup_In, in_map_iff; split; intros (e & A & B); exists e; auto).
  assert (Nd : NoDup ns) by (unfold ns; eapply Permutation_NoDup; [symmetry; apply sort_by_perm|apply NoDup_nodup]).
  assert (S : StronglySorted lt ns).
  { pose proof (sort_by_sorted Nat.leb leb_total leb_trans (nodup Nat.eq_dec (map f df))) as S. fold ns in S. clear - S Nd. induction S as [|a l S IH F]; constructor; [apply IH; now inversion Nd|]. inversion Nd as [|? ? N1 N2]; subst. rewrite Forall_forall in F |- *. intros x Hx. specialize (F x Hx). apply Nat.leb_le in F. assert (a <> x) by (intros ->; contradiction). lia. }
  exists t0, (map pred ns). split; [assumption|]. split; [|split].
  - assert (P : forall n, In n ns -> (0 < n)%nat) by (intros n Hn; apply In_ns in Hn; destruct Hn as (e & He & <-); destruct (F e He) as (k & -> & _); lia). clear - S P. induction S as [|a l S IH Fa]; cbn; constructor; [apply IH; intros; apply P; now right|]. rewrite Forall_forall in Fa |- *. intros x Hx. apply in_map_iff in Hx. destruct Hx as (y & <- & Hy). specialize (Fa y Hy). pose proof (P a (or_introl eq_refl)). lia.
  - assert (G : forall n, In n ns -> (filter (fun e => (f e =? n)%nat) df <> [] /\ forall e, In e (filter (fun e => (f e =? n)%nat) df) <-> In e df /\ slice_number t0 len e (pred n))).
    { intros n Hn. apply In_ns in Hn. destruct Hn as (e0 & He0 & E0). split.
      - intros K. assert (X : In e0 (filter (fun e => (f e =? n)%nat) df)) by (apply filter_In; split; [assumption|now apply Nat.eqb_eq]). rewrite K in X. destruct X.
      - intros e. rewrite filter_In, Nat.eqb_eq. split; intros [He K]; (split; [assumption|]); destruct (F e He) as (k & Ek & Hk).
        + rewrite <- K, Ek. exact Hk.
        + rewrite Ek. destruct (F e0 He0) as (k0 & Ek0 & _). rewrite E0 in Ek0. subst n. rewrite Ek0 in K. cbn [pred] in K. rewrite Ek0. f_equal. now apply (slice_number_unique t0 len e). }
    change (Forall2 (fun k s => s <> [] /\ (forall e, In e s <-> In e df /\ slice_number t0 len e k)) (map pred ns) (map (fun n => filter (fun e => (f e =? n)%nat) df) ns)).
    clear - G. revert G. generalize ns. induction ns0 as [|n l IH]; intros G; cbn [map]; constructor; [apply G; now left|apply IH; intros; apply G; now right].
  - apply (slices_perm f); [assumption|]. intros e He. apply In_ns. now exists e.
Qed.
Print Assumptions C63_slices.
(** The times of the slices, as used in the table of the time evolution, increase. *)
Theorem C63_times len df : 0 < len -> exists ts, Forall2 (fun s t => is_least (map ktime s) t) (time_slices len df) ts /\ StronglySorted Qlt ts.
Proof.
  intros L. destruct df as [|e0 df0] eqn:Ed; [exists []; split; constructor|]. rewrite <- Ed. assert (N : df <> []) by (rewrite Ed; discriminate). clear Ed e0 df0. destruct (C63_slices len df L N) as (t0 & ks & _ & S & F & _).
  revert F. generalize (time_slices len df). induction S as [|k ks S IH Fk]; intros sl F; inversion F as [|? s ? sl' [Hs1 Hs2] F']; subst; [exists []; split; constructor|].
  destruct (IH sl' F') as (ts & T1 & T2). destruct (min_time_some s Hs1) as (t & Et). apply min_time_least in Et. exists (t :: ts). split; [now constructor|]. constructor; [assumption|].
  rewrite Forall_forall in Fk. apply Forall_forall. intros u Hu.
  assert (X : exists s' k', In k' ks /\ is_least (map ktime s') u /\ forall e, In e s' <-> In e df /\ slice_number t0 len e k').
  { clear - F' T1 Hu. revert ts T1 Hu. induction F' as [|k' s' ks sl' [_ P] F' IH]; intros ts T1 Hu; inversion T1 as [|? t' ? ts' Q T1']; subst; [destruct Hu|]. destruct Hu as [<-|Hu]; [exists s', k'; split; [now left|auto]|]. destruct (IH ts' T1' Hu) as (s'' & k'' & A & B). exists s'', k''. split; [now right|assumption]. }
  destruct X as (s' & k' & Hk' & [U1 _] & P). specialize (Fk k' Hk'). destruct Et as [E1 _]. apply in_map_iff in E1, U1. destruct E1 as (e & <- & He), U1 as (e' & <- & He'). apply Hs2 in He. apply P in He'. destruct He as [_ [_ A]], He' as [_ [B _]]. assert (Le : (Datatypes.S k <= k')%nat) by lia. apply qn_le in Le. nra.
Qed.
Print Assumptions C63_times.
(** The rows used for the lifetime are those in the square (without its upper edges) or in the circle (with its border). *)
Theorem C63_region df x0 y0 shape size rows : select_lifetime_region df x0 y0 shape size = Ok rows ->
  forall e, In e rows <-> In e df /\ exists x y, kX e = Some x /\ kY e = Some y /\
    match shape with Square => - size <= x - x0 < size /\ - size <= y - y0 < size | Circle => (x - x0) * (x - x0) + (y - y0) * (y - y0) <= size * size | OtherShape => False end.
Proof.
  intros H e. unfold select_lifetime_region in H. destruct shape; [| |discriminate]; injection H as <-; rewrite filter_In; (split; intros [H1 H2]; (split; [assumption|])).
  - destruct (kX e) as [x|], (kY e) as [y|]; try discriminate. apply andb_true_iff in H2. rewrite !in_range_iff in H2. exists x, y. split; [reflexivity|]. split; [reflexivity|]. lra.
  - destruct H2 as (x & y & -> & -> & H2). apply andb_true_iff. rewrite !in_range_iff. lra.
  - destruct (kX e) as [x|], (kY e) as [y|]; try discriminate. apply Qleb_le in H2. now exists x, y.
  - destruct H2 as (x & y & -> & -> & H2). now apply Qleb_le.
Qed.
Print Assumptions C63_region.
Example C63_ex : map (map ktime) (time_slices 10 [ev_ex 0 35; ev_ex 0 5; ev_ex 0 14; ev_ex 0 15]) = [[5; 14]; [15]; [35]].
Proof. vm_compute. reflexivity. Qed.
Example C63_region_ex : select_lifetime_region [ev_ex 0 1; ev_ex 2 1] 1 1 Square 1 = Ok [ev_ex 0 1] /\ select_lifetime_region [ev_ex 0 1; ev_ex 2 1] 1 1 Circle 1 = Ok [ev_ex 0 1; ev_ex 2 1].
Proof. split; vm_compute; reflexivity. Qed.
