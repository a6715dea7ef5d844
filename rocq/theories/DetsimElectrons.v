(** C57: drift and diffusion create no electrons; C67: the hits that are simulated *)
From Verif Require Import Base Arrays PeaksModel PeaksProofs BuffersModel BuffersProofs BuffersEvent BuffersProps WfmProps XyProps DbThr KrProps DetsimModel DetsimSpec DetsimProps DetsimKeep.
Local Open Scope Q_scope.

Lemma repeat_owners {A} (l : list A) n : np_repeat l n = owners l n.
Proof. unfold np_repeat, owners. revert n. induction l as [|a l IH]; intros [|k n]; try reflexivity. cbn. now rewrite <- IH. Qed.
Lemma owners_map {A B} (f : A -> B) l n : owners (map f l) n = map f (owners l n).
Proof.
  unfold owners. revert n. induction l as [|a l IH]; intros [|k n]; try reflexivity. cbn [map combine flat_map fst snd]. rewrite IH, map_app. f_equal.
  induction k as [|k IHk]; [reflexivity|]. cbn. now rewrite IHk.
Qed.
Lemma owners_length {A} (l : list A) n : length l = length n -> length (owners l n) = sumN n.
Proof.
  unfold owners. revert n. induction l as [|a l IH]; intros [|k n] H; try discriminate; [reflexivity|]. cbn [combine flat_map fst snd]. rewrite app_length, repeat_length, IH by (cbn in H; lia). reflexivity.
Qed.
Lemma count_le {A} (p : A -> bool) l : (count p l <= length l)%nat.
Proof. unfold count. apply filter_length_le'. Qed.

Section Props.
Variable poisson : nat -> nat.
Variable gauss : nat -> Q.
Variable sqrtQ : Q -> Q.
Variable decay : nat -> nat -> Q.
Variables draw_x draw_y draw_z draw_ph : nat -> Q.

Lemma ionization_length wi fano es n : generate_ionization_electrons poisson gauss sqrtQ wi fano es = Ok n -> length n = length es.
Proof.
  unfold generate_ionization_electrons. destruct (Qeqb wi 0); [discriminate|]. intros H. apply rmap_length in H. rewrite H, combine_length, seq_length. lia.
Qed.

Lemma mapi_from_combine (f : nat -> Q * nat -> nat) k (zs : list Q) n : length zs = length n -> (forall i p, (f i p <= snd p)%nat) ->
  Forall2 (fun a b => a <= b)%nat (mapi_from k f (combine zs n)) n.
Proof.
  intros L H. revert k n L. induction zs as [|z zs IH]; intros k [|a n] L; try discriminate; cbn; constructor; [apply (H k (z, a))|]. apply IH. cbn in L. lia.
Qed.

(** the number of electrons of each hit after the drift is at most the number before it *)
Theorem C57_drift v zs n n' : drift_electrons decay v zs n = Ok n' -> Forall2 (fun a b => a <= b)%nat n' n.
Proof.
  unfold drift_electrons. destruct (Qeqb v 0); [discriminate|]. destruct (Nat.eqb_spec (length zs) (length n)) as [L|L]; [|discriminate]. cbn [negb]. destruct zs as [|z zs]; [discriminate|]. intros H. injection H as <-.
  apply (mapi_from_combine (fun i p => attachment decay i (snd p) (fst p / v)) 0 (z :: zs) n L). intros i p. unfold attachment. etransitivity; [apply count_le|]. now rewrite seq_length.
Qed.
(** with the same draws a longer drift loses at least as many *)
Theorem C57_longer v zs zs' n a b : drift_electrons decay v zs n = Ok a -> drift_electrons decay v zs' n = Ok b -> 0 < v -> Forall2 Qle zs zs' -> Forall2 (fun x y => y <= x)%nat a b.
Proof.
  intros HA HB V F. unfold drift_electrons in *. destruct (Qeqb v 0); [discriminate|]. destruct (Nat.eqb_spec (length zs) (length n)) as [L|L]; [|discriminate]. destruct (Nat.eqb_spec (length zs') (length n)) as [L'|L']; [|discriminate]. cbn [negb] in *.
  assert (A : a = mapi (fun i p => attachment decay i (snd p) (fst p / v)) (combine zs n)) by (destruct zs; congruence).
  assert (B : b = mapi (fun i p => attachment decay i (snd p) (fst p / v)) (combine zs' n)) by (destruct zs'; congruence). subst a b. clear HA HB L'.
  unfold mapi. generalize 0%nat as k. revert n L. induction F as [|z z' zs zs' Hz F IH]; intros [|m n] L k; try discriminate; cbn [combine mapi_from]; constructor; [|apply IH; cbn in L; lia].
  unfold attachment, count. cbn [fst snd]. generalize (seq 0 m). intros q. assert (D : z / v <= z' / v) by (apply Qle_shift_div_l; [assumption|]; setoid_replace (z / v * v) with z by (field; lra); assumption).
  induction q as [|x q IHq]; [reflexivity|]. cbn [filter]. destruct (Qltb_spec (z / v) (decay k x)), (Qltb_spec (z' / v) (decay k x)); cbn [length]; try lia. lra.
Qed.

Lemma nth_error_mapi_from {A B} (f : nat -> A -> B) l k j : nth_error (mapi_from k f l) j = option_map (f (k + j)%nat) (nth_error l j).
Proof.
  revert k j. induction l as [|a l IH]; intros k [|j]; cbn; try reflexivity; [now rewrite Nat.add_0_r|]. rewrite IH. now rewrite Nat.add_succ_r.
Qed.
Lemma normal_spec d m s r : normal d m s = Ok r -> length m = length s -> length r = length m /\ forall k a b, nth_error m k = Some a -> nth_error s k = Some b -> nth_error r k = Some (a + b * d k).
Proof.
  unfold normal. destruct (existsb _ s); [discriminate|]. intros H L. injection H as <-. split; [rewrite length_mapi, combine_length; lia|]. intros k a b Ha Hb.
  unfold mapi. rewrite nth_error_mapi_from. assert (E : nth_error (combine m s) k = Some (a, b)); [|now rewrite E].
  revert s L k Ha Hb. induction m as [|x m IH]; intros [|y s] L [|k] Ha Hb; cbn in *; try discriminate; [congruence|]. apply IH; [lia|assumption|assumption].
Qed.

Lemma nth_error_map2' {A B C} (f : A -> B -> C) l m k : nth_error (map2 f l m) k = match nth_error l k, nth_error m k with Some a, Some b => Some (f a b) | _, _ => None end.
Proof. revert m k. induction l as [|a l IH]; intros [|b m] [|k]; cbn; try reflexivity; [destruct (nth_error l k); reflexivity|]. apply IH. Qed.
Lemma nth_error_combine' {A B} (l : list A) (m : list B) k : nth_error (combine l m) k = match nth_error l k, nth_error m k with Some a, Some b => Some (a, b) | _, _ => None end.
Proof. revert m k. induction l as [|a l IH]; intros [|b m] [|k]; cbn; try reflexivity; [destruct (nth_error l k); reflexivity|]. apply IH. Qed.
Lemma length_map2' {A B C} (f : A -> B -> C) l m : length (map2 f l m) = Nat.min (length l) (length m).
Proof. revert m. induction l as [|a l IH]; intros [|b m]; cbn; try reflexivity. now rewrite IH. Qed.

(** every electron at the EL belongs to a hit, in the order of the hits, no hit has more electrons than it produced, and its time is that of the hit plus its drift time;
    the electrons of a hit at the anode or behind it do not move *)
Theorem C57_event wi fano v tr lo gain conde hits els dz :
  simulate_ielectrons poisson gauss sqrtQ decay draw_x draw_y draw_z draw_ph wi fano v tr lo gain conde hits = Ok (els, dz) -> (forall q, q == 0 -> sqrtQ q == 0) ->
  exists produced n, generate_ionization_electrons poisson gauss sqrtQ wi fano (map he hits) = Ok produced /\ length produced = length hits /\ Forall2 (fun a b => a <= b)%nat n produced /\
  length els = sumN n /\ length dz = sumN n /\ length (owners hits n) = sumN n /\
  forall k h e z, nth_error (owners hits n) k = Some h -> nth_error els k = Some e -> nth_error dz k = Some z ->
    et e == htime h + z / v /\ (hz h <= 0 -> ex e == hx h /\ ey e == hy h /\ z == 0).
Proof.
  intros H SQ. unfold simulate_ielectrons in H. destruct (generate_ionization_electrons _ _ _ wi fano (map he hits)) as [n0|] eqn:G; [|discriminate]. cbn [rbind] in H.
  destruct (drift_electrons decay v (map hz hits) n0) as [n|] eqn:D; [|discriminate]. cbn [rbind] in H.
  destruct (diffuse_electrons sqrtQ draw_x draw_y draw_z (map hx hits) (map hy hits) (map hz hits) n tr lo) as [[[dx dy] dz']|] eqn:F; [|discriminate]. cbn [rbind] in H.
  destruct (normal draw_ph (repeat gain (sumN n)) (repeat (sqrtQ (gain * conde)) (sumN n))) as [ph|] eqn:P; [|discriminate]. cbn [rbind] in H.
  match type of H with Ok (?a, ?b) = Ok (?c, ?d) => assert (H1 : a = c) by congruence; assert (H2 : b = d) by congruence end. clear H. subst dz'.
  exists n0, n. split; [reflexivity|]. pose proof (ionization_length _ _ _ _ G) as L0. rewrite map_length in L0. split; [assumption|]. pose proof (C57_drift _ _ _ _ D) as FD. split; [assumption|].
  assert (L : length hits = length n) by (apply Forall2_len in FD; congruence).
  assert (LO : length (owners hits n) = sumN n) by now apply owners_length.
  unfold diffuse_electrons in F. rewrite !repeat_owners, !owners_map in F. rewrite !map_map in F. set (ow := owners hits n) in *.
  destruct (normal draw_x _ _) as [x'|] eqn:X in F; [|discriminate]. destruct (normal draw_y _ _) as [y'|] eqn:Y in F; [|discriminate]. destruct (normal draw_z _ _) as [z'|] eqn:Z in F; [|discriminate].
  cbn [rbind] in F. injection F as -> -> ->. apply normal_spec in X; [|now rewrite !map_length]. apply normal_spec in Y; [|now rewrite !map_length]. apply normal_spec in Z; [|now rewrite !map_length].
  rewrite !map_length in X, Y, Z. destruct X as [X1 X2], Y as [Y1 Y2], Z as [Z1 Z2]. apply normal_spec in P; [|now rewrite !repeat_length]. rewrite repeat_length in P. destruct P as [P1 _].
  assert (LT : length (np_repeat (map htime hits) n) = sumN n) by (rewrite repeat_owners, owners_map, map_length; exact LO).
  assert (LE : length els = sumN n). { rewrite <- H1. rewrite length_map2', !combine_length, length_map2', map_length, X1, Y1, Z1, LT, P1. lia. }
  split; [assumption|]. split; [lia|]. split; [exact LO|]. intros k h e z Hh He Hz.
  assert (KX := X2 k (hx h) (sqrtQ (if Qltb (hz h) 0 then 0 else hz h) * tr) ltac:(rewrite nth_error_map, Hh; reflexivity) ltac:(rewrite nth_error_map, Hh; reflexivity)).
  assert (KY := Y2 k (hy h) (sqrtQ (if Qltb (hz h) 0 then 0 else hz h) * tr) ltac:(rewrite nth_error_map, Hh; reflexivity) ltac:(rewrite nth_error_map, Hh; reflexivity)).
  assert (KZ := Z2 k (if Qltb (hz h) 0 then 0 else hz h) (sqrtQ (if Qltb (hz h) 0 then 0 else hz h) * lo) ltac:(rewrite nth_error_map, Hh; reflexivity) ltac:(rewrite nth_error_map, Hh; reflexivity)).
  rewrite Hz in KZ. injection KZ as KZ.
  rewrite <- H1, nth_error_map2', !nth_error_combine', nth_error_map2', KX, KY, Hz in He. rewrite repeat_owners, owners_map, nth_error_map in He. fold ow in He. rewrite Hh in He. cbn [option_map] in He.
  destruct (nth_error (map np_round ph) k) as [q|]; [|discriminate]. injection He as <-. cbn [et ex ey]. cbn [fst snd]. split; [ring|]. intros N.
  assert (E0 : (if Qltb (hz h) 0 then 0 else hz h) == 0) by (destruct (Qltb_spec (hz h) 0); lra). specialize (SQ _ E0). rewrite KZ, SQ, E0. repeat split; ring.
Qed.
End Props.

(** the simulation succeeds on every event with hits of non-negative energy *)
Theorem C57_succeeds poisson gauss sqrtQ decay draw_x draw_y draw_z draw_ph wi fano v tr lo gain conde hits :
  0 < wi -> 0 < v -> 0 <= tr -> 0 <= lo -> hits <> [] -> (forall h, In h hits -> 0 <= he h) -> (forall q, 0 <= sqrtQ q) ->
  exists r, simulate_ielectrons poisson gauss sqrtQ decay draw_x draw_y draw_z draw_ph wi fano v tr lo gain conde hits = Ok r.
Proof.
  intros W V T L NE E SQ. unfold simulate_ielectrons.
  assert (G : exists n, generate_ionization_electrons poisson gauss sqrtQ wi fano (map he hits) = Ok n).
  { unfold generate_ionization_electrons. destruct (Qeqb_spec wi 0); [lra|]. set (l := combine _ _). assert (A : forall p, In p l -> 0 <= snd p).
    { intros [i e] Hp. unfold l in Hp. apply in_combine_r in Hp. apply in_map_iff in Hp. destruct Hp as (h & <- & Hh). now apply E. }
    clearbody l. induction l as [|p l IH]; [eexists; reflexivity|]. cbn [rmap]. assert (Y : exists b, ionization poisson gauss sqrtQ wi fano (fst p) (snd p) = Ok b).
    { unfold ionization. cbv zeta. destruct (Qltb _ 1); [|eexists; reflexivity]. assert (0 <= snd p / wi). { apply Qle_shift_div_l; [assumption|]. rewrite Qmult_0_l. apply A. now left. } destruct (Qltb_spec (snd p / wi) 0); [lra|eexists; reflexivity]. }
    destruct Y as [b ->]. destruct IH as [bs ->]; [intros; apply A; now right|]. eexists; reflexivity. }
  destruct G as [n0 G]. rewrite G. cbn [rbind]. pose proof (ionization_length _ _ _ _ _ _ _ G) as L0. rewrite map_length in L0.
  assert (D : exists n, drift_electrons decay v (map hz hits) n0 = Ok n).
  { unfold drift_electrons. destruct (Qeqb_spec v 0); [lra|]. rewrite map_length, L0, Nat.eqb_refl. cbn [negb]. destruct hits; [contradiction|]. eexists; reflexivity. }
  destruct D as [n ->]. cbn [rbind]. assert (N : forall d m (s : list Q), (forall q, In q s -> 0 <= q) -> exists r, normal d m s = Ok r).
  { intros d m s H. unfold normal. assert (X : existsb (fun s => Qltb s 0) s = false). { destruct (existsb _ s) eqn:X; [|reflexivity]. apply existsb_exists in X. destruct X as (q & Hq & X). apply Qltb_lt in X. specialize (H q Hq). lra. } rewrite X. eexists; reflexivity. }
  unfold diffuse_electrons. cbv zeta. set (sq := map sqrtQ _).
  assert (SG : forall w, 0 <= w -> forall q, In q (map (fun s => s * w) sq) -> 0 <= q). { intros w Hw q Hq. apply in_map_iff in Hq. destruct Hq as (s & <- & Hs). unfold sq in Hs. apply in_map_iff in Hs. destruct Hs as (z & <- & _). specialize (SQ z). nra. }
  destruct (N draw_x (np_repeat (map hx hits) n) _ (SG tr T)) as [a ->]. destruct (N draw_y (np_repeat (map hy hits) n) _ (SG tr T)) as [b ->]. cbn [rbind].
  match goal with |- context [normal draw_z ?m ?s] => destruct (N draw_z m s (SG lo L)) as [c ->] end. cbn [rbind].
  match goal with |- context [normal draw_ph ?m ?s] => destruct (N draw_ph m s) as [p ->] end; [|eexists; reflexivity]. intros q Hq. apply repeat_spec in Hq. subst q. apply SQ.
Qed.

(** C67: the hits kept are exactly those less than max_time after the first hit, in order *)
Theorem C67_delayed max_time hits out : filter_hits_after_max_time max_time hits = Ok out ->
  exists first, (exists h, In h hits /\ first == htime h) /\ (forall h, In h hits -> first <= htime h) /\ out = filter (fun h => Qltb (htime h - first) max_time) hits.
Proof.
  intros H. destruct hits as [|h hs]; [discriminate|]. unfold filter_hits_after_max_time in H. cbv zeta in H.
  assert (F : fold_left (fun m g => Qmin m (htime g)) hs (htime h) = fold_left Qmin (map htime hs) (htime h)).
  { clear H. generalize (htime h). induction hs as [|g hs IH]; intros q; cbn; [reflexivity|apply IH]. }
  rewrite F in H. set (m := fold_left Qmin (map htime hs) (htime h)) in *. destruct (fold_min (map htime hs) (htime h)) as [M1 M2]. fold m in M1, M2. destruct (fold_min_in (map htime hs) (htime h)) as (x & X1 & X2). fold m in X2.
  exists m. split; [|split].
  - change (htime h :: map htime hs) with (map htime (h :: hs)) in X1. apply in_map_iff in X1. destruct X1 as (g & <- & Hg). eauto.
  - intros g [<-|Hg]; [assumption|]. apply M2. now apply in_map.
  - destruct (forallb _ (h :: hs)) eqn:A in H; injection H as <-; [|reflexivity]. symmetry. apply filter_all. now apply forallb_forall.
Qed.
(** at least one hit is kept when max_time is positive *)
Theorem C67_some max_time hits out : filter_hits_after_max_time max_time hits = Ok out -> 0 < max_time -> out <> [].
Proof.
  intros H P. destruct (C67_delayed _ _ _ H) as (f & (h & Hh & E) & _ & ->). intros C. assert (I : In h (filter (fun h => Qltb (htime h - f) max_time) hits)); [|now rewrite C in I].
  apply filter_In. split; [assumption|]. apply Qltb_lt. lra.
Qed.
(** the selection by volume keeps exactly the hits of the active volume, and of the buffer volume when asked, in order *)
Theorem C67_volume ACTIVE BUFFER active_only names hits active buff :
  (forall p, In p names -> fst p = ACTIVE -> snd p = active) -> (forall p, In p names -> fst p = BUFFER -> snd p = buff) ->
  (exists p, In p names /\ fst p = ACTIVE) -> (exists p, In p names /\ fst p = BUFFER) ->
  exists keep, hits_selector ACTIVE BUFFER active_only names hits = Ok (filter keep hits) /\
  forall h, keep h = true <-> hlabel h = active \/ (active_only = false /\ hlabel h = buff).
Proof.
  intros A B EA EB. assert (LN : forall name v, (forall p, In p names -> fst p = name -> snd p = v) -> (exists p, In p names /\ fst p = name) -> label_number names name = Ok v).
  { intros name v F (p & Hp & E). unfold label_number. destruct (filter _ names) as [|q l] eqn:Q.
    - assert (I : In p (filter (fun p => Nat.eqb (fst p) name) names)) by (apply filter_In; split; [assumption|now apply Nat.eqb_eq]). now rewrite Q in I.
    - f_equal. assert (I : In q (filter (fun p => Nat.eqb (fst p) name) names)) by (rewrite Q; now left). apply filter_In in I. destruct I as [I1 I2]. apply F; [assumption|]. now apply Nat.eqb_eq. }
  unfold hits_selector. rewrite (LN _ _ A EA), (LN _ _ B EB). cbn [rbind]. eexists. split; [reflexivity|]. intros h. cbv beta. rewrite orb_true_iff, andb_true_iff, !Nat.eqb_eq, negb_true_iff. reflexivity.
Qed.

Definition ex_hits : list mchit := [{| hx := 1; hy := 2; hz := 10; he := 30; htime := 5; hlabel := 1 |}; {| hx := 3; hy := 4; hz := 0; he := 20; htime := 6; hlabel := 2 |}; {| hx := 3; hy := 4; hz := 2; he := 1; htime := 90; hlabel := 1 |}].
Example C57_example : exists els dz, simulate_ielectrons (fun _ => 3%nat) (fun _ => 1) (fun q => q) (fun i k => qn (4 * k)) (fun _ => 1) (fun _ => 0) (fun _ => -(1)) (fun _ => 0)
    10 (1#10) 1 1 (1#10) 100 1 ex_hits = Ok (els, dz) /\ length els = 4%nat /\ map Qred dz = [0; 0; 9#5; 9#5] /\ map (fun e => Qred (et e)) els = [6; 6; 459#5; 459#5].
Proof. eexists. eexists. split; [vm_compute; reflexivity|]. vm_compute. repeat split. Qed.
Example C67_example : exists out, filter_hits_after_max_time 50 ex_hits = Ok out /\ length out = 2%nat /\ hits_selector 7 8 true [(7, 1); (8, 2)]%nat out = Ok (firstn 1 ex_hits).
Proof. eexists. split; [reflexivity|]. split; reflexivity. Qed.
Print Assumptions C57_drift. Print Assumptions C57_longer. Print Assumptions C57_event. Print Assumptions C57_succeeds.
Print Assumptions C67_delayed. Print Assumptions C67_some. Print Assumptions C67_volume.
