(** C23: who receives the energy of a dropped voxel, and how much *)
From Verif Require Import Base PeaksModel PeaksProofs CorrModel CorrSpec CorrProps LtSensors Arrays PaolinaModel PaolinaSpec PaolinaTracks PaolinaDrop.
Local Open Scope Q_scope.

(** ---- specification ---- *)
(** for squared distances a and m: sqrt a <= 1e-8 + (1 + 1e-5) sqrt m, the tolerance of numpy.isclose; s runs over the upper bounds of sqrt m *)
Definition nearly_least (a m : Q) : Prop := forall s, 0 <= s -> m <= s * s -> a <= ((1 # 100000000) + (1 + (1 # 100000)) * s) * ((1 # 100000000) + (1 + (1 # 100000)) * s).
Definition least (l : list Q) (m : Q) : Prop := In m l /\ forall x, In x l -> m <= x.
Definition distance2 (x y z x' y' z' : Q) : Q := (x - x') * (x - x') + (y - y') * (y - y') + (z - z') * (z - z').
(** the energy of [e] is shared among the chosen ones, proportionally to their energies [f] *)
Definition shared {A} (chosen : A -> Prop) (f : A -> Q) (e total : Q) (a : A) (f' : Q) : Prop := (chosen a -> f' == f a + e * f a / total) /\ (~ chosen a -> f' == f a).

(** ---- proofs ---- *)
Lemma isclose_spec a m : 0 <= m -> isclose_sqrt a m = true <-> nearly_least a m.
Proof.
  intros Hm. unfold isclose_sqrt, nearly_least. change atol with (1 # 100000000). change rtol1 with (1 + (1 # 100000)). set (t := 1 # 100000000). set (r := 1 + (1 # 100000)). assert (Pt : 0 < t) by reflexivity. assert (Pr : 0 < r) by reflexivity. clearbody t r. cbn zeta.
  set (l := a - t * t - r * r * m). assert (Pk : 0 < t * r) by now apply Qmult_lt_0_compat. rewrite orb_true_iff, !Qleb_le. split.
  - intros H s Hs Hms. assert (Hts : 0 <= t * r * s) by (apply Qmult_le_0_compat; lra). assert (Hrr : r * r * m <= r * r * (s * s)) by (apply Qmult_le_l'; [|assumption] || (rewrite (Qmult_comm (r * r) m), (Qmult_comm (r * r) (s * s)); apply Qmult_le_compat_r; [assumption|]; apply Qlt_le_weak, Qmult_lt_0_compat; assumption)).
    setoid_replace ((t + r * s) * (t + r * s)) with (t * t + 2 * (t * r * s) + r * r * (s * s)) by ring.
    assert (L : l <= 2 * (t * r * s)). { destruct H as [H|H]; [lra|]. destruct (Qlt_le_dec (2 * (t * r * s)) l) as [B|B]; [|assumption]. exfalso.
      assert (X : (2 * (t * r * s)) * (2 * (t * r * s)) < l * l). { apply Qle_lt_trans with (2 * (t * r * s) * l); [rewrite (Qmult_comm _ l); apply Qmult_le_compat_r; lra|apply Qmult_lt_compat_r; lra]. }
      assert (Y : 4 * (t * t) * (r * r) * m <= (2 * (t * r * s)) * (2 * (t * r * s))). { setoid_replace ((2 * (t * r * s)) * (2 * (t * r * s))) with (s * s * (4 * (t * t) * (r * r))) by ring. rewrite Qmult_comm. apply Qmult_le_compat_r; [assumption|]. apply Qlt_le_weak. repeat apply Qmult_lt_0_compat; auto; reflexivity. } lra. }
    unfold l in L. lra.
  - intros H. destruct (Qlt_le_dec 0 l) as [Pl|Nl]; [|left; assumption]. right. destruct (Qlt_le_dec (4 * (t * t) * (r * r) * m) (l * l)) as [B|B]; [|assumption]. exfalso.
    set (s0 := l / (2 * (t * r))). assert (P2 : 0 < 2 * (t * r)) by lra. assert (E0 : s0 * (2 * (t * r)) == l) by (unfold s0; field; lra). assert (P0 : 0 < s0) by (unfold s0; apply Qlt_shift_div_l; lra).
    assert (B0 : m < s0 * s0). { destruct (Qlt_le_dec m (s0 * s0)) as [X|X]; [assumption|]. exfalso. apply (Qlt_not_le _ _ B). rewrite <- E0. setoid_replace (s0 * (2 * (t * r)) * (s0 * (2 * (t * r)))) with (s0 * s0 * (4 * (t * t) * (r * r))) by ring. rewrite (Qmult_comm _ m). apply Qmult_le_compat_r; [assumption|]. apply Qlt_le_weak. repeat apply Qmult_lt_0_compat; auto; reflexivity. }
    set (G := l * l - 4 * (t * t) * (r * r) * m). assert (PG : 0 < G) by (unfold G; lra). set (d := G / (2 * l)). assert (Ed : d * (2 * l) == G) by (unfold d; field; lra). assert (Pd : 0 < d) by (unfold d; apply Qlt_shift_div_l; lra).
    set (C := 2 * (t * r) + 2 * (r * r) * s0 + r * r). assert (PC : 0 < C). { unfold C. assert (0 < r * r) by now apply Qmult_lt_0_compat. assert (0 < r * r * s0) by now apply Qmult_lt_0_compat. setoid_replace (2 * (r * r) * s0) with (2 * (r * r * s0)) by ring. lra. }
    set (b := d / (d + C)). assert (Eb : b * (d + C) == d) by (unfold b; field; lra). assert (Pb : 0 < b) by (unfold b; apply Qlt_shift_div_l; lra). assert (Lb : b < 1) by (unfold b; apply Qlt_shift_div_r; lra).
    assert (bC : b * C < d). { assert (0 < b * d) by now apply Qmult_lt_0_compat. setoid_replace (b * (d + C)) with (b * d + b * C) in Eb by ring. lra. }
    destruct (sqrt_row m b Pb Hm) as [R1 R2]. set (k := Z.to_nat (Z.sqrt (Qfloor (m / (b * b))))) in *. clearbody k. rewrite qn_S in R2. set (x := qn k * b) in *. assert (Px : 0 <= x) by (unfold x; apply Qmult_le_0_compat; [change 0 with (qn 0); apply qn_le; lia|lra]).
    setoid_replace ((qn k + 1) * b) with (x + b) in R2 by (unfold x; ring). clearbody x.
    specialize (H (x + b) ltac:(lra) ltac:(lra)).
    assert (Rr : r * r * (x * x) <= r * r * m). { rewrite (Qmult_comm _ (x * x)), (Qmult_comm _ m). apply Qmult_le_compat_r; [assumption|]. apply Qlt_le_weak, Qmult_lt_0_compat; assumption. }
    assert (X2 : (2 * (t * r) * x) * (2 * (t * r) * x) <= l * l - G). { unfold G. setoid_replace ((2 * (t * r) * x) * (2 * (t * r) * x)) with (x * x * (4 * (t * t) * (r * r))) by ring. setoid_replace (l * l - (l * l - 4 * (t * t) * (r * r) * m)) with (m * (4 * (t * t) * (r * r))) by ring. apply Qmult_le_compat_r; [assumption|]. apply Qlt_le_weak. repeat apply Qmult_lt_0_compat; auto; reflexivity. }
    set (y := 2 * (t * r) * x) in *. assert (Py : 0 <= y) by (unfold y; apply Qmult_le_0_compat; lra).
    assert (Yl : y < l). { destruct (Qlt_le_dec y l) as [Y|Y]; [assumption|]. exfalso. assert (l * l <= y * y) by (apply Qle_trans with (y * l); [apply Qmult_le_compat_r; lra|rewrite (Qmult_comm y l); apply Qmult_le_compat_r; lra]). lra. }
    assert (Yd : y + d <= l). { destruct (Qlt_le_dec l (y + d)) as [Y|Y]; [|assumption]. exfalso. assert (Z1 : (l - y) * (l + y) <= (l - y) * (2 * l)) by (rewrite !(Qmult_comm (l - y)); apply Qmult_le_compat_r; lra). assert (Z2 : (l - y) * (2 * l) < d * (2 * l)) by (apply Qmult_lt_compat_r; lra). assert (Z3 : (l - y) * (l + y) == l * l - y * y) by ring. lra. }
    assert (Xs : x < s0). { unfold s0. apply Qlt_shift_div_l; [assumption|]. unfold y in Yl. lra. }
    assert (Z4 : 2 * (r * r) * x * b <= 2 * (r * r) * s0 * b). { apply Qmult_le_compat_r; [|lra]. rewrite !(Qmult_comm (2 * (r * r))). apply Qmult_le_compat_r; [lra|]. assert (0 < r * r) by now apply Qmult_lt_0_compat. lra. }
    assert (Z5 : r * r * (b * b) <= r * r * b). { rewrite !(Qmult_comm (r * r)). apply Qmult_le_compat_r; [|apply Qlt_le_weak, Qmult_lt_0_compat; assumption]. rewrite <- (Qmult_1_l b) at 3. apply Qmult_le_compat_r; lra. }
    assert (Z6 : (t + r * (x + b)) * (t + r * (x + b)) == t * t + y + 2 * (t * r) * b + r * r * (x * x) + 2 * (r * r) * x * b + r * r * (b * b)) by (unfold y; ring). assert (Z7 : b * C == 2 * (t * r) * b + 2 * (r * r) * s0 * b + r * r * b) by (unfold C; ring). unfold l in Yd. lra.
Qed.
Lemma min_of_least l m : min_of l = Some m -> least l m.
Proof.
  intros H. split; [now apply min_of_in|]. destruct l as [|a l]; [discriminate|]. cbn in H. injection H as <-. revert a. induction l as [|b l IH]; intros a x Hx; cbn [fold_left].
  - destruct Hx as [<-|[]]. apply Qle_refl.
  - destruct Hx as [<-|[<-|Hx]].
    + eapply Qle_trans; [apply (IH (Qmin a b) (Qmin a b)); now left|apply Q.le_min_l].
    + eapply Qle_trans; [apply (IH (Qmin a b) (Qmin a b)); now left|apply Q.le_min_r].
    + apply IH. now right.
Qed.
Lemma Forall2_map_self {A B} (R : A -> B -> Prop) (f : A -> B) l : (forall a, In a l -> R a (f a)) -> Forall2 R l (map f l).
Proof. induction l as [|a l IH]; intros H; cbn; constructor; [apply H; now left|apply IH; intros; apply H; now right]. Qed.

(** A voxel with hits: its energy goes to the hits of adjacent voxels that are nearest to the barycentre of its own hits. *)
Theorem C23_shared_among_hits cur the out : vhits the <> [] -> drop_voxel cur the = Ok out ->
  exists x y z m total,
    (* the barycentre *)
    ~ sumF pe (vhits the) == 0 /\ x * sumF pe (vhits the) == sumF (fun h => pe h * px h) (vhits the) /\ y * sumF pe (vhits the) == sumF (fun h => pe h * py h) (vhits the) /\ z * sumF pe (vhits the) == sumF (fun h => pe h * pz h) (vhits the)
    (* the least distance to it *)
    /\ least (map (fun h => distance2 (px h) (py h) (pz h) x y z) (flat_map vhits (filter (neighbours CORNER the) cur))) m
    /\ let chosen v h := adjacent CORNER the v /\ nearly_least (distance2 (px h) (py h) (pz h) x y z) m in
       (* the energy of the chosen hits *)
       (exists who, (forall v h, In v cur -> In h (vhits v) -> (who v h = true <-> chosen v h)) /\ total == sumF pe (flat_map (fun v => filter (who v) (vhits v)) cur)) /\ ~ total == 0
       /\ Forall2 (fun v v' => same_place v v' /\ Forall2 (fun h h' => shared (chosen v) pe (vE the) total h (pe h')) (vhits v) (vhits v') /\ vE v' == sumF pe (vhits v')) cur out.
Proof.
  intros NE H. unfold drop_voxel in H. destruct (vhits the) as [|h0 hs] eqn:V; [contradiction|]. rewrite <- V in *. destruct (Qeqb_spec (sumF pe (vhits the)) 0) as [Z|NZ]; [discriminate|].
  set (x := wmean px (vhits the)) in *. set (y := wmean py (vhits the)) in *. set (z := wmean pz (vhits the)) in *. destruct (existsb _ cur); [discriminate|].
  destruct (min_of _) as [m|] eqn:M; [|discriminate]. set (total := sumF pe (flat_map _ _)) in H. destruct (Qeqb_spec total 0) as [ZT|NT]; [discriminate|].
  injection H as <-. exists x, y, z, m, total.
  assert (W : forall f, wmean f (vhits the) * sumF pe (vhits the) == sumF (fun h => pe h * f h) (vhits the)) by (intros f; unfold wmean; field; assumption).
  split; [assumption|]. split; [apply W|]. split; [apply W|]. split; [apply W|].
  assert (D : forall h, d3 (hpos h) (x, y, z) = distance2 (px h) (py h) (pz h) x y z) by reflexivity.
  assert (ML : least (map (fun h => distance2 (px h) (py h) (pz h) x y z) (flat_map vhits (filter (neighbours CORNER the) cur))) m).
  { apply min_of_least. rewrite <- M. f_equal. clear. induction (filter _ cur) as [|v l IH]; cbn; [reflexivity|]. now rewrite map_app, IH. }
  split; [exact ML|]. cbn zeta.
  assert (Hm : 0 <= m). { destruct ML as [Im _]. apply in_map_iff in Im. destruct Im as (h & <- & _). rewrite <- D. apply d3_nonneg. }
  split; [|split; [exact NT|]].
  - exists (fun v h => neighbours CORNER the v && isclose_sqrt (d3 (hpos h) (x, y, z)) m). split.
    + intros v h _ _. now rewrite andb_true_iff, neighbours_iff, (isclose_spec _ _ Hm), D.
    + unfold total. clear. induction cur as [|v l IH]; [reflexivity|]. cbn [filter flat_map]. rewrite sumF_app, <- IH. destruct (neighbours CORNER the v); cbn [andb flat_map]; [rewrite sumF_app; reflexivity|].
      assert (E : filter (fun _ : phit => false) (vhits v) = []) by (induction (vhits v); auto). rewrite E. unfold sumF at 2. cbn. ring.
  - rewrite map_map. apply Forall2_map_self. intros v Hv. set (share := fun h => if isclose_sqrt (d3 (hpos h) (x, y, z)) m then set_pe (pe h * (1 + vE the / total)) h else h).
    assert (SH : forall h, same_hit_position h (share h)) by (intros h; unfold share; destruct (isclose_sqrt _ m); repeat split).
    destruct (neighbours CORNER the v) eqn:N.
    + split; [|split; [|reflexivity]].
      * unfold same_place. cbn. do 7 (split; [reflexivity|]). apply Forall2_map_self. intros h _. apply SH.
      * cbn [vhits set_E set_hits]. apply Forall2_map_self. intros h _. apply neighbours_iff in N. change (if isclose_sqrt (d3 (hpos h) (x, y, z)) m then set_pe (pe h * (1 + vE the / total)) h else h) with (share h). split.
        -- intros [_ C]. apply (isclose_spec _ _ Hm) in C. rewrite <- D in C. unfold share. match goal with |- context [isclose_sqrt ?d m] => change d with (d3 (hpos h) (x, y, z)) end. rewrite C. cbn [pe set_pe]. field. assumption.
        -- intros C. unfold share. destruct (isclose_sqrt _ m) eqn:X; [|reflexivity]. exfalso. apply C. split; [assumption|]. now apply (isclose_spec _ _ Hm) in X.
    + split; [|split; [|reflexivity]].
      * unfold same_place. cbn. do 7 (split; [reflexivity|]). apply same_hit_refl.
      * cbn. assert (F : forall l, Forall2 (fun h h' => shared (fun h => adjacent CORNER the v /\ nearly_least (distance2 (px h) (py h) (pz h) x y z) m) pe (vE the) total h (pe h')) l l); [|apply F].
        induction l as [|h l IH]; constructor; [|assumption]. split; [|reflexivity]. intros [A _]. apply neighbours_iff in A. congruence.
Qed.
Print Assumptions C23_shared_among_hits.

(** A voxel without hits: its energy goes to the nearest adjacent voxels. *)
Theorem C23_shared_among_voxels cur the out : vhits the = [] -> drop_voxel cur the = Ok out ->
  exists m total, least (map (fun v => distance2 (vx the) (vy the) (vz the) (vx v) (vy v) (vz v)) (filter (neighbours CORNER the) cur)) m
    /\ let chosen v := adjacent CORNER the v /\ nearly_least (distance2 (vx the) (vy the) (vz the) (vx v) (vy v) (vz v)) m in
       (exists who, (forall v, In v cur -> (who v = true <-> chosen v)) /\ total == sumF vE (filter who cur)) /\ ~ total == 0
       /\ Forall2 (fun v v' => same_place v v' /\ shared chosen vE (vE the) total v (vE v') /\ vhits v' = vhits v) cur out.
Proof.
  intros V H. unfold drop_voxel in H. rewrite V in H. destruct (min_of _) as [m|] eqn:M; [|discriminate]. set (sel := fun v => neighbours CORNER the v && isclose_sqrt (d3 (vpos the) (vpos v)) m) in *.
  destruct (Qeqb_spec (sumF vE (filter sel cur)) 0) as [ZT|NT]; [discriminate|]. injection H as <-. exists m, (sumF vE (filter sel cur)). apply min_of_least in M. split; [exact M|]. cbn zeta.
  assert (Hm : 0 <= m) by (destruct M as [Im _]; apply in_map_iff in Im; destruct Im as (v & <- & _); apply d3_nonneg).
  assert (S : forall v, sel v = true <-> adjacent CORNER the v /\ nearly_least (distance2 (vx the) (vy the) (vz the) (vx v) (vy v) (vz v)) m) by (intros v; unfold sel; rewrite andb_true_iff, neighbours_iff, (isclose_spec _ _ Hm); reflexivity).
  split; [exists sel; split; [auto|reflexivity]|]. split; [exact NT|]. apply Forall2_map_self. intros v Hv. match goal with |- context [if ?b then set_E _ _ else _] => change b with (sel v) end. destruct (sel v) eqn:E.
  - split; [unfold same_place; cbn; do 7 (split; [reflexivity|]); apply same_hit_refl|]. split; [|reflexivity]. split; [intros _; cbn [vE set_E]; field; assumption|]. intros C. exfalso. apply C. now apply S.
  - split; [apply same_place_refl|]. split; [|reflexivity]. split; [|reflexivity]. intros C. apply S in C. congruence.
Qed.
Print Assumptions C23_shared_among_voxels.

(** two hits at the same distance from the barycentre share the energy, a farther one gets nothing *)
Definition ex_hit (x e : Q) : phit := {| px := x; py := 0; pz := 0; pe := e; pother := 0 |}.
Definition ex_voxel (i : nat) (x e : Q) (hs : list phit) : voxel := {| vid := i; vx := x; vy := 0; vz := 0; vE := e; szx := 10; szy := 10; szz := 10; vhits := hs |}.
Example C23_shared_ex : exists out, drop_voxel [ex_voxel 1 10 7 [ex_hit 8 1; ex_hit 12 6]; ex_voxel 2 (-10) 3 [ex_hit (-8) 3]; ex_voxel 3 40 5 [ex_hit 40 5]] (ex_voxel 0 0 4 [ex_hit (-2) 2; ex_hit 2 2]) = Ok out
  /\ map (fun v => map (fun h => Qred (pe h)) (vhits v)) out = [[2; 6]; [6]; [5]] /\ map (fun v => Qred (vE v)) out = [8; 6; 5].
Proof. eexists. split; [vm_compute; reflexivity|]. vm_compute. split; reflexivity. Qed.
