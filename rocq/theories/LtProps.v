(** C76: the functions of the light tables of the scintillation light *)
From Coq Require Import Lia Lqa Sorted.
From Verif Require Import Base Arrays PeaksModel BuffersModel BuffersEvent WfmModel WfmProps LtModel LtSpec.
Local Open Scope Q_scope.

Lemma no_repeats_cons x l : no_repeats (x :: l) = match l with [] => [x] | y :: _ => if Qeqb x y then no_repeats l else x :: no_repeats l end.
Proof. destruct l; reflexivity. Qed.
Lemma in_no_repeats l c : In c (no_repeats l) -> In c l.
Proof. induction l as [|x l IH]; [intros []|]. rewrite no_repeats_cons. destruct l as [|y l]; [trivial|]. destruct (Qeqb x y); [intros; right; auto|]. intros [<-|H]; [now left|right; auto]. Qed.
Lemma no_repeats_all l d : In d l -> exists c, In c (no_repeats l) /\ c == d.
Proof.
  revert d. induction l as [|x l IH]; intros d; [intros []|]. rewrite no_repeats_cons. destruct l as [|y l].
  - intros [<-|[]]. exists x. split; [now left|reflexivity].
  - destruct (Qeqb x y) eqn:E.
    + intros [<-|H]; [|auto]. apply Qeqb_eq in E. destruct (IH y (or_introl eq_refl)) as (c & H & Hc). exists c. split; [assumption|now rewrite Hc, E].
    + intros [<-|H]; [exists x; split; [now left|reflexivity]|]. destruct (IH d H) as (c & Hc & E'). exists c. split; [now right|assumption].
Qed.
Lemma no_repeats_sorted l : StronglySorted Qle l -> StronglySorted Qlt (no_repeats l).
Proof.
  induction l as [|x l IH]; intros S; [constructor|]. inversion S as [|? ? S' F]; subst. rewrite no_repeats_cons. destruct l as [|y l]; [repeat constructor|]. destruct (Qeqb x y) eqn:E; [auto|].
  constructor; [auto|]. apply Forall_forall. intros c Hc. apply Qeqb_neq in E. inversion F as [|? ? F1 F2]; subst. assert (x < y) by (destruct (Qlt_le_dec x y); [assumption|exfalso; apply E; lra]).
  apply in_no_repeats in Hc. destruct Hc as [<-|Hc]; [assumption|]. inversion S' as [|? ? _ F3]; subst. rewrite Forall_forall in F3. specialize (F3 c Hc). lra.
Qed.
Lemma unique_sorted l : StronglySorted Qlt (np_unique l).
Proof. apply no_repeats_sorted, sortQ_sorted. Qed.
Lemma in_unique l c : In c (np_unique l) -> In c l.
Proof. intros H. apply in_no_repeats in H. eapply Permutation_in; [apply sortQ_perm|exact H]. Qed.
Lemma unique_all l d : In d l -> exists c, In c (np_unique l) /\ c == d.
Proof. intros H. apply no_repeats_all. eapply Permutation_in; [symmetry; apply sortQ_perm|exact H]. Qed.

Lemma increasing_ok l : StronglySorted Qlt l -> increasing l = true.
Proof. induction l as [|x [|y l] IH]; intros S; [reflexivity..|]. change (Qltb x y && increasing (y :: l) = true). inversion S as [|? ? S' F]; subst. rewrite IH by assumption. inversion F; subst. rewrite (proj2 (Qltb_lt x y)) by assumption. reflexivity. Qed.
Lemma middles_above c l m : StronglySorted Qlt (c :: l) -> In m (middles (c :: l)) -> c < m.
Proof.
  revert c. induction l as [|d l IH]; intros c S H; [destruct H|]. cbn [middles] in H. inversion S as [|? ? S' F]; subst. inversion F as [|? ? F1 F2]; subst. destruct H as [<-|H].
  - apply Qlt_shift_div_l; lra.
  - specialize (IH d S' H). lra.
Qed.
Lemma half a b : (b + a) / 2 == (1 # 2) * b + (1 # 2) * a.
Proof. field. Qed.
Ltac abses := repeat match goal with |- context[Qabs ?a] => pattern (Qabs a); apply Qabs_case; intros end.
(** the number of half-way points below x is the place of the nearest centre *)
Lemma pick_nearest c l x : StronglySorted Qlt (c :: l) -> let k := length (filter (fun e => Qltb e x) (middles (c :: l))) in
  (k < length (c :: l))%nat /\ nearest_centre (c :: l) x (nth k (c :: l) 0).
Proof.
  revert c. induction l as [|d l IH]; intros c S; cbn zeta.
  - cbn [middles filter length nth]. split; [lia|]. split; [now left|]. intros e [<-|[]]. split; intros; lra.
  - inversion S as [|? ? S' F]; subst. inversion F as [|? ? F1 F2]; subst. specialize (IH d S'). cbn zeta in IH. change (middles (c :: d :: l)) with ((d + c) / 2 :: middles (d :: l)). cbn [filter]. pose proof (half c d) as Hm.
    destruct (Qltb ((d + c) / 2) x) eqn:E.
    + apply Qltb_lt in E. set (k := length (filter (fun e => Qltb e x) (middles (d :: l)))) in *.
      change (length ((d + c) / 2 :: filter (fun e => Qltb e x) (middles (d :: l)))) with (Datatypes.S k). change (nth (Datatypes.S k) (c :: d :: l) 0) with (nth k (d :: l) 0).
      destruct IH as (K & (I1 & I2)). split; [cbn [length] in *; lia|]. split; [right; exact I1|]. intros e [<-|He]; [|auto].
      destruct (I2 d (or_introl eq_refl)) as (A & _). set (n := nth _ (d :: l) 0) in *. clearbody n. assert (Qabs (x - d) < Qabs (x - c)) by (abses; lra). split; [lra|intros; exfalso; lra].
    + assert (Hx : x <= (d + c) / 2) by (apply Qnot_lt_le; intros C; apply Qltb_lt in C; congruence). assert (Z : filter (fun e => Qltb e x) (middles (d :: l)) = []).
      { apply filter_none. intros m Hm'. apply middles_above in Hm'; [|assumption]. destruct (Qltb m x) eqn:C; [|reflexivity]. apply Qltb_lt in C. lra. }
      rewrite Z. cbn [length nth]. split; [lia|]. split; [now left|]. intros e He. assert (He' : e = c \/ d <= e).
      { destruct He as [<-|[<-|He]]; [now left|right; lra|right]. inversion S' as [|? ? _ F3]; subst. rewrite Forall_forall in F3. specialize (F3 e He). lra. }
      destruct He' as [->|He']; [split; intros; lra|]. split; [abses; lra|intros; lra].
Qed.
Lemma length_middles c l : length (middles (c :: l)) = length l.
Proof. revert c. induction l as [|d l IH]; intros c; [reflexivity|]. change (middles (c :: d :: l)) with ((d + c) / 2 :: middles (d :: l)). cbn [length]. now rewrite IH. Qed.
Lemma cut_nearest c l lo hi x : StronglySorted Qlt (c :: l) -> lo <= c -> lo <= x -> x <= hi ->
  exists n, cut (lo :: middles (c :: l) ++ [hi]) (c :: l) x = Some n /\ nearest_centre (c :: l) x n.
Proof.
  intros Srt L X1 X2. unfold cut. cbn [nth]. assert (LE : length (lo :: middles (c :: l) ++ [hi]) = S (S (length l))) by (cbn [length]; rewrite app_length, length_middles; cbn; lia). rewrite LE.
  destruct (Qeqb x lo) eqn:E.
  - apply Qeqb_eq in E. cbn [Nat.eqb orb]. cbn [Nat.sub nth]. exists c. split; [reflexivity|]. split; [now left|]. intros d [<-|Hd]; [split; intros; lra|]. inversion Srt as [|? ? _ F]; subst. rewrite Forall_forall in F. specialize (F d Hd). split; [abses; lra|intros; lra].
  - apply Qeqb_neq in E. assert (lo < x) by (destruct (Qlt_le_dec lo x); [assumption|exfalso; apply E; lra]). cbn [filter]. rewrite (proj2 (Qltb_lt lo x)) by assumption. rewrite filter_app. cbn [filter].
    assert (Qltb hi x = false) as -> by (destruct (Qltb hi x) eqn:C; [apply Qltb_lt in C; lra|reflexivity]). rewrite app_nil_r. cbn [length Nat.eqb orb]. destruct (pick_nearest c l x Srt) as (K & N). cbn zeta in K, N.
    destruct (Nat.eqb_spec (length (filter (fun e => Qltb e x) (middles (c :: l)))) (S (length l))) as [C|C]; [cbn [length] in K; lia|]. cbn [Nat.sub]. rewrite Nat.sub_0_r. eauto.
Qed.
(** the centres of the table are its values, without repetitions *)
Lemma nearest_unique l x c : nearest_centre (np_unique l) x c -> nearest_centre l x c.
Proof.
  intros (I1 & I2). split; [now apply in_unique|]. intros d Hd. destruct (unique_all l d Hd) as (d' & Hd' & E). destruct (I2 d' Hd') as (A & B). rewrite <- E. auto.
Qed.

Lemma same_position_spec p q : same_position p q = true <-> fst (fst p) == fst (fst q) /\ snd (fst p) == snd (fst q) /\ snd p == snd q.
Proof. destruct p as [[a b] c], q as [[d e] f]. cbn. rewrite !andb_true_iff, !Qeqb_eq. tauto. Qed.
Lemma not_repeated table : distinct_positions table -> repeated (map fst table) = false.
Proof.
  induction table as [|r t IH]; intros D; [reflexivity|]. inversion D as [|? ? F D']; subst. cbn [map repeated]. rewrite IH by assumption. rewrite orb_false_r. apply not_true_is_false. intros C. apply existsb_exists in C. destruct C as (p & Hp & C).
  apply in_map_iff in Hp. destruct Hp as (s & <- & Hs). rewrite Forall_forall in F. apply (F s Hs). now apply same_position_spec in C.
Qed.
Lemma put_selected_map {A} (inside : A -> bool) (f : A -> list Q) zero pts :
  put_selected (map inside pts) (map f (filter inside pts)) zero = map (fun p => if inside p then f p else zero) pts.
Proof. induction pts as [|p pts IH]; [reflexivity|]. cbn [map filter]. destruct (inside p); cbn [map put_selected]; now rewrite IH. Qed.
Lemma last_cons (a b d : Q) l : last (a :: l) d = last (a :: l) b.
Proof. revert a. induction l as [|c l IH]; intros a; [reflexivity|]. cbn [last]. destruct l; [reflexivity|]. apply (IH c). Qed.
Lemma last_is_in (a : Q) l : In (last (a :: l) a) (a :: l).
Proof. revert a. induction l as [|c l IH]; intros a; [now left|]. right. change (last (a :: c :: l) a) with (last (c :: l) a). rewrite (last_cons c c a). apply IH. Qed.
Lemma last_greatest a l : StronglySorted Qlt (a :: l) -> forall c, In c (a :: l) -> c <= last (a :: l) a.
Proof.
  revert a. induction l as [|b l IH]; intros a S c H; [destruct H as [<-|[]]; cbn; lra|]. change (last (a :: b :: l) a) with (last (b :: l) a). rewrite (last_cons b b a). inversion S as [|? ? S' F]; subst.
  destruct H as [<-|H]; [|now apply IH]. inversion F; subst. specialize (IH b S' b (or_introl eq_refl)). lra.
Qed.
Lemma edges_ok x0 l R : 0 < R -> StronglySorted Qlt (x0 :: l) -> let lo := Qmin x0 (- R) in let hi := Qmax (last (x0 :: l) x0) R in
  binedges_from_bincenters (x0 :: l) (Some (lo, hi)) = Ok (lo :: middles (x0 :: l) ++ [hi]) /\ lo <= x0 /\ lo <= - R /\ R <= hi.
Proof.
  intros P S. cbn zeta. pose proof (Q.le_min_l x0 (- R)). pose proof (Q.le_min_r x0 (- R)). pose proof (Q.le_max_l (last (x0 :: l) x0) R). pose proof (Q.le_max_r (last (x0 :: l) x0) R).
  split; [|auto]. unfold binedges_from_bincenters. rewrite (increasing_ok _ S). cbn [negb]. rewrite (proj2 (Qltb_lt _ _)) by lra. cbn [negb].
  assert (Qltb x0 (Qmin x0 (- R)) = false) as -> by (apply not_true_is_false; intros C; apply Qltb_lt in C; lra).
  assert (Qltb (Qmax (last (x0 :: l) x0) R) (last (x0 :: l) x0) = false) as -> by (apply not_true_is_false; intros C; apply Qltb_lt in C; lra). reflexivity.
Qed.
Lemma inside_square x y R : 0 <= R -> x * x + y * y <= R * R -> - R <= x /\ x <= R.
Proof. intros P H. assert (0 <= y * y) by (destruct (Qlt_le_dec y 0); nra). split; apply Qnot_lt_le; intros C; nra. Qed.

(** inside the active volume, the row of the nearest centres; nothing outside *)
Theorem C76_lighttable table nsensors act_r : table <> [] -> distinct_positions table -> 0 < act_r ->
  exists f, lighttable_function table nsensors act_r = Ok f /\
    forall xs ys zs zs', length xs = length ys -> (zs' = zs /\ length zs = length xs) \/ (exists z, zs = [z] /\ zs' = repeat z (length xs)) ->
      exists vs, f xs ys zs = Ok vs /\ Forall2 (light_at table nsensors act_r) (combine (combine xs ys) zs') vs.
Proof.
  intros N D P. unfold lighttable_function. set (xc := np_unique (map (fun r => fst (fst (fst r))) table)). set (yc := np_unique (map (fun r => snd (fst (fst r))) table)). set (zc := np_unique (map (fun r => snd (fst r)) table)).
  assert (NE : forall f : lt_row -> Q, exists c l, np_unique (map f table) = c :: l).
  { intros f. destruct table as [|r t]; [congruence|]. destruct (unique_all (map f (r :: t)) (f r) (or_introl eq_refl)) as (c & Hc & _). destruct (np_unique (map f (r :: t))); [destruct Hc|eauto]. }
  destruct (NE (fun r => fst (fst (fst r)))) as (x0 & xl & Ex). destruct (NE (fun r => snd (fst (fst r)))) as (y0 & yl & Ey). destruct (NE (fun r => snd (fst r))) as (z0 & zl & Ez).
  pose proof (unique_sorted (map (fun r : lt_row => fst (fst (fst r))) table)) as Sx. pose proof (unique_sorted (map (fun r : lt_row => snd (fst (fst r))) table)) as Sy. pose proof (unique_sorted (map (fun r : lt_row => snd (fst r)) table)) as Sz.
  assert (Nx : forall x c, nearest_centre xc x c -> nearest_centre (map (fun r => fst (fst (fst r))) table) x c) by (intros; now apply nearest_unique).
  assert (Ny : forall x c, nearest_centre yc x c -> nearest_centre (map (fun r => snd (fst (fst r))) table) x c) by (intros; now apply nearest_unique).
  assert (Nz : forall x c, nearest_centre zc x c -> nearest_centre (map (fun r => snd (fst r)) table) x c) by (intros; now apply nearest_unique).
  assert (Iz : forall c, In c zc -> In c (map (fun r => snd (fst r)) table)) by (intros; now apply in_unique).
  assert (Jz : forall d, In d (map (fun r => snd (fst r)) table) -> exists c, In c zc /\ c == d) by (intros; now apply unique_all).
  change (xc = x0 :: xl) in Ex. change (yc = y0 :: yl) in Ey. change (zc = z0 :: zl) in Ez. change (StronglySorted Qlt xc) in Sx. change (StronglySorted Qlt yc) in Sy. change (StronglySorted Qlt zc) in Sz. clearbody xc yc zc. subst xc yc zc.
  destruct (edges_ok x0 xl act_r P Sx) as (-> & Lx & Mx & Hx). destruct (edges_ok y0 yl act_r P Sy) as (-> & Ly & My & Hy). cbn [rbind]. cbn zeta in *.
  set (xlo := Qmin x0 (- act_r)) in *. set (ylo := Qmin y0 (- act_r)) in *. set (xhi := Qmax (last (x0 :: xl) x0) act_r) in *. set (yhi := Qmax (last (y0 :: yl) y0) act_r) in *. clearbody xlo ylo xhi yhi.
  assert (EZ : binedges_from_bincenters (z0 :: zl) None = Ok (z0 :: middles (z0 :: zl) ++ [last (z0 :: zl) z0])) by (unfold binedges_from_bincenters; rewrite (increasing_ok _ Sz); reflexivity).
  rewrite EZ. cbn [rbind]. eexists. split; [reflexivity|]. intros xs ys zs zs' Lxy Hz. cbn beta.
  set (zz := match zs with [z] => repeat z (length xs) | _ => zs end). assert (Ezz : zz = zs' /\ length zz = length xs).
  { destruct Hz as [(-> & L)|(z & -> & ->)]; [|split; [reflexivity|apply repeat_length]]. subst zz. destruct zs as [|z [|z' zs]]; [now split| |now split]. cbn in L. rewrite <- L. split; reflexivity. }
  destruct Ezz as (-> & Lz). rewrite Lz, Lxy, !Nat.eqb_refl. cbn [andb negb]. clear EZ NE. cbn [nth].
  assert (LZ : forall (l : list Q) a, last (z0 :: l ++ [a]) 0 = a) by (intros l a; apply (last_last (z0 :: l))). rewrite LZ.
  set (pts := combine (combine xs ys) zs'). clearbody pts. set (inside := fun p : Q * Q * Q => let '(x, y, z) := p in Qle_bool 0 act_r && Qle_bool (x * x + y * y) (act_r * act_r) && Qle_bool z0 z && Qle_bool z (last (z0 :: zl) z0)).
  unfold reindex. rewrite (not_repeated table D). cbn [andb rbind]. eexists. split; [reflexivity|]. rewrite map_map, put_selected_map.
  induction pts as [|[[x y] z] pts IH]; cbn [map]; [constructor|]. constructor; [|exact IH]. clear IH pts.
  set (zv := map (fun r => snd (fst r)) table) in *. assert (IV : inside (x, y, z) = true <-> in_volume act_r zv x y z).
  { unfold inside, in_volume. rewrite !andb_true_iff, !Qle_bool_iff. split.
    - intros (((A & B) & C) & E). repeat split; try assumption; [exists z0|exists (last (z0 :: zl) z0)]; (split; [|assumption]); apply Iz; [now left|apply last_is_in].
    - intros (A & B & (a & Ha & C) & (b & Hb & E)). destruct (Jz a Ha) as (a' & Ha' & Ea). destruct (Jz b Hb) as (b' & Hb' & Eb). pose proof (last_greatest z0 zl Sz b' Hb').
      assert (z0 <= a') by (inversion Sz as [|? ? _ F]; subst; rewrite Forall_forall in F; destruct Ha' as [<-|Ha']; [lra|specialize (F a' Ha'); lra]). repeat split; try assumption; lra. }
  unfold light_at. cbn zeta. fold zv. split.
  - intros NV. destruct (inside (x, y, z)); [exfalso; apply NV, IV; reflexivity|reflexivity].
  - intros V. rewrite (proj2 IV V). destruct V as (A & B & (a & Ha & C) & (b & Hb & E)). destruct (inside_square x y act_r A B) as (X1 & X2). destruct (inside_square y x act_r A) as (Y1 & Y2); [lra|].
    destruct (cut_nearest x0 xl xlo xhi x Sx Lx ltac:(lra) ltac:(lra)) as (cx & -> & Ncx). destruct (cut_nearest y0 yl ylo yhi y Sy Ly ltac:(lra) ltac:(lra)) as (cy & -> & Ncy).
    destruct IV as [_ IV]. assert (V : in_volume act_r zv x y z) by (split; [assumption|split; [assumption|split; [exists a|exists b]; auto]]). specialize (IV V). unfold inside in IV. rewrite !andb_true_iff, !Qle_bool_iff in IV. destruct IV as ((_ & Z1) & Z2).
    destruct (cut_nearest z0 zl z0 (last (z0 :: zl) z0) z Sz (Qle_refl _) Z1 Z2) as (cz & -> & Ncz). exists cx, cy, cz. split; [now apply Nx|]. split; [now apply Ny|]. split; [now apply Nz|].
    destruct (find _ table) as [r|] eqn:F.
    + left. apply find_some in F. destruct F as (F1 & F2). apply same_position_spec in F2. exists r. cbn [fst snd] in F2. destruct F2 as (G1 & G2 & G3). auto.
    + right. split; [|reflexivity]. intros r Hr C1. pose proof (find_none _ _ F r Hr) as F2. cbn beta in F2. assert (same_position (fst r) (cx, cy, cz) = true) by (apply same_position_spec; exact C1). congruence.
Qed.
Print Assumptions C76_lighttable.

(** ** C76: a value given by the user replaces the one of the file, unless it is zero *)
Theorem C76_configured user file : (forall u, user = Some u -> ~ u == 0 -> configured user file == u) /\ ((user = None \/ exists u, user = Some u /\ u == 0) -> configured user file = file).
Proof.
  unfold configured. split.
  - intros u -> N. destruct (Qeqb_spec u 0); [contradiction|]. cbn [negb andb]. destruct (Qeqb_spec u file); [now symmetry|reflexivity].
  - intros [->|(u & -> & E)]; [reflexivity|]. destruct (Qeqb_spec u 0); [reflexivity|contradiction].
Qed.
Print Assumptions C76_configured.
Example C76_configured_ex : configured (Some 7) 5 == 7 /\ configured (Some 0) 5 = 5 /\ configured None 5 = 5.
Proof. repeat split; reflexivity. Qed.
