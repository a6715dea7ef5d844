(** C129: the correction maps in files *)
From Verif Require Import Base PeaksModel PeaksProofs CorrModel CorrSpec CorrProps MfileModel MfileSpec.
Local Open Scope Q_scope.

Lemma first_nil e : ~ first_failure [] e. Proof. intros ([|x a] & b & H & _); discriminate H. Qed.
Lemma first_ok l e : first_failure (None :: l) e <-> first_failure l e.
Proof.
  split.
  - intros ([|x a] & b & H & F); [discriminate H|]. injection H as <- ->. inversion F. now exists a, b.
  - intros (a & b & -> & F). exists (None :: a), b. split; [reflexivity|now constructor].
Qed.
Lemma first_err x l e : first_failure (Some x :: l) e <-> x = e.
Proof.
  split.
  - intros ([|y a] & b & H & F); [now injection H|]. injection H as <- _. inversion F. discriminate.
  - intros ->. exists [], l. split; [reflexivity|constructor].
Qed.

(** The maps are read if and only if none of the six tables fails; otherwise the exception is that of the first that does. The table of time evolution never makes it fail. *)
Theorem C129_read f : (forall m, read_maps f = Ok m <-> maps_of f m) /\ (forall e, read_maps f = Err e <-> first_failure (failures f) e).
Proof.
  unfold read_maps, maps_of, failures.
  Local Ltac table t := destruct t as [?a|?e1]; cbn [rbind failure]; [|split; [intros m; split; [discriminate|intros H; decompose [and] H; discriminate]|intros e; rewrite ?first_ok, first_err; split; [intros H; now injection H|now intros ->]]].
  table (mf_chi2 f). table (mf_e0 f). table (mf_e0u f). table (mf_lt f). table (mf_ltu f). table (mf_info f). destruct a4 as [run info]. split.
  - intros m. split.
    + intros H. injection H as <-. cbn [am_chi2 am_e0 am_e0u am_lt am_ltu am_run am_info am_evol]. do 6 (split; [reflexivity|]). intros t. destruct (Z.ltb_spec 0 run); [|split; [discriminate|intros [K _]; lia]].
      destruct (mf_evol f) as [t'|]; split; try discriminate; [intros K; injection K as <-; auto|intros [_ K]; injection K as <-; reflexivity|intros [_ K]; discriminate K].
    + intros (H1 & H2 & H3 & H4 & H5 & H6 & H7). destruct m as [m1 m2 m3 m4 m5 m6 m7 m8]. cbn [am_chi2 am_e0 am_e0u am_lt am_ltu am_run am_info am_evol] in *. injection H1 as <-. injection H2 as <-. injection H3 as <-. injection H4 as <-. injection H5 as <-. injection H6 as <- <-.
      do 2 f_equal. destruct (Z.ltb_spec 0 run) as [P|P].
      * destruct (mf_evol f) as [t|]; [symmetry; apply H7; auto|]. destruct m8 as [t|]; [|reflexivity]. destruct (proj1 (H7 t) eq_refl) as [_ K]. discriminate K.
      * destruct m8 as [t|]; [|reflexivity]. destruct (proj1 (H7 t) eq_refl) as [K _]. lia.
  - intros e. rewrite !first_ok. split; [discriminate|]. intros K. now apply first_nil in K.
Qed.
Print Assumptions C129_read.

Lemma coefficient_error i m xy e : coefficient i m xy = Err e -> e <> time_evolution_table_missing.
Proof.
  unfold coefficient. intros H K. subst e. revert H. repeat (match goal with |- context [match ?x with _ => _ end] => destruct x; try discriminate | |- context [if ?x then _ else _] => destruct x; try discriminate end).
Qed.
Lemma time_coef_error ts ps us t e : time_coef ts ps us t = Err e -> e <> time_evolution_table_missing.
Proof. unfold time_coef. destruct (existsb _ us); [intros H; injection H as <-; discriminate|]. destruct (Qeqb _ 0); [intros H; injection H as <-; discriminate|]. destruct (Qeqb _ 0); [intros H; injection H as <-; discriminate|]. destruct (interp t ts ps); [discriminate|]. intros H. injection H as <-. discriminate. Qed.
Lemma point_error exp norm me ml v p e : point_factor exp norm me ml (Some v) p = Err e -> e <> time_evolution_table_missing.
Proof.
  unfold point_factor. destruct (coefficient (sm_info me) (sm_e0 me) _) as [c|] eqn:E1; [|intros H; injection H as <-; now apply coefficient_error in E1]. cbn [rbind].
  destruct (time_coef (ev_ts v) (ev_e0 v) (ev_e0u v) (pt p)) as [fe|] eqn:E2; [|intros H; injection H as <-; now apply time_coef_error in E2]. cbn [rbind].
  destruct (coefficient (sm_info ml) (sm_lt ml) _) as [l|] eqn:E3; [|intros H; injection H as <-; now apply coefficient_error in E3]. cbn [rbind].
  destruct (time_coef (ev_ts v) (ev_lt v) (ev_ltu v) (pt p)) as [fl|] eqn:E4; [|intros H; injection H as <-; now apply time_coef_error in E4]. cbn [rbind].
  unfold factor. destruct norm; [|discriminate]. destruct c; [|discriminate]. destruct l; [|discriminate]. destruct (_ || _); [|discriminate]. intros H. injection H as <-. discriminate.
Qed.
Lemma rmap_error {A B} (f : A -> result B) l e : rmap f l = Err e -> exists a, In a l /\ f a = Err e.
Proof.
  induction l as [|a l IH]; cbn [rmap]; [discriminate|]. destruct (f a) eqn:E; cbn [rbind]; [|intros H; injection H as <-; exists a; split; [now left|exact E]].
  destruct (rmap f l); cbn [rbind]; [discriminate|]. intros H. injection H as <-. destruct (IH eq_refl) as (x & Hx & Ex). exists x. split; [now right|exact Ex].
Qed.

Lemma evolution_there f m : maps_of f m -> (with_evolution f <-> am_evol m <> None).
Proof.
  intros (_ & _ & _ & _ & _ & I & E). split.
  - intros (run & info & t & H1 & H2 & H3). rewrite I in H1. injection H1 as <- <-. rewrite (proj2 (E t) (conj H2 H3)). discriminate.
  - intros H. destruct (am_evol m) as [t|]; [|congruence]. destruct (proj1 (E t) eq_refl) as [H1 H2]. now exists (am_run m), (am_info m), t.
Qed.

(** With the maps of a file, a correction in time, or a conversion of drift times, fails with TimeEvolutionTableMissing if and only if the file has no time evolution that is used: never for simulation, even if the
    table is there. *)
Theorem C129_missing exp f m s norm ps : read_maps f = Ok m -> normalization_factor (am_info m) (am_e0 m) s = Ok norm ->
  (apply_all_correction exp (sector m) true s ps = Err time_evolution_table_missing <-> ~ with_evolution f) /\
  (get_df_to_z_converter (Some m) = Err time_evolution_table_missing <-> ~ with_evolution f) /\ get_df_to_z_converter None = Err time_evolution_table_missing.
Proof.
  intros R N. apply (proj1 (C129_read f)) in R. rewrite (evolution_there _ _ R). unfold apply_all_correction, apply_all_correction_single_maps. cbn [sector sm_info sm_e0]. rewrite N. cbn [rbind]. unfold sector, get_df_to_z_converter. destruct m as [m1 m2 m3 m4 m5 m6 m7 m8]. cbn [am_evol] in *.
  split; [|split; [|reflexivity]].
  - destruct m8 as [t|]; [|split; [intros _ K; now apply K|reflexivity]]. split; [|intros K; exfalso; apply K; discriminate]. intros H. apply rmap_error in H. destruct H as (p & _ & H). now apply point_error in H.
  - destruct m8 as [t|]; [|split; [intros _ K; now apply K|reflexivity]]. split; [discriminate|intros K; exfalso; apply K; discriminate].
Qed.

(** The correction depends on the maps e0 and lt and the geometry only, and on the time evolution if it is applied. *)
Theorem C129_depends exp f f' m m' b s ps : read_maps f = Ok m -> read_maps f' = Ok m' -> mf_e0 f = mf_e0 f' -> mf_lt f = mf_lt f' -> (forall run run' i i', mf_info f = Ok (run, i) -> mf_info f' = Ok (run', i') -> i = i' /\ (b = true -> (0 < run <-> 0 < run')%Z)) ->
  (b = true -> mf_evol f = mf_evol f') -> apply_all_correction exp (sector m) b s ps = apply_all_correction exp (sector m') b s ps.
Proof.
  intros R R' E L I T. apply (proj1 (C129_read f)) in R. apply (proj1 (C129_read f')) in R'. destruct R as (_ & A2 & _ & A4 & _ & A6 & A7), R' as (_ & B2 & _ & B4 & _ & B6 & B7).
  destruct (I _ _ _ _ A6 B6) as [Ei Er]. assert (Ee : am_e0 m = am_e0 m') by congruence. assert (El : am_lt m = am_lt m') by congruence. unfold apply_all_correction, apply_all_correction_single_maps. destruct b.
  - assert (Ev : am_evol m = am_evol m').
    { specialize (Er eq_refl). specialize (T eq_refl). destruct (am_evol m) as [t|].
      - symmetry. apply B7. rewrite <- T, <- Er. now apply A7.
      - destruct (am_evol m') as [t|]; [|reflexivity]. apply A7. rewrite T, Er. now apply B7. }
    unfold sector. rewrite Ei, Ee, El, Ev. reflexivity.
  - cbn [sector sm_info sm_e0]. rewrite Ei, Ee. destruct (normalization_factor _ _ s); [|reflexivity]. cbn [rbind]. unfold point_factor. cbn [sector sm_info sm_e0 sm_lt]. rewrite Ei, Ee, El. reflexivity.
Qed.

(** Drift times are multiplied by the mean of the drift velocities that are numbers: z is between what the least and the greatest of them give, and there is none without any. *)
Theorem C129_drift f m conv : read_maps f = Ok m -> get_df_to_z_converter (Some m) = Ok conv ->
  exists t, mf_evol f = Ok t /\ (numbers (se_dv t) = [] -> forall dt, conv dt = None) /\
    (forall v, is_mean (numbers (se_dv t)) v -> forall dt, exists z, conv dt = Some z /\ z == dt * v /\ forall lo hi, (forall x, In x (numbers (se_dv t)) -> lo <= x <= hi) -> 0 <= dt -> dt * lo <= z <= dt * hi).
Proof.
  intros R C. apply (proj1 (C129_read f)) in R. destruct R as (_ & _ & _ & _ & _ & _ & E). unfold get_df_to_z_converter in C. destruct m as [m1 m2 m3 m4 m5 m6 m7 [t|]]; [|discriminate C]. injection C as <-. cbn [am_evol am_run] in E. destruct (proj1 (E t) eq_refl) as [_ F].
  exists t. split; [exact F|]. pose proof (nanmean_is (se_dv t)) as M. destruct (nanmean (se_dv t)) as [w|]; cbn [ignoring_nan vmap] in *.
  - split; [intros K; destruct M as [M _]; contradiction|]. intros v [V1 V2] dt. destruct M as [M1 M2]. exists (dt * w). split; [reflexivity|]. set (l := numbers (se_dv t)) in *. assert (P : 0 < qn (length l)) by (apply qn_pos; destruct l; [contradiction|cbn; lia]).
    assert (W : w == v) by (apply (Qmult_inj_r _ _ (qn (length l))); lra). split; [now rewrite W|]. intros lo hi B D.
    assert (S : forall k, (forall x, In x k -> lo <= x <= hi) -> lo * qn (length k) <= sumQ k <= hi * qn (length k)).
    { induction k as [|x k IH]; intros Bk; [assert (Z0 : qn (length (@nil Q)) == 0) by reflexivity; change (sumQ []) with 0; rewrite Z0; lra|]. cbn [length sumQ]. assert (Q1 : qn (S (length k)) == qn (length k) + 1) by (unfold qn; rewrite Nat2Z.inj_succ, <- Z.add_1_r, inject_Z_plus; reflexivity). rewrite Q1. specialize (IH (fun y Hy => Bk y (or_intror Hy))). pose proof (Bk x (or_introl eq_refl)). change (sumQ (x :: k)) with (x + sumQ k). lra. }
    destruct (S l B) as [S1 S2]. assert (W1 : lo <= w) by (apply (Qmult_le_r _ _ (qn (length l)) P); lra). assert (W2 : w <= hi) by (apply (Qmult_le_r _ _ (qn (length l)) P); lra). split; nra.
  - split; [reflexivity|]. intros v [V1 _]. contradiction.
Qed.
Print Assumptions C129_missing.
Print Assumptions C129_depends.
Print Assumptions C129_drift.

(** a map of a data run with a time evolution, the same of a simulation, and one whose time evolution cannot be read *)
Definition mf_ex (run : Z) (evol : result stored_evolution) : map_file :=
  {| mf_chi2 := Ok [[Some 1]]; mf_e0 := Ok [[Some 10; Some 20]]; mf_e0u := Ok [[Some 1]]; mf_lt := Ok [[Some 2; Some 4]]; mf_ltu := Ok [[Some 1]]; mf_info := Ok (run, {| xmin := 0; xmax := 2; ymin := 0; ymax := 1; nx := 2; ny := 1 |}); mf_evol := evol |}.
Definition evol_ex : stored_evolution := {| se_evol := {| ev_ts := [0; 10]; ev_e0 := [1; 3]; ev_e0u := [1; 1]; ev_lt := [2; 2]; ev_ltu := [1; 1] |}; se_dv := [Some 1; None; Some 2] |}.
Definition point_ex : point := {| px := Some 1; py := Some 0; pz := 4; pt := 10 |}.
Example C129_ex : with_evolution (mf_ex 7 (Ok evol_ex)) /\ ~ with_evolution (mf_ex 0 (Ok evol_ex)) /\ ~ with_evolution (mf_ex 7 (Err (Other 77))) /\
  (exists m conv, read_maps (mf_ex 7 (Ok evol_ex)) = Ok m /\ normalization_factor (am_info m) (am_e0 m) SMax = Ok (Some 20) /\ get_df_to_z_converter (Some m) = Ok conv /\ is_mean (numbers (se_dv evol_ex)) (3 # 2) /\ (exists z, conv 4 = Some z /\ z == 6) /\
     (exists q, apply_all_correction (fun x => x) (sector m) true SMax [point_ex] = Ok [Some q] /\ q == 2 # 3)) /\
  (exists m, read_maps (mf_ex 0 (Ok evol_ex)) = Ok m /\ apply_all_correction (fun x => x) (sector m) true SMax [point_ex] = Err time_evolution_table_missing) /\
  read_maps {| mf_chi2 := Ok []; mf_e0 := Ok []; mf_e0u := Err KeyError; mf_lt := Err ValueError; mf_ltu := Ok []; mf_info := Err KeyError; mf_evol := Ok evol_ex |} = Err KeyError.
Proof.
  split; [now exists 7%Z, {| xmin := 0; xmax := 2; ymin := 0; ymax := 1; nx := 2; ny := 1 |}, evol_ex|]. split; [intros (r & i & t & H & P & _); injection H as <- _; lia|]. split; [intros (r & i & t & _ & _ & H); discriminate H|]. split; [|split; [eexists; split; reflexivity|reflexivity]].
  do 2 eexists. split; [reflexivity|]. split; [reflexivity|]. split; [reflexivity|]. split; [split; [discriminate|reflexivity]|]. split; [eexists; split; reflexivity|]. eexists. split; reflexivity.
Qed.

(** A table of time evolution that is there but cannot be read is not noticed when the maps of a data run are read *)
Theorem C129_unreadable_refuted : ~ forall f run info e, mf_info f = Ok (run, info) -> (0 < run)%Z -> mf_evol f = Err e -> exists e', read_maps f = Err e'.
Proof. intros H. destruct (H (mf_ex 7 (Err (Other 77))) _ _ _ eq_refl eq_refl eq_refl) as [e K]. discriminate K. Qed.
Print Assumptions C129_unreadable_refuted.
