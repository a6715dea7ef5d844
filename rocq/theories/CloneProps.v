(** C120: the local copy of the conditions database *)
From Coq Require Import Ascii String Lia Sorting.Sorted.
From Verif Require Import Base CloneModel CloneSpec CloneProofs.
Local Open Scope nat_scope. Local Open Scope list_scope.

(** ---- the statement given to sqlite is the plain one ---- *)
Theorem C120_statement name cols primary keys engine : ordinary name cols primary keys -> cols <> [] -> List.length keys <= 1 ->
  exists body, text (plain_lines name cols primary) = body ++ "010"%char :: chars ")" /\
    (sqlite_text (show_create name cols primary keys engine) = body ++ "010"%char :: chars ")" \/ sqlite_text (show_create name cols primary keys engine) = body ++ chars ")").
Proof. intros A B C. destruct (statement name cols primary keys engine A B C) as (body & E & [[F _]|[F _]]); exists body; auto. Qed.
Print Assumptions C120_statement.
Definition ex_cols : list column :=
  [{| c_name := chars "SensorID"; c_type := chars "int(11) NOT NULL"; c_comment := Some (chars "the sensor''s number") |};
   {| c_name := chars "Gain"; c_type := chars "float"; c_comment := None |}].
(** decide whether a text is inside another *)
Fixpoint inside (p s : list ascii) : bool := match starts p s with Some _ => true | None => match s with [] => false | _ :: r => inside p r end end.
Lemma inside_occurs p s : inside p s = false -> ~ occurs p s.
Proof.
  induction s as [|c s IH]; intros H (a & b & E); cbn [inside] in H; destruct (starts p _) eqn:S; try discriminate.
  - destruct a; [|discriminate]. cbn in E. assert (starts p [] = Some b) by (apply starts_app; exact E). congruence.
  - destruct a as [|a0 a]; [assert (starts p (c :: s) = Some b) by (apply starts_app; exact E); congruence|]. injection E as _ E. apply (IH H). now exists a, b.
Qed.
Lemma inside_quiet s : inside (chars " COMMENT") s = false -> inside (chars "ENGINE") s = false -> quiet s.
Proof. intros A B. split; now apply inside_occurs. Qed.
Lemma ex_ordinary : ordinary (chars "ChannelGain") ex_cols (Some (chars "`SensorID`")) [chars "`ElecID` (`SensorID`)"].
Proof.
  split; [now apply inside_quiet|split; [|split]].
  - intros c [<-|[<-|[]]]; now apply inside_quiet.
  - intros p [<-|[]]. now apply inside_quiet.
  - intros k [<-|[]]. now apply inside_quiet.
Qed.
Example C120_statement_ex : string_of_list_ascii (sqlite_text (show_create (chars "ChannelGain") ex_cols (Some (chars "`SensorID`")) [chars "`ElecID` (`SensorID`)"] (chars "=MyISAM DEFAULT CHARSET=latin1")))
  = "CREATE TABLE `ChannelGain` (
  `SensorID` int(11) NOT NULL,
  `Gain` float,
  PRIMARY KEY (`SensorID`))"%string.
Proof. reflexivity. Qed.
(** With two more indices the second one is left in the statement *)
Theorem C120_two_keys_refuted : exists name cols keys engine, ordinary name cols None keys /\ cols <> [] /\ List.length keys = 2 /\
  occurs (chars "  KEY ") (sqlite_text (show_create name cols None keys engine)).
Proof.
  exists (chars "T"), ex_cols, [chars "`a` (`SensorID`)"; chars "`b` (`Gain`)"], (chars "=MyISAM"). split; [|split; [discriminate|split; [reflexivity|]]].
  - split; [now apply inside_quiet|split; [|split]]; [intros c [<-|[<-|[]]]|easy|intros k [<-|[<-|[]]]]; now apply inside_quiet.
  - assert (H : starts (chars "  KEY ") (skipn 64 (sqlite_text (show_create (chars "T") ex_cols None [chars "`a` (`SensorID`)"; chars "`b` (`Gain`)"] (chars "=MyISAM")))) <> None) by (cbn; discriminate).
    destruct (starts _ _) eqn:E; [|congruence]. apply starts_app in E. exists (firstn 64 (sqlite_text (show_create (chars "T") ex_cols None [chars "`a` (`SensorID`)"; chars "`b` (`Gain`)"] (chars "=MyISAM")))), l. rewrite <- E. now rewrite firstn_skipn.
Qed.
Print Assumptions C120_two_keys_refuted.

(** ---- the copy ---- *)
Section Copy.
Variables (parse : list ascii -> option (string * nat)) (admits : string -> list (list Z) -> bool) (server : list (string * (list line * list row))).
(** sqlite reads in a statement the name that the server has for the table *)
Definition named : Prop := forall n st rows m k, In (n, (st, rows)) server -> parse (sqlite_text st) = Some (m, k) -> m = n.
Lemma named_lookup : named -> forall n st rows m k, lookup n server = Some (st, rows) -> parse (sqlite_text st) = Some (m, k) -> m = n.
Proof. intros H n st rows m k L. apply lookup_in in L. eapply H, L. Qed.
(** A copy that ends has every table asked for, in order, with the rows of the server; whatever it replaces *)
Theorem C120_complete reachable old tables states c : named ->
  loadDB parse admits server true reachable old tables = (states, Ok c) -> Forall2 (copy_of server) tables (disk c).
Proof.
  intros H. unfold loadDB. cbn [then_do]. destruct reachable; [|intros E; discriminate E].
  destruct (copying parse admits server (named_lookup H) tables [] {| disk := []; work := []; opened := false |} eq_refl eq_refl (Forall2_nil _)) as [_ B].
  destruct (copy_tables _ _ _ _ _) as [t q] eqn:E. intros F. injection F as <- ->. exact (proj2 (B c eq_refl)).
Qed.
(** At whatever point it is stopped, the file has the first tables complete, and perhaps the next one empty: no table has part of its rows *)
Theorem C120_crash reachable old tables states r c : named ->
  loadDB parse admits server true reachable old tables = (states, r) -> In c states -> copied_up_to server tables (disk c).
Proof.
  intros H. unfold loadDB. cbn [then_do].
  assert (S0 : copied_up_to server tables (@nil (string * (nat * list (list Z))))) by (exists [], tables; split; [reflexivity|left; constructor]).
  destruct reachable.
  - destruct (copying parse admits server (named_lookup H) tables [] {| disk := []; work := []; opened := false |} eq_refl eq_refl (Forall2_nil _)) as [A _].
    destruct (copy_tables _ _ _ _ _) as [t q] eqn:E. intros F. injection F as <- ->. intros [<-|Hc]; [exact S0|]. exact (A c Hc).
  - intros F. injection F as <- <-. intros [<-|[]]. exact S0.
Qed.
(** The copy ends when the tables of the server are sound *)
Theorem C120_ends old tables : NoDup (map fst server) -> NoDup tables -> (forall n, In n tables -> sound_table parse admits server n) ->
  exists states c, loadDB parse admits server true true old tables = (states, Ok c).
Proof.
  intros D N S. unfold loadDB. cbn [then_do].
  destruct (copy_ok parse admits server tables D {| disk := []; work := []; opened := false |} eq_refl eq_refl N S) as (t & c' & E). rewrite E. eauto.
Qed.
(** The old file is removed first: when the server cannot be reached nothing is left of it *)
Theorem C120_unreachable old tables : exists states, loadDB parse admits server true false old tables = (states, Err (Other 80)) /\ states <> [] /\ forall c, In c states -> disk c = [].
Proof. eexists. split; [reflexivity|]. split; [discriminate|]. now intros c [<-|[]]. Qed.
(** When it cannot be removed, and has the first table, it stays as it is *)
Theorem C120_kept reachable old n tables : named -> In n (map fst old) ->
  exists states e, loadDB parse admits server false reachable old (n :: tables) = (states, Err e) /\ forall c, In c states -> disk c = old.
Proof.
  intros H I. unfold loadDB. cbn [then_do]. destruct reachable; cbn [copy_tables].
  - unfold create_table_sqlite. destruct (lookup n server) as [[st rows]|] eqn:L; [|eexists _, _; split; [reflexivity|now intros c [<-|[]]]].
    destruct (parse (sqlite_text st)) as [[m k]|] eqn:P; [|eexists _, _; split; [reflexivity|now intros c [<-|[]]]].
    rewrite (named_lookup H _ _ _ _ _ L P). cbn [work]. destruct (lookup n old) eqn:F; [|apply lookup_absent in F; tauto].
    eexists _, _; split; [reflexivity|now intros c [<-|[]]].
  - eexists _, _; split; [reflexivity|now intros c [<-|[]]].
Qed.
End Copy.
Print Assumptions C120_complete.
Print Assumptions C120_crash.
Print Assumptions C120_ends.
Print Assumptions C120_unreachable.
Print Assumptions C120_kept.
(** a server with two tables, one of them empty *)
Definition ex_server : list (string * (list line * list row)) :=
  [("ChannelGain"%string, (show_create (chars "ChannelGain") ex_cols (Some (chars "`SensorID`")) [chars "`ElecID` (`SensorID`)"] (chars "=MyISAM"), [[1; 20]; [2; 21]]%Z));
   ("Activity"%string, (show_create (chars "Activity") ex_cols None [] (chars "=MyISAM"), []))].
Definition ex_parse (s : line) : option (string * nat) :=
  match starts (chars "CREATE TABLE `ChannelGain` (") s with Some _ => Some ("ChannelGain"%string, 2) | None => match starts (chars "CREATE TABLE `Activity` (") s with Some _ => Some ("Activity"%string, 2) | None => None end end.
Example C120_copy_ex : named ex_parse ex_server /\
  match loadDB ex_parse (fun _ _ => true) ex_server true true [("Old"%string, (1, []))] ["ChannelGain"; "Activity"]%string with
  | (states, Ok c) => disk c = [("ChannelGain"%string, (2, [[1; 20]; [2; 21]]%Z)); ("Activity"%string, (2, []))] /\
      map (fun s => List.length (disk s)) states = [0; 1; 1; 1; 1; 2; 2] /\ map (fun s => map (fun t => List.length (snd (snd t))) (disk s)) states = [[]; [0]; [0]; [0]; [2]; [2; 0]; [2; 0]]
  | _ => False
  end.
Proof.
  split; [|cbn; auto].
  intros n st rows m k [E|[E|[]]]; injection E as <- <- <-; intros E; cbn in E; injection E as <- _; reflexivity.
Qed.
Example C120_ends_ex : NoDup (map fst ex_server) /\ (forall n, In n ["ChannelGain"; "Activity"]%string -> sound_table ex_parse (fun _ _ => true) ex_server n).
Proof.
  split; [repeat constructor; cbn; intuition discriminate|]. intros n [<-|[<-|[]]].
  - exists ex_cols, (Some (chars "`SensorID`")), [chars "`ElecID` (`SensorID`)"], (chars "=MyISAM"), [[1; 20]; [2; 21]]%Z.
    split; [now left|]. split; [discriminate|]. split; [cbn; lia|]. split; [exact ex_ordinary|]. split; [|split; [intros r [<-|[<-|[]]]; reflexivity|reflexivity]].
    intros body E. assert (B : body ++ "010"%char :: chars ")" = (body ++ ["010"%char]) ++ chars ")") by now rewrite <- app_assoc.
    rewrite B in E. change (text (plain_lines (chars "ChannelGain") ex_cols (Some (chars "`SensorID`")))) with (removelast (text (plain_lines (chars "ChannelGain") ex_cols (Some (chars "`SensorID`")))) ++ chars ")") in E.
    apply app_inv_tail in E. assert (Bd : body = removelast (removelast (text (plain_lines (chars "ChannelGain") ex_cols (Some (chars "`SensorID`")))))) by (rewrite E; symmetry; apply removelast_last).
    rewrite Bd. split; reflexivity.
  - exists ex_cols, None, [], (chars "=MyISAM"), [].
    split; [right; now left|]. split; [discriminate|]. split; [cbn; lia|]. split; [|split; [|split; [easy|reflexivity]]].
    + split; [now apply inside_quiet|split; [|split; easy]]. intros c [<-|[<-|[]]]; now apply inside_quiet.
    + intros body E. assert (B : body ++ "010"%char :: chars ")" = (body ++ ["010"%char]) ++ chars ")") by now rewrite <- app_assoc.
      rewrite B in E. change (text (plain_lines (chars "Activity") ex_cols None)) with (removelast (text (plain_lines (chars "Activity") ex_cols None)) ++ chars ")") in E.
      apply app_inv_tail in E. assert (Bd : body = removelast (removelast (text (plain_lines (chars "Activity") ex_cols None)))) by (rewrite E; symmetry; apply removelast_last).
      rewrite Bd. split; reflexivity.
Qed.

(** ---- the comparison of the ranges of runs ---- *)
Local Open Scope Z_scope.
Lemma le_range_refl a : le_range a a = true.
Proof. destruct a as [x [y|]]; unfold le_range; cbn; rewrite Z.ltb_irrefl, Z.eqb_refl; [apply Z.leb_refl|reflexivity]. Qed.
Lemma le_range_cases a b : le_range a b = true <-> fst a < fst b \/ fst a = fst b /\ le_max (snd a) (snd b) = true.
Proof.
  unfold le_range. destruct (Z.ltb_spec (fst a) (fst b)); [split; [tauto|reflexivity]|]. destruct (Z.eqb_spec (fst a) (fst b)); [split; [tauto|intros [?|[_ ?]]; [lia|assumption]]|]. split; [discriminate|intros [?|[? _]]; lia].
Qed.
Lemma le_max_antisym x y : le_max x y = true -> le_max y x = true -> x = y.
Proof. destruct x, y; cbn; try discriminate; try reflexivity. intros A B. apply Z.leb_le in A, B. f_equal. lia. Qed.
Lemma le_max_trans x y z : le_max x y = true -> le_max y z = true -> le_max x z = true.
Proof. destruct x, y, z; cbn; try discriminate; try reflexivity. intros A B. apply Z.leb_le in A, B. apply Z.leb_le. lia. Qed.
Lemma le_max_total x y : le_max x y = false -> le_max y x = true.
Proof. destruct x, y; cbn; try discriminate; try reflexivity. intros A. apply Z.leb_gt in A. apply Z.leb_le. lia. Qed.
Lemma le_range_antisym a b : le_range a b = true -> le_range b a = true -> a = b.
Proof. destruct a as [a1 a2], b as [b1 b2]. rewrite !le_range_cases. cbn. intros [A|[A A']] [B|[B B']]; try lia. f_equal; [exact A|now apply le_max_antisym]. Qed.
Lemma le_range_trans a b c : le_range a b = true -> le_range b c = true -> le_range a c = true.
Proof. rewrite !le_range_cases. intros [A|[A A']] [B|[B B']]; try (left; lia). right. split; [lia|now apply le_max_trans with (snd b)]. Qed.
Lemma le_range_total a b : le_range a b = false -> le_range b a = true.
Proof.
  intros H. destruct (Z.lt_trichotomy (fst a) (fst b)) as [L|[L|L]]; [assert (le_range a b = true) by (apply le_range_cases; now left); congruence| |apply le_range_cases; now left].
  apply le_range_cases. right. split; [lia|]. apply le_max_total. destruct (le_max (snd a) (snd b)) eqn:E; [|reflexivity]. assert (le_range a b = true) by (apply le_range_cases; now right). congruence.
Qed.
Definition before (a b : range) : Prop := le_range a b = true /\ a <> b.
Lemma put_in x y l : In y (put x l) <-> y = x \/ In y l.
Proof.
  induction l as [|z l IH]; cbn; [intuition|]. unfold eq_range. destruct (le_range x z) eqn:A, (le_range z x) eqn:B; cbn [andb].
  - pose proof (le_range_antisym _ _ A B) as ->. cbn. intuition.
  - cbn. intuition.
  - cbn. rewrite IH. intuition.
  - cbn. rewrite IH. intuition.
Qed.
Lemma put_sorted x l : StronglySorted before l -> StronglySorted before (put x l).
Proof.
  induction l as [|z l IH]; intros S; cbn; [repeat constructor|]. inversion S as [|? ? S1 S2]; subst. unfold eq_range.
  destruct (le_range x z) eqn:A, (le_range z x) eqn:B; cbn [andb].
  - exact S.
  - constructor; [exact S|]. rewrite Forall_forall in S2 |- *. intros y [<-|Hy].
    + split; [exact A|]. intros ->. now rewrite le_range_refl in B.
    + destruct (S2 y Hy) as [C D]. split; [now apply le_range_trans with z|]. intros ->. rewrite C in B. discriminate.
  - constructor; [now apply IH|]. rewrite Forall_forall in S2 |- *. intros y Hy. apply put_in in Hy as [->|Hy]; [|now apply S2]. split; [exact B|]. intros ->. now rewrite le_range_refl in A.
  - apply le_range_total in A. congruence.
Qed.
Lemma distinct_in l y : In y (distinct_ordered l) <-> In y l.
Proof. induction l as [|x l IH]; cbn; [tauto|]. rewrite put_in, IH. intuition. Qed.
Lemma distinct_sorted l : StronglySorted before (distinct_ordered l).
Proof. induction l; cbn; [constructor|now apply put_sorted]. Qed.
Lemma sorted_unique l : forall m, StronglySorted before l -> StronglySorted before m -> (forall x, In x l <-> In x m) -> l = m.
Proof.
  induction l as [|a l IH]; intros [|b m] S T H; [reflexivity|exfalso; apply (H b); now left|exfalso; apply (H a); now left|].
  inversion S as [|? ? S1 S2]; inversion T as [|? ? T1 T2]; subst. rewrite Forall_forall in S2, T2.
  assert (a = b).
  { destruct (proj1 (H a) (or_introl eq_refl)) as [->|Ha]; [reflexivity|]. destruct (proj2 (H b) (or_introl eq_refl)) as [->|Hb]; [reflexivity|].
    apply le_range_antisym; [apply S2, Hb|apply T2, Ha]. }
  subst b. f_equal. apply IH; auto. intros x. split; intros Hx.
  - destruct (proj1 (H x) (or_intror Hx)) as [<-|]; [|assumption]. now destruct (S2 a Hx).
  - destruct (proj2 (H x) (or_intror Hx)) as [<-|]; [|assumption]. now destruct (T2 a Hx).
Qed.
Lemma ranges_in s rows r : In r (ranges_of s rows) <-> has_range s rows r.
Proof.
  unfold ranges_of, has_range. rewrite distinct_in, in_map_iff. split.
  - intros ([i x] & E & H). cbn in E. subst x. apply filter_In in H as [I F]. exists i. split; [exact I|]. destruct s; cbn in F; now apply Z.ltb_lt in F.
  - intros (i & I & F). exists (i, r). split; [reflexivity|]. apply filter_In. split; [exact I|]. destruct s; cbn; now apply Z.ltb_lt.
Qed.
Lemma close_eq a b : Z.abs b < 10000000 -> close a b = true -> a = b.
Proof. unfold close. intros S H. apply Z.leb_le in H. lia. Qed.
Lemma close_refl a : close a a = true.
Proof. unfold close. apply Z.leb_le. lia. Qed.
Lemma allclose_refl l : allclose l l = true.
Proof. induction l as [|[a [b|]] l IH]; cbn; [reflexivity| |]; now rewrite ?close_refl. Qed.
Lemma allclose_eq l : forall m, (forall lo hi, In (lo, hi) m -> Z.abs lo < 10000000 /\ forall x, hi = Some x -> Z.abs x < 10000000) -> allclose l m = true -> l = m.
Proof.
  induction l as [|[a a'] l IH]; intros [|[b b'] m] S H; try discriminate; [reflexivity|]. cbn in H. apply andb_prop in H as [H H3]. apply andb_prop in H as [H1 H2].
  destruct (S b b' (or_introl eq_refl)) as [Sb Sb']. apply close_eq in H1; [|exact Sb]. subst a.
  assert (a' = b') as ->. { destruct a', b'; try discriminate; [|reflexivity]. f_equal. apply close_eq; auto. }
  f_equal. apply IH; [|exact H3]. intros lo hi I. apply S. now right.
Qed.
(** The check passes when, and only when, both tables have the same ranges of runs, and gives the last first run. The local numbers are below ten millions *)
Theorem C120_check sipms mysql sqlite : small sqlite ->
  match check_minrun_maxrun sipms mysql sqlite with
  | Ok latest => (forall r, has_range sipms mysql r <-> has_range sipms sqlite r) /\
      match latest with
      | Some m => (exists hi, has_range sipms sqlite (m, hi)) /\ forall lo hi, has_range sipms sqlite (lo, hi) -> lo <= m
      | None => forall r, ~ has_range sipms sqlite r
      end
  | Err e => e = AssertionError /\ exists r, (has_range sipms mysql r /\ ~ has_range sipms sqlite r) \/ (has_range sipms sqlite r /\ ~ has_range sipms mysql r)
  end.
Proof.
  intros Sm. unfold check_minrun_maxrun. destruct (allclose _ _) eqn:A.
  - apply allclose_eq in A.
    + split; [intros r; rewrite <- !ranges_in, A; tauto|]. destruct (rev (ranges_of sipms sqlite)) as [|[m hi] l] eqn:R.
      * intros r Hr. apply ranges_in in Hr. apply in_rev in Hr. now rewrite R in Hr.
      * assert (E : ranges_of sipms sqlite = rev l ++ [(m, hi)]) by (rewrite <- (rev_involutive (ranges_of sipms sqlite)), R; reflexivity).
        cbn [fst]. split; [exists hi; apply ranges_in; rewrite E; apply in_or_app; right; now left|]. intros lo h H. apply ranges_in in H.
        assert (S : StronglySorted before (ranges_of sipms sqlite)) by apply distinct_sorted. rewrite E in S, H.
        apply in_app_or in H as [H|[H|[]]]; [|injection H as -> _; lia].
        assert (B : before (lo, h) (m, hi)).
        { revert S H. generalize (rev l). clear. intros l S H. induction l as [|x l IH]; [easy|]. cbn in S. inversion S as [|? ? S1 S2]; subst. destruct H as [->|H]; [|now apply IH].
          rewrite Forall_forall in S2. apply S2. apply in_or_app. right. now left. }
        destruct B as [B _]. apply le_range_cases in B. cbn in B. lia.
    + intros lo hi I. apply ranges_in in I as (s & I & _). exact (Sm s lo hi I).
  - split; [reflexivity|]. assert (N : ranges_of sipms mysql <> ranges_of sipms sqlite) by (intros E; rewrite E, allclose_refl in A; discriminate).
    assert (Dec : forall (r : range) l, {In r l} + {~ In r l}) by (apply in_dec; decide equality; [decide equality; apply Z.eq_dec|apply Z.eq_dec]).
    set (l := ranges_of sipms mysql) in *. set (m := ranges_of sipms sqlite) in *.
    assert (D : (exists r, In r l /\ ~ In r m) \/ (forall r, In r l -> In r m)).
    { clear -Dec. induction l as [|x l IH]; [right; easy|]. destruct (Dec x m) as [I|I]; [|left; exists x; split; [now left|exact I]].
      destruct IH as [(r & A & B)|H]; [left; exists r; split; [now right|exact B]|right; intros r [<-|Hr]; [exact I|now apply H]]. }
    assert (D' : (exists r, In r m /\ ~ In r l) \/ (forall r, In r m -> In r l)).
    { clear -Dec. induction m as [|x m IH]; [right; easy|]. destruct (Dec x l) as [I|I]; [|left; exists x; split; [now left|exact I]].
      destruct IH as [(r & A & B)|H]; [left; exists r; split; [now right|exact B]|right; intros r [<-|Hr]; [exact I|now apply H]]. }
    destruct D as [(r & D1 & D2)|D]; [exists r; left; subst l m; rewrite ranges_in in D1, D2; now split|].
    destruct D' as [(r & D1 & D2)|D']; [exists r; right; subst l m; rewrite ranges_in in D1, D2; now split|].
    exfalso. apply N. apply sorted_unique; [apply distinct_sorted|apply distinct_sorted|]. intros r; split; auto.
Qed.
Print Assumptions C120_check.
(** a pmt and a sipm with two ranges: the local copy lacks the second of the sipm *)
Definition ex_mysql : list (Z * range) := [(3, (0, Some 4999)); (3, (5000, None)); (1000, (5000, None)); (1000, (0, Some 4999)); (1001, (0, Some 4999))].
Definition ex_sqlite : list (Z * range) := [(3, (0, Some 4999)); (3, (5000, None)); (1000, (0, Some 4999))].
Example C120_check_ex : small ex_sqlite /\ check_minrun_maxrun false ex_mysql ex_sqlite = Ok (Some 5000) /\ check_minrun_maxrun true ex_mysql ex_sqlite = Err AssertionError.
Proof.
  split; [|split; reflexivity]. intros s lo hi [E|[E|[E|[]]]]; injection E as <- <- <-; (split; [cbn; lia|intros x Ex; try discriminate; injection Ex as <-; cbn; lia]).
Qed.
(** Above ten millions a difference of one run is within the tolerance of the comparison *)
Theorem C120_check_large_refuted : exists mysql sqlite r latest, check_minrun_maxrun true mysql sqlite = Ok latest /\ has_range true mysql r /\ ~ has_range true sqlite r.
Proof.
  exists [(1000, (0, Some 99999999))], [(1000, (0, Some 99999998))], (0, Some 99999999), (Some 0). split; [reflexivity|]. split; [exists 1000; split; [now left|lia]|].
  intros (s & [E|[]] & _). discriminate E.
Qed.
Print Assumptions C120_check_large_refuted.
