(** The treatment of an item by each kind of component of the cities *)
From Coq Require Import List Bool Arith ZArith String Lia.
Import ListNotations.
From Verif Require Import DataflowModel DataflowSpec LoopProofs CityModel CitySpec CityProofs.

Set Default Proof Using "Type".
Section D.
Context {V : Type}.
Variable truth is_none : V -> bool.
Variable some_index : V.
Variable effect : nat -> list V -> option exc.
Notation obj := (@obj V).

(** the node does what the program does and leaves the item so that P *)
Definition does (n : node obj) (x : obj) (p : @program V unit) (P : obj -> Prop) : Prop :=
  let '(x', h, e) := treat n x in h = map event_of (fst p) /\ e = error_of (snd p) /\ (e = None -> P x').

Lemma does_same n x p P : does n x p P -> same (treat n x) p.
Proof. unfold does, same. destruct (treat n x) as [[? ?] ?]. intros (A & B & _). now split. Qed.

(** two programs one after the other *)
Lemma seq_does t1 (t2 : obj -> obj * list happening * option exc) (p q : @program V unit) (P Q : obj -> Prop) :
  (let '(x', h, e) := t1 in h = map event_of (fst p) /\ e = error_of (snd p) /\ (e = None -> Q x')) ->
  (forall y, Q y -> let '(x', h, e) := t2 y in h = map event_of (fst q) /\ e = error_of (snd q) /\ (e = None -> P x')) ->
  let '(x', h, e) := (let '(x', h, e) := t1 in match e with Some ex => (x', h, Some ex) | None => let '(x'', h', e') := t2 x' in (x'', h ++ h', e') end) in
  h = map event_of (fst (bind p (fun _ => q))) /\ e = error_of (snd (bind p (fun _ => q))) /\ (e = None -> P x').
Proof.
  destruct t1 as [[y h] e]. intros (-> & -> & H) H2. destruct p as [a [[]|ex]]; cbn [bind fst snd error_of] in *; [|split; [reflexivity|split; [reflexivity|easy]]].
  specialize (H2 y (H eq_refl)). destruct (t2 y) as [[z h'] e']. destruct H2 as (-> & -> & H2). destruct q as [b r]. cbn [fst snd] in *. rewrite map_app. auto.
Qed.

Lemma does_branch a n x p q Q P : does a x p Q -> (forall y, Q y -> does n y q P) -> does (NBranch a n) x (bind p (fun _ => q)) P.
Proof. intros A B. exact (seq_does (treat a x) (treat n) p q P Q A B). Qed.
Lemma does_fork a l x p q Q P : does a x p Q -> (forall y, Q y -> does (NFork l) y q P) -> does (NFork (a :: l)) x (bind p (fun _ => q)) P.
Proof. intros A B. exact (seq_does (treat a x) (treat (NFork l)) p q P Q A B). Qed.
Lemma does_fork_last a x p P : does a x p P -> does (NFork [a]) x p P.
Proof.
  unfold does. cbn [treat]. destruct (treat a x) as [[x' h] [e|]]; [auto|]. rewrite app_nil_r. auto.
Qed.
Lemma does_done l (x : obj) (P : obj -> Prop) : l = [] -> P x -> does (NFork l) x done P.
Proof. intros -> H. unfold does. cbn. auto. Qed.

Lemma does_count id n x p P : does n x p P -> does (spy_count id n) x (bind (act (Count id)) (fun _ => p)) P.
Proof. intros H. apply (does_branch _ _ _ _ _ (eq x)); [cbn; repeat split; auto|]. intros y <-. exact H. Qed.
Lemma does_count_end id x (P : obj -> Prop) : P x -> does (NCount id) x (act (Count id)) P.
Proof. cbn. auto. Qed.
Lemma does_sink t names d vs (P : obj -> Prop) : get names d = Some vs -> P (Dict d) -> does (fsink effect t names) (Dict d) (write effect t vs) P.
Proof. intros G H. unfold does, fsink. cbn [treat on_dict]. rewrite G. cbn [treat]. unfold write. cbn [fst snd map event_of]. split; [reflexivity|]. split; [destruct (effect t vs); reflexivity|auto]. Qed.
Lemma does_sink0 t v (P : obj -> Prop) : P (Obj v) -> does (fsink0 effect t) (Obj v) (write effect t [v]) P.
Proof. intros H. unfold does, fsink0. cbn [treat write fst snd map event_of]. split; [reflexivity|]. split; [destruct (effect t [v]); reflexivity|auto]. Qed.
Lemma does_write t names n d vs p P : get names d = Some vs -> does n (Dict d) p P -> does (NBranch (fsink effect t names) n) (Dict d) (bind (write effect t vs) (fun _ => p)) P.
Proof. intros G H. apply (does_branch _ _ _ _ _ (eq (Dict d))); [now apply does_sink|]. intros y <-. exact H. Qed.
Lemma does_fork_write t names l d vs p P : get names d = Some vs -> does (NFork l) (Dict d) p P -> does (NFork (fsink effect t names :: l)) (Dict d) (bind (write effect t vs) (fun _ => p)) P.
Proof. intros G H. apply (does_fork _ _ _ _ _ (eq (Dict d))); [now apply does_sink|]. intros y <-. exact H. Qed.

Lemma does_upd f n x y p P : f x = Ret y -> does n y p P -> does (NUpd f n) x p P.
Proof. unfold does. cbn [treat]. now intros ->. Qed.
Lemma does_map f n x p (P : obj -> Prop) : P x -> (forall y, f x = Ret y -> does n y p (fun _ => True)) -> (exists y, f x = Ret y) -> does (NMap f n) x p P.
Proof. unfold does. cbn [treat]. intros H D (y & E). specialize (D y E). rewrite E. destruct (treat n y) as [[? h] e]. destruct D as (A & B & _). now repeat split. Qed.
Lemma does_pick name n d v p (P : obj -> Prop) : d name = Some v -> P (Dict d) -> does n (Obj v) p (fun _ => True) -> does (pick name n) (Dict d) p P.
Proof. intros G H D. assert (E : on_dict (Dict d) [name] (fun _ vs => match vs with v :: _ => Ret (Obj v) | [] => Raise TypeError end) = Ret (Obj v)) by (cbn; now rewrite G).
  apply does_map; [assumption| |eauto]. intros y Hy. rewrite E in Hy. now injection Hy as <-. Qed.
Lemma does_collect v (P : obj -> Prop) : P (Obj v) -> does (collect r_evtnum_list) (Obj v) (number v) P.
Proof. cbn. auto. Qed.
Lemma does_numbers d v (P : obj -> Prop) : d "event_number"%string = Some v -> P (Dict d) -> does collect_numbers (Dict d) (number v) P.
Proof. intros G H. unfold collect_numbers, pipe. cbn [rev fold_left app]. apply (does_pick _ _ _ v); [assumption|assumption|]. now apply does_collect. Qed.
Lemma does_number n d v p P : d "event_number"%string = Some v -> does n (Dict d) p P -> does (NBranch collect_numbers n) (Dict d) (bind (number v) (fun _ => p)) P.
Proof. intros G H. apply (does_branch _ _ _ _ _ (eq (Dict d))); [now apply does_numbers|]. intros y <-. exact H. Qed.
Lemma does_fork_number l d v p P : d "event_number"%string = Some v -> does (NFork l) (Dict d) p P -> does (NFork (collect_numbers :: l)) (Dict d) (bind (number v) (fun _ => p)) P.
Proof. intros G H. apply (does_fork _ _ _ _ _ (eq (Dict d))); [now apply does_numbers|]. intros y <-. exact H. Qed.
Lemma does_print n d v p P : d "event_number"%string = Some v -> does n (Dict (put ["index"%string] [some_index] d)) p P -> does (print_every some_index n) (Dict d) p P.
Proof. intros G H. unfold print_every. eapply does_upd; [|exact H]. unfold on_dict. cbn [get]. now rewrite G. Qed.

(** an operation on the item *)
Lemma does_call A (t : A -> obj * list happening * option exc) x (r : res A) (f : A -> @program V unit) (P : obj -> Prop) :
  (forall v, r = Ret v -> let '(x', h, e) := t v in h = map event_of (fst (f v)) /\ e = error_of (snd (f v)) /\ (e = None -> P x')) ->
  let '(x', h, e) := (match r with Raise e => (x, [], Some e) | Ret v => t v end) in
  h = map event_of (fst (bind (call r) f)) /\ e = error_of (snd (bind (V := V) (call r) f)) /\ (e = None -> P x').
Proof.
  intros H. destruct r as [v|e]; cbn [call bind]; [|cbn; split; [reflexivity|split; [reflexivity|easy]]]. specialize (H v eq_refl). destruct (t v) as [[y h] e]. destruct (f v) as [b q]. exact H.
Qed.
Lemma does_fmap args out op n d vs f P : get args d = Some vs -> (forall v, does n (Dict (put [out] [v] d)) (f v) P) -> does (fmap args out op n) (Dict d) (bind (call (op vs)) f) P.
Proof.
  intros G H. unfold does, fmap. cbn [treat on_dict]. rewrite G.
  pose proof (does_call V (fun v => treat n (Dict (put [out] [v] d))) (Dict d) (op vs) f P (fun v _ => H v)) as K. destruct (op vs); exact K.
Qed.
Lemma does_fmaps k args outs op n d vs f P : gives k op -> get args d = Some vs -> (forall ws, List.length ws = k -> does n (Dict (put outs ws d)) (f ws) P) -> does (fmaps args outs op n) (Dict d) (bind (call (op vs)) f) P.
Proof.
  intros Hk G H. unfold does, fmaps. cbn [treat on_dict]. rewrite G.
  pose proof (does_call (list V) (fun v => treat n (Dict (put outs v d))) (Dict d) (op vs) f P (fun v E => H v (Hk _ _ E))) as K. destruct (op vs); exact K.
Qed.
Lemma does_fmap0 op n v f (P : obj -> Prop) : P (Obj v) -> (forall w, does n (Obj w) (f w) (fun _ => True)) -> does (fmap0 op n) (Obj v) (bind (call (op [v])) f) P.
Proof.
  intros HP H. unfold does, fmap0. cbn [treat]. destruct (op [v]) as [w|e]; cbn [call bind]; [|cbn; split; [reflexivity|split; [reflexivity|easy]]].
  specialize (H w). unfold does in H. destruct (treat n (Obj w)) as [[y h] e]. destruct (f w) as [b q]. cbn [fst snd app] in *. destruct H as (A & B & _). now repeat split.
Qed.
Lemma does_filter id name n d v p (P : obj -> Prop) : d name = Some v -> P (Dict d) -> does n (Dict d) p P -> does (cfilter truth id name n) (Dict d) (if_selected truth id v p) P.
Proof.
  intros G HP H. unfold does, cfilter in *. cbn [treat on_dict get]. rewrite G. cbn [forallb]. rewrite andb_true_r. unfold if_selected. destruct (truth v).
  - destruct (treat n (Dict d)) as [[x' h] e]. destruct H as (-> & -> & H). cbn [act bind]. destruct p as [b r]. cbn [fst snd map event_of app] in *. auto.
  - cbn. auto.
Qed.
Lemma does_not_none name n d v p (P : obj -> Prop) : d name = Some v -> P (Dict d) -> does n (Dict d) p P -> does (not_none is_none name n) (Dict d) (if is_none v then done else p) P.
Proof.
  intros G HP H. unfold does, not_none in *. cbn [treat on_dict get]. rewrite G. cbn [existsb]. rewrite orb_false_r. destruct (is_none v); cbn [negb]; [cbn; auto|exact H].
Qed.
Lemma does_add id plus zeros v (P : obj -> Prop) : P (Obj v) -> does (histogram plus zeros id) (Obj v) (act (Add id v)) P.
Proof. cbn. auto. Qed.
End D.
