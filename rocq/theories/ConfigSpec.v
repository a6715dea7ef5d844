(** Independent vocabulary for configurations *)
From Verif Require Import Base ConfigModel.
Local Open Scope string_scope.
Local Open Scope list_scope.

(** What happens to the parameters when a configuration is read, in order: an assignment, with
    the file where it is written, or a deletion *)
Inductive event := Assigned (k : string) (v : pyval) (file : string) | Deleted (k : string).
Definition about (e : event) : string := match e with Assigned k _ _ => k | Deleted k => k end.

(** the events about a parameter *)
Definition story (k : string) (h : list event) : list event := filter (fun e => String.eqb k (about e)) h.

(** the value of a parameter after [h] is that of the last event about it *)
Definition value_after (h : list event) (k : string) : option pyval :=
  match rev (story k h) with Assigned _ v _ :: _ => Some v | _ => None end.
Definition file_after (h : list event) (k : string) : option string :=
  match rev (story k h) with Assigned _ _ f :: _ => Some f | _ => None end.
(** the assignments that were overridden by the next one, with their files *)
Fixpoint overridden (h : list event) : list (pyval * string) :=
  match h with
  | Assigned _ v f :: r => match r with Assigned _ _ _ :: _ => (v, f) :: overridden r | _ => overridden r end
  | Deleted _ :: r => overridden r
  | [] => []
  end.

(** [runs files name body before during]: executing the statements [body] of the file [name] after
    the events [before] causes the events [during] *)
Section Runs.
  Variables (files : string -> option (list stmt)) (builtins : dict pyval) (expand : string -> string).

  Definition name_value (h : list event) (k : string) (v : pyval) : Prop :=
    value_after h k = Some v \/ (value_after h k = None /\ lookup builtins k = Some v).

  Inductive runs : string -> list stmt -> list event -> list event -> Prop :=
  | runs_nil n h : runs n [] h []
  | runs_assign n k e ss h vs v h' :
      Forall2 (name_value h) (reads e) vs -> compute e vs = Ok v ->
      runs n ss (h ++ [Assigned k v n]) h' -> runs n (Assign k e :: ss) h (Assigned k v n :: h')
  | runs_delete n k ss h h' :
      value_after h k <> None -> runs n ss (h ++ [Deleted k]) h' -> runs n (Delete k :: ss) h (Deleted k :: h')
  | runs_include n f body ss h h1 h2 :
      files (expand f) = Some body -> runs (expand f) body h h1 -> runs n ss (h ++ h1) h2 ->
      runs n (Include f :: ss) h (h1 ++ h2).
End Runs.

(** what iterating over a value gives: its elements, the characters of a string, the keys of a dictionary *)
Fixpoint characters (s : string) : list string := match s with EmptyString => [] | String a s => String a EmptyString :: characters s end.
Definition elements (v : pyval) : option (list pyval) :=
  match v with VList l => Some l | VTuple l => Some l | VArray l => Some l | VStr s => Some (map VStr (characters s)) | VDict l => Some (map fst l) | _ => None end.
(** ** types *)
(** the value has the declared type. The elements of a sequence are those obtained by iterating
    over the value; a tuple type looks at as many elements as both sides have. *)
Inductive conforms : pyval -> pytype -> Prop :=
| c_bool b : conforms (VBool b) TBool
| c_npbool b : conforms (VNpBool b) TBool
| c_int z : conforms (VInt z) TInt
| c_npint z : conforms (VNpInt z) TInt
| c_float_int z : conforms (VInt z) TFloat
| c_float_npint z : conforms (VNpInt z) TFloat
| c_float q : conforms (VFloat q) TFloat
| c_npfloat q : conforms (VNpFloat q) TFloat
| c_class v c : In c (classes v) \/ c = "object" -> conforms v (TClass c)
| c_bare v c : In c (classes v) \/ c = "object" -> conforms v (TBare c)
| c_array l : conforms (VArray l) (TBare "Sequence")
| c_gen v c : In c (classes v) \/ c = "object" -> conforms v (TGen c)
| c_union v t ts : In t ts -> conforms v t -> conforms v (TUnion ts)
| c_seq v l t : elements v = Some l -> (forall x, In x l -> conforms x t) -> conforms v (TSeqOf t)
| c_tuple v l ts : elements v = Some l -> (forall n x t, nth_error l n = Some x -> nth_error ts n = Some t -> conforms x t) -> conforms v (TTupleOf ts)
| c_map l k w : (forall a b, In (a, b) l -> conforms a k /\ conforms b w) -> conforms (VDict l) (TMapOf k w).

(** ** calls *)
(** all the arguments of a call by keywords are right *)
Definition good_call (ps : list param) (kw : dict pyval) : Prop :=
  (forall k v, lookup kw k = Some v -> exists p, In p ps /\ pname p = k) /\
  (forall p, In p ps -> match lookup kw (pname p) with
                        | Some v => conforms v (ptype p)
                        | None => pdefault p <> None
                        end).

(** the check can look into the value wherever the type asks for it *)
Fixpoint can_look (t : pytype) (v : pyval) : Prop :=
  match t with
  | TUnion ts => (fix go ts := match ts with [] => True | t :: ts => can_look t v /\ go ts end) ts
  | TSeqOf t => match elements v with Some l => forall x, In x l -> can_look t x | None => False end
  | TTupleOf ts =>
    match elements v with
    | Some l => (fix go ts l := match ts, l with t :: ts, x :: l => can_look t x /\ go ts l | _, _ => True end) ts l
    | None => False
    end
  | TMapOf k w => match v with VDict l => forall a b, In (a, b) l -> can_look k a /\ can_look w b | _ => False end
  | _ => True
  end.

(** [l] without repetitions, in the order of first appearance *)
Definition in_order_of_appearance (l u : list string) : Prop :=
  NoDup u /\ (forall f, In f u <-> In f l) /\
  forall u1 u2 a b, u = u1 ++ a :: u2 -> In b u2 -> exists l1 l2, l = l1 ++ a :: l2 /\ ~ In b l1.

(** the events of a file: all its tables have the same number of rows, and row [i] of each
    table is event [i] *)
Section FileSpec.
  Context {E W S T C : Type}.
  Definition readable (f : h5file E W S T C) (n : nat) : Prop :=
    (exists es, h_events f = Some es /\ List.length es = n) /\ (exists r rs, h_run f = Some (r :: rs)) /\
    (exists ws, h_pmt f = Some ws /\ List.length ws = n) /\ (exists ss, h_sipm f = Some ss /\ List.length ss = n) /\
    (forall ts, h_trg f = Some ts -> List.length ts = n) /\ (forall cs, h_chn f = Some cs -> List.length cs = n).
  Definition lacks_a_table (f : h5file E W S T C) : Prop :=
    h_events f = None \/ h_run f = None \/ ((exists r rs, h_run f = Some (r :: rs)) /\ (h_pmt f = None \/ h_sipm f = None)).
  Definition events_of (f : h5file E W S T C) (l : list (waveforms E W S T C)) : Prop :=
    forall i y, nth_error l i = Some y <->
      (exists es, h_events f = Some es /\ nth_error es i = Some (w_event y)) /\
      (exists r rs, h_run f = Some (r :: rs) /\ w_run y = r) /\
      (exists ws, h_pmt f = Some ws /\ nth_error ws i = Some (w_pmt y)) /\
      (exists ss, h_sipm f = Some ss /\ nth_error ss i = Some (w_sipm y)) /\
      (match h_trg f with Some ts => exists t, nth_error ts i = Some t /\ w_trg y = Some t | None => w_trg y = None end) /\
      (match h_chn f with Some cs => exists c, nth_error cs i = Some c /\ w_chn y = Some c | None => w_chn y = None end).
End FileSpec.
