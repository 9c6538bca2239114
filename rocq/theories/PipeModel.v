(** Model of backends/graph_compilation.py: SerialCompiler (the pipeline of compilation passes). *)
From Verif Require Import Base.

(** A schedule object: its data without the compiled instructions (a number), its compiled instructions (a number, 0 for the empty dict), and whether its class is CompiledSchedule.
    [deepcopy] of an object gives a new object with the same contents. *)
Record sobj := { data : Z; instructions : Z; is_compiled : bool }.
(** Schedule objects by location. Sharing of parts between two schedule objects is not modelled. *)
Definition heap := list sobj.
Definition alloc (h : heap) (o : sobj) : heap * nat := (h ++ [o], List.length h).
Definition read (h : heap) (l : nat) : result sobj := match nth_error h l with Some o => Ok o | None => Err OtherErr end.
Definition write (h : heap) (l : nat) (o : sobj) : heap := firstn l h ++ match skipn l h with [] => [] | _ :: r => o :: r end.

(** What a compilation pass does with the schedule it is given: it leaves it changed in some way, and raises, or returns the same object, or a new one *)
Inductive returned := Same | New (o : sobj) | Raises (e : exn).
Section Model.
  (** configurations, whatever they contain *)
  Variable settings : Type.
  Definition pass := sobj -> settings -> sobj * returned.
  (** l.228-268 CompilationConfig: what the compiler itself reads (each None when there is no device or hardware config) *)
  Record config := { keep_original_schedule : bool; device_passes : option (list pass); hardware_passes : option (list pass); others : settings }.

  (** l.400-412, l.530: a compiler object. Nodes are objects: each SimpleNode made gets a new number, and == on nodes is identity. [nodes] gives the function of each node made so far. *)
  Record compiler := { nodes : list pass; edges : list (nat * nat); input_node : option nat; output_node : option nat; quantum_device : option (result config) }.
  (** l.400-412 *)
  Definition new_compiler (qd : option (result config)) : compiler := {| nodes := []; edges := []; input_node := None; output_node := None; quantum_device := qd |}.

  (** l.533-567 [construct_graph]: the loop of l.555-565 *)
  Fixpoint add_nodes (c : compiler) (last : option nat) (l : list pass) : compiler * option nat :=
    match l with
    | [] => (c, last)
    | p :: r =>
        let node := List.length (nodes c) in
        let c := {| nodes := nodes c ++ [p];
                    edges := match last with None => edges c | Some n => edges c ++ [(n, node)] end;
                    input_node := match last with None => Some node | Some _ => input_node c end;
                    output_node := output_node c; quantum_device := quantum_device c |} in
        add_nodes c (Some node) r
    end.
  Definition passes (cfg : config) : list pass :=
    (match device_passes cfg with Some l => l | None => [] end) ++ (match hardware_passes cfg with Some l => l | None => [] end).
  Definition construct_graph (c : compiler) (cfg : config) : compiler :=
    let cleared := {| nodes := nodes c; edges := []; input_node := input_node c; output_node := output_node c; quantum_device := quantum_device c |} in
    let '(c, last) := add_nodes cleared None (passes cfg) in
    {| nodes := nodes c; edges := edges c; input_node := input_node c; output_node := last; quantum_device := quantum_device c |}.

  (** networkx: the graph is its list of edges (a node is in the graph if it has an edge) *)
  Definition in_graph (g : list (nat * nat)) (n : nat) : Prop := exists m, In (n, m) g \/ In (m, n) g.
  Fixpoint is_path (g : list (nat * nat)) (p : list nat) : Prop :=
    match p with a :: ((b :: _) as r) => In (a, b) g /\ is_path g r | _ => True end.
  Definition path_between (g : list (nat * nat)) (a b : nat) (p : list nat) : Prop := is_path g p /\ hd_error p = Some a /\ last p a = b /\ p <> [].
  (** contract of nx.shortest_path(g, a, b): some shortest path if both nodes are in the graph and there is one; otherwise an exception *)
  Definition shortest_path_contract (sp : list (nat * nat) -> nat -> nat -> result (list nat)) : Prop :=
    forall g a b, match sp g a b with
                  | Ok p => path_between g a b p /\ forall q, path_between g a b q -> (List.length p <= List.length q)%nat
                  | Err _ => ~ (in_graph g a /\ in_graph g b /\ exists p, path_between g a b p)
                  end.
  Variable shortest_path : list (nat * nat) -> nat -> nat -> result (list nat).

  (** l.328-379: a node compiles with its function *)
  Definition compile_node (h : heap) (l : nat) (p : pass) (cfg : config) : heap * result nat :=
    match read h l with
    | Err e => (h, Err e)
    | Ok o => let '(o', r) := p o (others cfg) in
              let h := write h l o' in
              match r with Same => (h, Ok l) | New n => let '(h, l') := alloc h n in (h, Ok l') | Raises e => (h, Err e) end
    end.
  (** l.596-600: the loop over the path *)
  Fixpoint compile_path (c : compiler) (h : heap) (l : nat) (path : list nat) (cfg : config) : heap * result nat :=
    match path with
    | [] => (h, Ok l)
    | n :: r => match nth_error (nodes c) n with
                | None => (h, Err OtherErr)
                | Some p => match compile_node h l p cfg with (h, Ok l) => compile_path c h l r cfg | (h, Err e) => (h, Err e) end
                end
    end.
  (** l.569-608 [_compilation_func]. No node at all: [None] is the path and None has no compile (AttributeError). An input node of an earlier configuration and no output node: networkx raises, the node is not in the graph. *)
  Definition compilation_func (c : compiler) (h : heap) (l : nat) (cfg : config) : compiler * heap * result nat :=
    let c := construct_graph c cfg in
    let path := match input_node c, output_node c with
                | None, None => Err OtherErr
                | Some a, Some b => if Nat.eqb a b then Ok [a] else shortest_path (edges c) a b
                | _, _ => Err OtherErr
                end in
    match path with
    | Err e => (c, h, Err e)
    | Ok path =>
        match compile_path c h l path cfg with
        | (h, Err e) => (c, h, Err e)
        | (h, Ok l) =>
            match read h l with
            | Err e => (c, h, Err e)
            | Ok o => if is_compiled o then (c, h, Ok l)
                      else let '(h, l') := alloc h {| data := data o; instructions := instructions o; is_compiled := true |} in (c, h, Ok l')
            end
        end
    end.
  (** l.414-451 [compile] *)
  Definition compile (c : compiler) (h : heap) (l : nat) (cfg : option config) : compiler * heap * result nat :=
    match (match cfg with Some cfg => Ok cfg | None => match quantum_device c with None => Err RuntimeError | Some r => r end end) with
    | Err e => (c, h, Err e)
    | Ok cfg =>
        match read h l with
        | Err e => (c, h, Err e)
        | Ok o =>
            let '(h, l) := if keep_original_schedule cfg then alloc h o else (h, l) in
            let h := write h l {| data := data o; instructions := 0; is_compiled := is_compiled o |} in
            compilation_func c h l cfg
        end
    end.
  (** one compiler object used for several schedules and configurations; exceptions are caught by the user *)
  Fixpoint session (c : compiler) (h : heap) (l : list (nat * option config)) : compiler * heap :=
    match l with [] => (c, h) | (s, cfg) :: r => let '(c, h, _) := compile c h s cfg in session c h r end.
End Model.
