(** Model of McCalib/src/Graph.cpp and McCalib/include/Graph.hpp. *)
From Coq Require Export List Arith ZArith QArith Bool Lia.
Export ListNotations.
Close Scope Q_scope.
Open Scope nat_scope.

(** Graph.hpp 25-26,42-44: [graph_] is a boost adjacency_list whose vertices are
    0,1,2,... carrying a name; [idx_to_vertex_] maps a user index to a vertex.
    Simplifications: names are the integers themselves (the code stores
    std::to_string(v) and reads it back with std::stoi); weights are exact
    rationals instead of doubles. *)
Record graph := mkG {
  vnames : list Z;               (* name of vertex k is the k-th element *)
  gedges : list (nat * nat * Q); (* in insertion order, parallel edges kept *)
  vidx   : list (Z * nat)        (* idx_to_vertex_ *)
}.

(** Graph.hpp: a default-constructed graph. *)
Definition empty_graph : graph := mkG [] [] [].

(** std::unordered_map<int, Vertex>::find *)
Fixpoint idx_find (m : list (Z * nat)) (k : Z) : option nat :=
  match m with
  | [] => None
  | (k', v) :: r => if Z.eqb k' k then Some v else idx_find r k
  end.

(** std::unordered_map<int, Vertex>::operator[] used as an assignment *)
Definition idx_set (m : list (Z * nat)) (k : Z) (v : nat) : list (Z * nat) :=
  (k, v) :: filter (fun p => negb (Z.eqb (fst p) k)) m.

(** boost::add_vertex(name, graph_): a new vertex, numbered by the vertex count. *)
Definition boost_add_vertex (g : graph) (v : Z) : graph * nat :=
  (mkG (vnames g ++ [v]) (gedges g) (vidx g), length (vnames g)).

(** Graph.cpp 39-49 (the warning is not modelled). *)
Definition addVertex (g : graph) (v : Z) : graph :=
  match idx_find (vidx g) v with
  | Some _ => g
  | None => let '(g1, u) := boost_add_vertex g v in
            mkG (vnames g1) (gedges g1) (idx_set (vidx g1) v u)
  end.

(** Graph.cpp 19-24: look the index up, create a vertex when it is absent.  The
    index map is not updated here. *)
Definition lookup_or_add (g : graph) (v : Z) : graph * nat :=
  match idx_find (vidx g) v with
  | Some u => (g, u)
  | None => boost_add_vertex g v
  end.

(** Graph.cpp 16-29 *)
Definition addEdge (g : graph) (v1 v2 : Z) (w : Q) : graph :=
  let '(g1, u1) := lookup_or_add g v1 in
  let '(g2, u2) := lookup_or_add g1 v2 in
  mkG (vnames g2) (gedges g2 ++ [(u1, u2, w)])
      (idx_set (idx_set (vidx g2) v1 u1) v2 u2).

(** Graph.cpp 55-58 *)
Definition clearGraph (g : graph) : graph := empty_graph.

(** Histories of calls. *)
Inductive gop := AddV (v : Z) | AddE (v1 v2 : Z) (w : Q) | Clear.

Definition gstep (g : graph) (o : gop) : graph :=
  match o with
  | AddV v => addVertex g v
  | AddE a b w => addEdge g a b w
  | Clear => clearGraph g
  end.

Definition grun (ops : list gop) : graph := fold_left gstep ops empty_graph.

(** boost::out_edges of an undirected graph with listS out-edge lists: edges in
    insertion order, each seen from both ends. *)
Definition out_edges (E : list (nat * nat * Q)) (u : nat) : list (nat * Q) :=
  flat_map (fun '(a, b, w) =>
              (if Nat.eqb a u then [(b, w)] else []) ++
              (if Nat.eqb b u then [(a, w)] else [])) E.

(** Graph.cpp 76: boost::connected_components.  Boost starts a depth-first visit
    from each still unvisited vertex in index order and gives everything it
    visits the next component number.  Simplification: the visit is replaced by
    iterating "add all neighbours" as often as there are vertices, which visits
    the same set. *)
Definition expand (E : list (nat * nat * Q)) (S : list nat) : list nat :=
  nodup Nat.eq_dec (S ++ flat_map (fun u => map fst (out_edges E u)) S).

Fixpoint visit (k : nat) (E : list (nat * nat * Q)) (S : list nat) : list nat :=
  match k with
  | 0 => S
  | S k' => visit k' E (expand E S)
  end.

Definition memb (x : nat) (l : list nat) : bool := existsb (Nat.eqb x) l.

(** Component label of each vertex and number of components. *)
Fixpoint label_from (n : nat) (E : list (nat * nat * Q)) (todo : list nat)
         (lab : nat -> option nat) (cnt : nat) : (nat -> option nat) * nat :=
  match todo with
  | [] => (lab, cnt)
  | v :: r =>
      match lab v with
      | Some _ => label_from n E r lab cnt
      | None =>
          let S := visit n E [v] in
          label_from n E r
            (fun x => if memb x S then Some cnt else lab x) (cnt + 1)
      end
  end.

Definition boost_connected_components (n : nat) (E : list (nat * nat * Q))
  : (nat -> option nat) * nat :=
  label_from n E (seq 0 n) (fun _ => None) 0.

(** Graph.cpp 66-94 *)
Definition connectedComponents (g : graph) : list (list Z) :=
  let n := length (vnames g) in
  if Nat.eqb n 0 then []
  else
    let '(component, num) := boost_connected_components n (gedges g) in
    map (fun c =>
           map (fun v => nth v (vnames g) 0%Z)
               (filter (fun v => match component v with
                                 | Some c' => Nat.eqb c' c
                                 | None => false
                                 end) (seq 0 n)))
        (seq 0 num).

(** Graph.cpp 118, 125-126: the distance map has value type int, so boost's
    closed_plus<int> receives the double weight truncated towards zero. *)
Definition trunc (w : Q) : Z := Z.quot (Qnum w) (Zpos (Qden w)).

Definition upd {A} (f : nat -> A) (k : nat) (v : A) : nat -> A :=
  fun x => if Nat.eqb x k then v else f x.

(** State of boost::dijkstra_shortest_paths: distances (None = the initial
    "infinity" INT_MAX; int overflow is not modelled), predecessor map, finished
    (black) vertices in order of completion, latest first, and queue (the gray
    vertices). *)
Record dstate := mkD {
  ddist : nat -> option Z;
  dpred : nat -> nat;
  dblack : list nat;
  dqueue : list nat
}.

Definition dlt (a : Z) (b : option Z) : bool :=
  match b with None => true | Some b => Z.ltb a b end.

(** boost relax_target followed by the queue push of a white vertex; a black
    target is left alone (breadth_first_visit). [du] is the distance of [u]. *)
Definition relax (u : nat) (du : Z) (st : dstate) (e : nat * Q) : dstate :=
  let '(v, w) := e in
  if memb v (u :: dblack st) then st
  else
    let nd := (du + trunc w)%Z in
    let q := if memb v (dqueue st) then dqueue st else dqueue st ++ [v] in
    if dlt nd (ddist st v)
    then mkD (upd (ddist st) v (Some nd)) (upd (dpred st) v u) (dblack st) q
    else mkD (ddist st) (dpred st) (dblack st) q.

(** Outcome of the call. *)
Inductive presult :=
| Path (l : list Z)
| Throws          (* boost::negative_edge *)
| LoopNotEnded    (* model fuel of Dijkstra's loop exhausted: excluded by the theorems *)
| WalkNotEnded.   (* the predecessor walk has not ended within the given iterations *)

(** One turn of the main loop: pop [u], scan its out-edges, finish it.  The
    current vertex is gray while its own edges are scanned, so a self loop
    relaxes with d[u]+w < d[u], never true for the non-negative truncated weight;
    it is treated as finished. *)
Definition dpop (E : list (nat * nat * Q)) (u : nat) (st : dstate) : dstate :=
  let du := match ddist st u with Some d => d | None => 0%Z end in
  let st1 := mkD (ddist st) (dpred st) (dblack st)
                 (filter (fun x => negb (Nat.eqb x u)) (dqueue st)) in
  let st2 := fold_left (relax u du) (out_edges E u) st1 in
  mkD (ddist st2) (dpred st2) (u :: dblack st2) (dqueue st2).

(** boost dijkstra_shortest_paths / breadth_first_visit.  [pick] is the heap's
    choice among queued vertices of minimal distance (ties are unspecified).
    None = fuel exhausted; inl tt = negative edge exception. *)
Fixpoint dloop (fuel : nat) (pick : dstate -> nat) (E : list (nat * nat * Q))
         (st : dstate) : option (option dstate) :=
  match dqueue st with
  | [] => Some (Some st)
  | _ :: _ =>
      match fuel with
      | 0 => None
      | S f =>
          let u := pick st in
          if existsb (fun e => Z.ltb (trunc (snd e)) 0) (out_edges E u)
          then Some None
          else dloop f pick E (dpop E u st)
      end
  end.

Definition dinit (s : nat) : dstate :=
  mkD (upd (fun _ => None) s (Some 0%Z)) (fun v => v) [] [s].

(** Graph.cpp 140-153: walk the predecessor map back to the source.  None = the
    loop has not ended after [fuel] iterations. *)
Fixpoint getPath (fuel : nat) (names : list Z) (p : nat -> nat) (source cur : nat)
  : option (list Z) :=
  match fuel with
  | 0 => None
  | S f =>
      if Nat.eqb cur source then Some [nth source names 0%Z]
      else match getPath f names p source (p cur) with
           | Some l => Some (l ++ [nth cur names 0%Z])
           | None => None
           end
  end.

(** Graph.cpp 104-133 with [fuel] iterations allowed for the walk of getPath. *)
Definition shortestPathBetween (pick : dstate -> nat) (fuel : nat) (g : graph) (v1 v2 : Z)
  : presult :=
  match idx_find (vidx g) v1, idx_find (vidx g) v2 with
  | Some s, Some t =>
      match dloop (length (vnames g)) pick (gedges g) (dinit s) with
      | Some (Some st) =>
          match getPath fuel (vnames g) (dpred st) s t with
          | Some l => Path l
          | None => WalkNotEnded
          end
      | Some None => Throws
      | None => LoopNotEnded
      end
  | _, _ => Path []
  end.

(** A concrete heap choice, used for executable examples: first minimal element. *)
Definition dle (a b : option Z) : bool :=
  match a, b with
  | Some x, Some y => Z.leb x y
  | Some _, None => true
  | None, None => true
  | None, Some _ => false
  end.

Fixpoint argmin (d : nat -> option Z) (best : nat) (l : list nat) : nat :=
  match l with
  | [] => best
  | v :: r => if dle (d best) (d v) then argmin d best r else argmin d v r
  end.

Definition pick_first (st : dstate) : nat :=
  match dqueue st with
  | [] => 0
  | v :: r => argmin (ddist st) v r
  end.
