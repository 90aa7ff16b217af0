(** Vocabulary for the graph properties: stages of a scenario graph, walks from the root. *)
From Coq Require Import List Bool Arith ZArith QArith Permutation.
From Verif Require Import Base Graph.
Import ListNotations.
Open Scope nat_scope.
Open Scope list_scope.

(** Value of scenario [s] in a row. *)
Definition cell (row : list Q) (s : nat) : option Q := nth_error row s.

(** Consecutive nodes are joined by edges. *)
Fixpoint walk (g : digraph) (ns : list nat) : Prop :=
  match ns with
  | a :: ((b :: _) as r) => In (a, b) (g_edges g) /\ walk g r
  | _ => True
  end.

(** A walk that starts in [root]. *)
Definition rooted (g : digraph) (root : nat) (ns : list nat) : Prop := hd_error ns = Some root /\ walk g ns.

(** [g] has stages 0..D given by [st]: [root] is its first node and the only node of stage 0,
    edges lead to the next stage, every later node has a predecessor and every node before
    stage D a successor. *)
Record staged (g : digraph) (root : nat) (st : nat -> nat) (D : nat) : Prop := {
  sg_first : hd_error (g_nodes g) = Some root;
  sg_nodes : NoDup (g_nodes g);
  sg_edges : NoDup (g_edges g);
  sg_ends : forall a b, In (a, b) (g_edges g) -> In a (g_nodes g) /\ In b (g_nodes g);
  sg_next : forall a b, In (a, b) (g_edges g) -> st b = S (st a);
  sg_last : forall n, In n (g_nodes g) -> st n <= D;
  sg_root : forall n, In n (g_nodes g) -> (st n = 0 <-> n = root);
  sg_pred : forall n, In n (g_nodes g) -> n <> root -> exists a, In (a, n) (g_edges g);
  sg_succ : forall n, In n (g_nodes g) -> st n < D -> exists b, In (n, b) (g_edges g) }.

(** An arborescence rooted in [root]: every node can be reached from the root, the root has
    no predecessor and every other node exactly one. *)
Definition arborescence (g : digraph) (root : nat) : Prop :=
  In root (g_nodes g) /\ pred g root = [] /\
  (forall n, In n (g_nodes g) -> n <> root -> exists p, pred g n = [p]) /\
  (forall n, In n (g_nodes g) -> exists ns, rooted g root ns /\ hd_error (rev ns) = Some n).

(** Enumerations of sets list exactly their elements. *)
Definition enumerates (ord : nat -> list nat -> list nat) : Prop := forall i l, Permutation (ord i l) l.

(** [t] with data [d'] unfolds [g] with data [d]: [o] sends every node of [t] to the node of
    [g] it stands for, which carries the same data, and the walks of [t] from the root
    correspond one to one to the walks of [g] from the root. *)
Record unfolds {V} (g : digraph) (d : list (nat * V)) (root : nat) (t : digraph) (d' : list (nat * V)) (o : nat -> nat) : Prop := {
  un_root : o root = root;
  un_data : forall n, In n (g_nodes t) -> In (o n) (g_nodes g) /\ nget n d' = nget (o n) d;
  un_down : forall ms, rooted t root ms -> rooted g root (map o ms);
  un_up : forall ns, rooted g root ns -> exists ms, rooted t root ms /\ map o ms = ns;
  un_one : forall ms ms', rooted t root ms -> rooted t root ms' -> map o ms = map o ms' -> ms = ms' }.

(** [v] is the arithmetic mean of a non-empty list. *)
Definition is_mean (v : Q) (l : list Q) : Prop := l <> [] /\ (v * inject_Z (Z.of_nat (List.length l)) == fold_right Qplus 0 l)%Q.
