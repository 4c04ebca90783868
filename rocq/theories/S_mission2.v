(* S_mission2.v: what a database of keywords says, independent of the code that reads it *)
From Coq Require Import String Ascii.
From Verif Require Import Np M_io M_mission S_mission.
From Coq Require Import ZArith List Bool.
Import ListNotations.

(* words separated by blanks *)
Definition is_blank (c : ascii) : Prop := In (nat_of_ascii c) [9; 10; 11; 12; 13; 32]%nat.
Definition word (w : str) : Prop := w <> [] /\ Forall (fun c => ~ is_blank c) w.
Inductive spaced : str -> list str -> Prop :=
| spaced_end b : Forall is_blank b -> spaced b []
| spaced_word b w rest ws : Forall is_blank b -> word w -> (rest = [] \/ exists c r, rest = c :: r /\ is_blank c) -> spaced rest ws -> spaced (b ++ w ++ rest) (w :: ws).
Definition leaf (t : tree) : Prop := forall d, t <> Node d.
Definition value_of (ws : list str) : tree := match ws with [w] => Leaf w | _ => Leaves ws end.
(* the value found by following a path of keys *)
Inductive at_path : list (str * tree) -> list str -> tree -> Prop :=
| at_here d k v : In (k, v) d -> at_path d [k] v
| at_below d k e p v : In (k, Node e) d -> at_path e p v -> at_path d (k :: p) v.
(* p is the beginning of q *)
Definition begins {A} (p q : list A) : Prop := exists r, q = p ++ r.
(* the value given last to a path *)
Definition last_given (E : list (list str * tree)) (p : list str) (t : tree) : Prop :=
  exists before after, E = before ++ (p, t) :: after /\ ~ In p (map fst after).
(* a line of the database: keys separated by colons, then words *)
Definition gives (line : str) (path : list str) (t : tree) : Prop :=
  exists name ws, spaced line (name :: ws) /\ (forall r, name <> "!"%char :: r) /\ (2 <= length path)%nat /\ (forall k, In k path -> ~ In ":"%char k) /\ name = join ":" path /\ t = value_of ws.
Definition comment (line : str) : Prop := spaced line [] \/ exists name ws, spaced line (name :: ws) /\ exists r, name = "!"%char :: r.
(* the last entry of a dictionary whose key is the same up to the case *)
Definition last_entry (d : list (str * tree)) (key : str) (v : tree) : Prop :=
  exists before k after, d = before ++ (k, v) :: after /\ same_case k key /\ forall k' v', In (k', v') after -> ~ same_case k' key.
Definition no_entry (d : list (str * tree)) (key : str) : Prop := forall k v, In (k, v) d -> ~ same_case k key.
(* what the lines of the database say about one mission (the first key begins with the name, whatever the case), or about all *)
Definition about (mission : str) (line : str) : Prop := exists name ws a b, spaced line (name :: ws) /\ name = a ++ b /\ same_case a mission.
Inductive says (mission : option str) : list str -> list (list str * tree) -> Prop :=
| says_nil : says mission [] []
| says_comment line lines E : comment line -> says mission lines E -> says mission (line :: lines) E
| says_other m line lines E path t : mission = Some m -> gives line path t -> ~ about m line -> says mission lines E -> says mission (line :: lines) E
| says_all line lines E path t : mission = None -> gives line path t -> says mission lines E -> says mission (line :: lines) ((path, t) :: E)
| says_one m line lines E path t : mission = Some m -> about m line -> gives line path t -> says mission lines E -> says mission (line :: lines) ((tl path, t) :: E).
Definition compatible (E : list (list str * tree)) : Prop := forall p q, In p (map fst E) -> In q (map fst E) -> begins p q -> p = q.
