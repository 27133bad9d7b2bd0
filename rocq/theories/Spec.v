(** * The specification: a plain finite map

    Nothing here mentions trees, nodes, masks or blocks.  A container is specified by a
    [gmap N V] and what each public call does to it.  [Properties*.v] states that the
    modelled containers behave like this. *)
From Verif Require Import Base.

(** One public call together with what the client does with the result.
    - [CInsert k v]              `c.insert(k, v)`
    - [CGetOrInsert k dflt w]    `let r = c.get_or_insert(k); read *r; if let Some(x) = w { *r = x }`
                                 [dflt]: what `Default::default()` would return, [None] if it panics
    - [CRemove k]                `c.remove(k)`
    - [CGet k]                   `c.get(k)`
    - [CGetMut k w]              `if let Some(r) = c.get_mut(k) { read *r; if let Some(x) = w { *r = x } }`
    - [CGetOrDefault k]          `c.get_or_default(k)`
    - [CUpdateAll f]             `for (k, r) in c.key_values_mut() { *r = f(k, &*r) }` *)
Inductive call (V : Type) :=
| CInsert (k : N) (v : V)
| CGetOrInsert (k : N) (dflt : option V) (w : option V)
| CRemove (k : N)
| CGet (k : N)
| CGetMut (k : N) (w : option V)
| CGetOrDefault (k : N)
| CUpdateAll (f : N -> V -> V).
Arguments CInsert {V}. Arguments CGetOrInsert {V}. Arguments CRemove {V}. Arguments CGet {V}.
Arguments CGetMut {V}. Arguments CGetOrDefault {V}. Arguments CUpdateAll {V}.

(** what the client sees: nothing, an optional value, or a panic *)
Inductive out (V : Type) := ODone | OVal (o : option V) | OPanic.
Arguments ODone {V}. Arguments OVal {V}. Arguments OPanic {V}.

Section spec.
Context {V : Type}.
(** keys below [B] are accepted; [d0] is the value type's default *)
Context (B : N) (d0 : option V).
Implicit Types (m : gmap N V) (c : call V).

Definition ol (o : option V) : list V := match o with Some v => [v] | None => [] end.
(** write [w], if any, over the value [v] of key [k]; the overwritten value is dropped *)
Definition overwrite m (k : N) (v : V) (w : option V) : gmap N V * list V :=
  match w with Some x => (<[k := x]> m, [v]) | None => (m, []) end.

(** the map after the call *)
Definition spec_map m c : gmap N V :=
  match c with
  | CInsert k v => if (k <? B)%N then <[k := v]> m else m
  | CGetOrInsert k dflt w =>
    if (k <? B)%N then
      match m !! k with
      | Some v => fst (overwrite m k v w)
      | None => match dflt with Some v => fst (overwrite (<[k := v]> m) k v w) | None => m end
      end
    else m
  | CRemove k => if (k <? B)%N then delete k m else m
  | CGet _ | CGetOrDefault _ => m
  | CGetMut k w =>
    if (k <? B)%N then match m !! k with Some v => fst (overwrite m k v w) | None => m end else m
  | CUpdateAll f => map_imap (fun k v => Some (f k v)) m
  end.
(** what the client sees *)
Definition spec_out m c : out V :=
  match c with
  | CInsert k v => if (k <? B)%N then ODone else OPanic
  | CGetOrInsert k dflt w =>
    if (k <? B)%N then
      match m !! k, dflt with
      | Some v, _ => OVal (Some v)
      | None, Some v => OVal (Some v)
      | None, None => OPanic
      end
    else OPanic
  | CRemove k | CGet k | CGetMut k _ => if (k <? B)%N then OVal (m !! k) else OPanic
  | CGetOrDefault k =>
    if (k <? B)%N then match m !! k with Some v => OVal (Some v) | None => OVal d0 end else OPanic
  | CUpdateAll f => ODone
  end.
(** the values dropped during the call *)
Definition spec_drop m c : list V :=
  match c with
  | CInsert k v => if (k <? B)%N then ol (m !! k) else [v]
  | CGetOrInsert k dflt w =>
    if (k <? B)%N then
      match m !! k, dflt with
      | Some v, _ => snd (overwrite m k v w)
      | None, Some v => snd (overwrite m k v w)
      | None, None => []
      end
    else []
  | CGetMut k w =>
    if (k <? B)%N then match m !! k with Some v => snd (overwrite m k v w) | None => [] end else []
  | CUpdateAll f => (map_to_list m).*2
  | CRemove _ | CGet _ | CGetOrDefault _ => []
  end.
(** the values that come into existence / are handed over by the client during the call *)
Definition spec_in m c : list V :=
  match c with
  | CInsert k v => [v]
  | CGetOrInsert k dflt w =>
    if (k <? B)%N then
      match m !! k, dflt with
      | Some v, _ => ol w
      | None, Some v => v :: ol w
      | None, None => []
      end
    else []
  | CGetMut k w => if (k <? B)%N then match m !! k with Some _ => ol w | None => [] end else []
  | CUpdateAll f => (map_to_list (map_imap (fun k v => Some (f k v)) m)).*2
  | CRemove _ | CGet _ | CGetOrDefault _ => []
  end.
(** the values handed back to the client *)
Definition spec_removed m c : list V :=
  match c with CRemove k => if (k <? B)%N then ol (m !! k) else [] | _ => [] end.

(** histories *)
Fixpoint spec_run m (cs : list (call V)) : gmap N V :=
  match cs with [] => m | c :: cs => spec_run (spec_map m c) cs end.
Fixpoint spec_outs m (cs : list (call V)) : list (out V) :=
  match cs with [] => [] | c :: cs => spec_out m c :: spec_outs (spec_map m c) cs end.
Fixpoint spec_collect (f : gmap N V -> call V -> list V) m (cs : list (call V)) : list V :=
  match cs with [] => [] | c :: cs => f m c ++ spec_collect f (spec_map m c) cs end.
(** [P] holds of every map the history passes through (including the first and the last) *)
Fixpoint spec_always (P : gmap N V -> Prop) m (cs : list (call V)) : Prop :=
  P m /\ match cs with [] => True | c :: cs => spec_always P (spec_map m c) cs end.

(** keys for which a value constructor panicked while the key was absent *)
Definition spec_panicked m c : gset N :=
  match c with
  | CGetOrInsert k None _ => if (k <? B)%N then match m !! k with None => {[k]} | Some _ => ∅ end else ∅
  | _ => ∅
  end.
(** [P] holds of every map the history passes through and of the keys for which a value
    constructor panicked so far ([E]: those before the history) *)
Fixpoint spec_always_e (P : gmap N V -> gset N -> Prop) (E : gset N) m (cs : list (call V)) : Prop :=
  P m E /\ match cs with [] => True | c :: cs => spec_always_e P (E ∪ spec_panicked m c) (spec_map m c) cs end.
Fixpoint spec_all_panicked m (cs : list (call V)) : gset N :=
  match cs with [] => ∅ | c :: cs => spec_panicked m c ∪ spec_all_panicked (spec_map m c) cs end.
End spec.

(** which calls exist: `get_mut` is a SparseTree method, `get_or_default` exists on a
    SparseTree built with ReqDefault<true> *)
Definition dense_api {V} (c : call V) : Prop :=
  match c with CGetMut _ _ | CGetOrDefault _ => False | _ => True end.
Definition sparse_api {V} (req : bool) (c : call V) : Prop :=
  match c with CGetOrDefault _ => req = true | _ => True end.
Definition is_remove {V} (c : call V) : Prop := match c with CRemove _ => True | _ => False end.

(** number of distinct prefixes of length [n] of the keys in [K], for keys of [D] digits in
    base [W]: the number of level-[n] subtrees needed to hold [K] *)
Definition prefixes (W : N) (D n : nat) (K : gset N) : gset N :=
  set_map (fun k => k / W ^ N.of_nat (D - n))%N K.
(** the numbers of subtrees that the 8-, 16- and 32-bit links of SparseTree can express
    (0 is reserved) *)
Definition link_capacity (n : nat) : N := match n with 1 => 2 ^ 8 | 2 => 2 ^ 16 | _ => 2 ^ 32 end.
Definition links_fit (W : N) (D : nat) (K : gset N) : Prop :=
  forall n, 1 <= n <= D -> (N.of_nat (size (prefixes W D n K)) < link_capacity n)%N.

(** an ordered enumeration of a map *)
Definition enumerates {V} (l : list (N * V)) (get : N -> option V) : Prop :=
  StronglySorted N.lt l.*1 /\ forall k v, (k, v) ∈ l <-> get k = Some v.

(** ** keys as digit strings *)
(** the [D] base-[W] digits of [k], most significant first *)
Fixpoint digits (W : N) (D : nat) (k : N) : list N :=
  match D with O => [] | S D => ((k / W ^ N.of_nat D) mod W)%N :: digits W D k end.
(** the number with the given base-[W] digits *)
Definition undigits (W : N) (p : list N) : N := fold_left (fun acc i => acc * W + i)%N p 0%N.
(** key [k] lies in the subtree with path [p] *)
Definition below (W : N) (D : nat) (p : list N) (k : N) : Prop :=
  (k < W ^ N.of_nat D)%N /\ p `prefix_of` digits W D k.

(** ** cursor protocol
    One selection: level, index inside the selected node of the previous level, and whether
    the unchecked variant is used. *)
Record sel := Sel { sel_level : nat; sel_index : N; sel_unchecked : bool }.
(** Which selections the documentation allows, and the path that is selected afterwards.
    The current state is [None] before the first selection; otherwise the path and whether
    every node on it was selected with the checked method.
    - level 0 has one node, index 0;
    - level n+1 may be selected when levels 0..n are selected; the deeper ones are dropped;
    - the unchecked variant may only be used for a child that contains an element
      ([has p]: some element lies below [p]);
    - the checked variant continues a path selected by checked calls. *)
Definition sel_step (W : N) (D : nat) (has : list N -> Prop) (cur : option (list N * bool)) (x : sel)
    (cur' : option (list N * bool)) : Prop :=
  match sel_level x with
  | O => 0 < D /\ sel_index x = 0%N /\ cur' = Some ([], negb (sel_unchecked x))
  | S n => exists p b, cur = Some (p, b) /\ n <= length p /\ S n < D /\ (sel_index x < W)%N /\
      (if sel_unchecked x then has (take n p ++ [sel_index x]) else b = true) /\
      cur' = Some (take n p ++ [sel_index x], negb (sel_unchecked x))
  end.
Inductive sel_run (W : N) (D : nat) (has : list N -> Prop)
  : option (list N * bool) -> list sel -> option (list N * bool) -> Prop :=
| sel_nil cur : sel_run W D has cur [] cur
| sel_cons cur x cur1 xs cur2 : sel_step W D has cur x cur1 -> sel_run W D has cur1 xs cur2 ->
    sel_run W D has cur (x :: xs) cur2.

(** ** what the lazy operations compute, for one key *)
Definition both {A B} (a : option A) (b : option B) : option (A * B) :=
  match a, b with Some x, Some y => Some (x, y) | _, _ => None end.
Definition either {A B} (a : option A) (b : option B) : option (option A * option B) :=
  match a, b with None, None => None | _, _ => Some (a, b) end.
(** all answers, if every tree has one *)
Fixpoint all_of {A} (l : list (option A)) : option (list A) :=
  match l with
  | [] => Some []
  | None :: _ => None
  | Some x :: l => match all_of l with Some r => Some (x :: r) | None => None end
  end.
(** the answers of the trees that have one *)
Fixpoint present {A} (l : list (option A)) : list A :=
  match l with [] => [] | None :: l => present l | Some x :: l => x :: present l end.
Definition some_of {A} (l : list (option A)) : option (list A) :=
  match present l with [] => None | r => Some r end.
