(** The methods of the collections as critical sections, statement by statement, for the machine of Lin_Model.v: which lock, for reading or for writing, what is
    done in which order under it.  The statements are those of the models of the single files (LimitMap_Model.v, ...); a statement is one step.  For google/btree a
    call is one step, except that an iteration takes one for each item. *)
From stdpp Require Import gmap.
From Coq Require Import ZArith.
From Verif Require Import GoList_Model Lin_Model.
From Verif Require LimitMap_Model Lru_Model TreeMap_Model Linked_Model LimitHash_Model.
Local Open Scope Z_scope.

(** A statement that changes the state and one that only looks at it (used for all files below). *)
Definition act {St Res} (f : St -> St) (p : inner St Res) : inner St Res := Act f (fun _ => p).
Definition look {St Res} (k : St -> inner St Res) : inner St Res := Act (fun s => s) k.

(** ** hashmap/limitmap.go *)
Section limitmap.
Context {K V : Type} `{Countable K}.
Import LimitMap_Model.
Notation inner := (inner (lmap K V) (lres V)). Notation code := (code (lmap K V) (lres V)).
(** Assignments to the fields (hashmap/limitmap.go:21-22). *)
Definition lm_order (f : dlist (K * V) -> dlist (K * V)) (mc : lmap K V) : lmap K V := LMap (cache mc) (f (order mc)) (capacity mc).
Definition lm_cache (f : gmap K nat -> gmap K nat) (mc : lmap K V) : lmap K V := LMap (f (cache mc)) (order mc) (capacity mc).
(** hashmap/limitmap.go:63-66. *)
Definition lm_push (k : K) (v : V) : inner :=
  Act (lm_order (fun l => snd (list_PushFront (k, v) l))) (fun mc =>
  act (lm_cache <[k := fst (list_PushFront (k, v) (order mc))]>) (Leave (Fin (LVal None)))).
(** hashmap/limitmap.go:47-67 [Put]: lines 50-54, 56-62, 63-66. *)
Definition lm_put (k : K) (v : V) : inner :=
  look (fun mc => match cache mc !! k with
  | Some elem =>
      look (fun mc => let prev := option_map snd (vals (order mc) !! elem) in
      act (lm_order (set_value elem (k, v)))
      (act (lm_order (list_MoveToFront elem))
      (Leave (Fin (LVal prev)))))
  | None =>
      look (fun mc => if capacity mc <? Len mc then
        look (fun mc => match list_Back (order mc) with
        | Some oldest =>
            act (lm_order (list_Remove oldest))
            (Act (fun mc => lm_cache (match vals (order mc) !! oldest with Some (ko, _) => delete ko | None => fun c => c end) mc)
            (fun _ => lm_push k v))
        | None => lm_push k v
        end)
      else lm_push k v)
  end).
(** hashmap/limitmap.go:74-77 and 85-88. *)
Definition lm_del (k : K) (rest : inner) : inner :=
  look (fun mc => match cache mc !! k with
  | Some elem => act (lm_order (list_Remove elem)) (act (lm_cache (delete k)) rest)
  | None => rest
  end).
(** hashmap/limitmap.go:37-98: Get and Len with RLock, the others with Lock. *)
Definition lm_body (o : lop K V) : code :=
  match o with
  | LGet k => Enter 0 false (look (fun mc => match cache mc !! k with
              | Some elem => look (fun mc => Leave (Fin (LVal (option_map snd (vals (order mc) !! elem)))))
              | None => Leave (Fin (LVal None))
              end))
  | LPut k v => Enter 0 true (lm_put k v)
  | LDel k => Enter 0 true (lm_del k (Leave (Fin LUnit)))
  | LRemoveMulti ks => Enter 0 true (foldr lm_del (Leave (Fin LUnit)) ks)
  | LLen => Enter 0 false (look (fun mc => Leave (Fin (LNum (Len mc)))))
  end.
End limitmap.

(** ** cache/lrucache.go *)
Section lru.
Context {K V : Type} `{Countable K}.
Import Lru_Model.
Notation inner := (inner (lru K V) (option (option V))). Notation code := (code (lru K V) (option (option V))).
(** Assignments to the fields of lru.Cache (cache/lrucache.go:17). *)
Definition lru_ll (f : dlist (K * V) -> dlist (K * V)) (c : lru K V) : lru K V := Lru (MaxEntries c) (f (ll c)) (cache c).
Definition lru_cache (f : gmap K nat -> gmap K nat) (c : lru K V) : lru K V := Lru (MaxEntries c) (ll c) (f (cache c)).
(** lru.Cache.removeElement (cache/lrucache.go:42,51,62). *)
Definition lru_unlink (e : nat) (rest : inner) : inner :=
  act (lru_ll (list_Remove e))
  (Act (fun c => lru_cache (match vals (ll c) !! e with Some (k, _) => delete k | None => fun m => m end) c) (fun _ => rest)).
(** cache/lrucache.go:42,51 and lru.Cache.Remove. *)
Definition lru_remove (k : option K) (rest : inner) : inner :=
  match k with
  | None => rest
  | Some k => look (fun c => match cache c !! k with Some e => lru_unlink e rest | None => rest end)
  end.
(** cache/lrucache.go:62 and lru.Cache.Add. *)
Definition lru_add (k : K) (v : V) : inner :=
  look (fun c => match cache c !! k with
  | Some ee => act (lru_ll (list_MoveToFront ee)) (act (lru_ll (set_value ee (k, v))) (Leave (Fin None)))
  | None =>
      Act (lru_ll (fun l => snd (list_PushFront (k, v) l))) (fun c =>
      act (lru_cache <[k := fst (list_PushFront (k, v) (ll c))]>)
      (look (fun c => if negb (MaxEntries c =? 0) && (MaxEntries c <? list_Len (ll c)) then
        look (fun c => match list_Back (ll c) with Some e => lru_unlink e (Leave (Fin None)) | None => Leave (Fin None) end)
      else Leave (Fin None))))
  end).
(** cache/lrucache.go:26-63: all with Lock; Add of a nil key returns before it. *)
Definition lru_body (o : rop K V) : code :=
  match o with
  | RAdd None v => Fin None
  | RAdd (Some k) v => Enter 0 true (lru_add k v)
  | RGet k => Enter 0 true (match k with
      | None => Leave (Fin (Some None))
      | Some k => look (fun c => match cache c !! k with
          | Some e => act (lru_ll (list_MoveToFront e)) (look (fun c => Leave (Fin (Some (option_map snd (vals (ll c) !! e))))))
          | None => Leave (Fin (Some None))
          end)
      end)
  | RRemove k => Enter 0 true (lru_remove k (Leave (Fin None)))
  | RRemoveMulti ks => Enter 0 true (foldr (fun k => lru_remove (Some k)) (Leave (Fin None)) ks)
  end.
End lru.

(** ** hashmap/treemap.go *)
Section treemap.
Context {K V : Type} (lt : K -> K -> bool).
Import TreeMap_Model.
(** The calls of TreeMap_Model.v and the iterations (hashmap/treemap.go:37-83); the result of one is the calls of the function. *)
Inductive tmop := TOp (o : top K V) | TAscend (f : K -> V -> bool) | TDescend (f : K -> V -> bool).
Inductive tmres := TRes (r : tres V) | TSeen (l : list (K * V)).
(** One after the other (hashmap/treemap.go:37-83). *)
Definition tm_step (l : list (K * V)) (o : tmop) : tmres * list (K * V) :=
  match o with
  | TOp o => let '(r, l') := tree_step lt l o in (TRes r, l')
  | TAscend f => (TSeen (ascend f l), l)
  | TDescend f => (TSeen (descend f l), l)
  end.
Notation inner := (inner (list (K * V)) tmres). Notation code := (code (list (K * V)) tmres).
(** btree.Ascend, Descend (hashmap/treemap.go:69,79): item by item, at most [n]. *)
Fixpoint tm_walk (down : bool) (f : K -> V -> bool) (n i : nat) (seen : list (K * V)) : inner :=
  match n with
  | O => Leave (Fin (TSeen seen))
  | S n => look (fun l => match (if down then rev l else l) !! i with
      | Some (k, v) => if f k v then tm_walk down f n (S i) (seen ++ [(k, v)]) else Leave (Fin (TSeen (seen ++ [(k, v)])))
      | None => Leave (Fin (TSeen seen))
      end)
  end.
(** hashmap/treemap.go:37-83: Put and Del with Lock, the others with RLock. *)
Definition tm_body (o : tmop) : code :=
  match o with
  | TOp (TPut k v) => Enter 0 true (Act (fun l => snd (replace_or_insert lt (k, v) l)) (fun l => Leave (Fin (TRes (TVal (snd <$> fst (replace_or_insert lt (k, v) l)))))))
  | TOp (TGet k) => Enter 0 false (look (fun l => Leave (Fin (TRes (TVal (snd <$> tree_get lt k l))))))
  | TOp (TDel k) => Enter 0 true (act (tree_delete lt k) (Leave (Fin (TRes TUnit))))
  | TAscend f => Enter 0 false (look (fun l => tm_walk false f (length l) 0 []))
  | TDescend f => Enter 0 false (look (fun l => tm_walk true f (length l) 0 []))
  end.
End treemap.
Arguments tmop : clear implicits. Arguments tmres : clear implicits.

(** ** hashmap/linkedhashmap.go *)
Section linked.
Context {K V : Type} `{Countable K}.
Import Linked_Model.
(** The map and its iterators (hashmap/linkedhashmap.go:15-21, 150-154). *)
Record lks := Lks { lmp : lhm K V; its : list iter }.
(** The calls of Linked_Model.v, a new iterator, and Next of an iterator by number (hashmap/linkedhashmap.go:37-184). *)
Inductive lkop := KOp (o : op K V) | KIterator (front : bool) | KNext (i : nat).
Inductive lkres := KRes (r : res K V) | KIter (i : nat) | KEntry (r : option (K * V)).
(** One after the other (hashmap/linkedhashmap.go:37-184). *)
Definition lk_step (s : lks) (o : lkop) : lkres * lks :=
  match o with
  | KOp o => let '(r, t) := step (lmp s) o in (KRes r, Lks t (its s))
  | KIterator fr => (KIter (length (its s)), Lks (lmp s) (its s ++ [Iterator fr (lmp s)]))
  | KNext i => match its s !! i with
               | Some it => let '(r, it') := Next (lmp s) it in (KEntry r, Lks (lmp s) (<[i := it']> (its s)))
               | None => (KEntry None, s)
               end
  end.
Notation inner := (inner lks lkres). Notation code := (code lks lkres).
(** Assignments to the fields (hashmap/linkedhashmap.go:16-19). *)
Definition lk_m (f : gmap K nat -> gmap K nat) (s : lks) : lks := let t := lmp s in Lks (LHM (f (m t)) (lst t) (limit t) (count t)) (its s).
Definition lk_lst (f : dlist (K * V) -> dlist (K * V)) (s : lks) : lks := let t := lmp s in Lks (LHM (m t) (f (lst t)) (limit t) (count t)) (its s).
Definition lk_count (f : Z -> Z) (s : lks) : lks := let t := lmp s in Lks (LHM (m t) (lst t) (limit t) (f (count t))) (its s).
(** hashmap/linkedhashmap.go:41-53 and 60-76: [res] makes the result from the previous element. *)
Definition lk_put (k : K) (v : V) (res : option nat -> inner) : inner :=
  Act (lk_lst (fun l => snd (list_PushFront (k, v) l))) (fun s => let elem := fst (list_PushFront (k, v) (lst (lmp s))) in
  Act (lk_m <[k := elem]>) (fun s => match m (lmp s) !! k with
  | None =>
      act (lk_count (fun c => c + 1))
      (look (fun s => if limit (lmp s) <? count (lmp s) then
        look (fun s => match list_Back (lst (lmp s)) with
        | Some oldest =>
            act (lk_lst (list_Remove oldest))
            (Act (fun s => lk_m (match vals (lst (lmp s)) !! oldest with Some (ko, _) => delete ko | None => fun m => m end) s) (fun _ =>
            act (lk_count (fun c => c - 1)) (res None)))
        | None => act (lk_count (fun c => c - 1)) (res None)
        end)
      else res None))
  | Some preelem => act (lk_lst (list_Remove preelem)) (res (Some preelem))
  end)).
(** hashmap/linkedhashmap.go:37-184: all with Lock, except Get, which only loads from the sync.Map (what it finds there is never changed). *)
Definition lk_body (o : lkop) : code :=
  match o with
  | KOp (OPut k v) => Enter 0 true (lk_put k v (fun _ => Leave (Fin (KRes RUnit))))
  | KOp (OLoadOrStore k v) => Enter 0 true (lk_put k v (fun pre => match pre with
      | None => Leave (Fin (KRes (RVal None)))
      | Some e => look (fun s => Leave (Fin (KRes (RVal (option_map snd (vals (lst (lmp s)) !! e))))))
      end))
  | KOp (OGet k) => Peek 0 (fun s => Fin (KRes (RVal (Get k (lmp s)))))
  | KOp (ODelete k) => Enter 0 true (look (fun s => match m (lmp s) !! k with
      | Some e => act (lk_lst (list_Remove e)) (act (lk_m (delete k)) (act (lk_count (fun c => c - 1)) (Leave (Fin (KRes RUnit)))))
      | None => Leave (Fin (KRes RUnit))
      end))
  | KOp OBack => Enter 0 true (look (fun s => Leave (Fin (KRes (RPair (Back (lmp s)))))))
  | KOp OFront => Enter 0 true (look (fun s => Leave (Fin (KRes (RPair (Front (lmp s)))))))
  | KOp OClear => Enter 0 true (act (lk_m (fun _ => ∅)) (act (lk_lst list_Init) (act (lk_count (fun _ => 0)) (Leave (Fin (KRes RUnit))))))
  | KOp OLen => Enter 0 true (look (fun s => Leave (Fin (KRes (RLen (Len (lmp s)))))))
  | KOp (OMoveToFront k) => Enter 0 true (look (fun s => match m (lmp s) !! k with
      | Some e => act (lk_lst (list_MoveToFront e)) (Leave (Fin (KRes RUnit)))
      | None => Leave (Fin (KRes RUnit))
      end))
  | KIterator fr => Enter 0 true (Act (fun s => Lks (lmp s) (its s ++ [Iterator fr (lmp s)])) (fun s => Leave (Fin (KIter (length (its s))))))
  | KNext i => Enter 0 true (look (fun s => match its s !! i with
      | Some it => Act (fun s => Lks (lmp s) (<[i := snd (Next (lmp s) it)]> (its s))) (fun s => Leave (Fin (KEntry (fst (Next (lmp s) it)))))
      | None => Leave (Fin (KEntry None))
      end))
  end.
End linked.
Arguments lks : clear implicits. Arguments lks _ _ {_ _}. Arguments lkop : clear implicits. Arguments lkres : clear implicits.

(** ** hashmap/limithashmap.go *)
Section limithash.
Context {K V : Type} (hash : K -> Z) (is_nil : V -> bool) (cap segs : Z).
Import LimitHash_Model.
Notation inner := (inner (segment K V) (hres V)). Notation code := (code (segment K V) (hres V)).
(** Assignments to the fields (hashmap/limithashmap.go:20-21). *)
Definition sg_order (f : dlist (Z * (K * V)) -> dlist (Z * (K * V))) (s : segment K V) : segment K V := Seg (cache s) (f (order s)).
Definition sg_cache (f : gmap Z nat -> gmap Z nat) (s : segment K V) : segment K V := Seg (f (cache s)) (order s).
(** hashmap/limithashmap.go:141-144 [getSegment]; c.segmentNumber is [segs]. *)
Definition sg_of (k : K) : nat := Z.to_nat (hash k mod segs).
(** hashmap/limithashmap.go:180-182. *)
Definition sg_push (k : K) (v : V) : inner :=
  Act (sg_order (fun l => snd (list_PushFront (hash k, (k, v)) l))) (fun s =>
  act (sg_cache <[hash k := fst (list_PushFront (hash k, (k, v)) (order s))]>) (Leave (Fin (HVal None)))).
(** hashmap/limithashmap.go:165-182; c.capacity is [cap]. A panic runs the deferred Unlock. *)
Definition sg_put (k : K) (v : V) : inner :=
  look (fun s => match cache s !! hash k with
  | Some ele => look (fun s => match vals (order s) !! ele with
      | Some (h0, (k0, prev)) => if is_nil prev then Leave (Fin HPanic) else act (sg_order (set_value ele (h0, (k0, v)))) (Leave (Fin (HVal (Some prev))))
      | None => Leave (Fin HPanic)
      end)
  | None => look (fun s => if cap <=? list_Len (order s) then
        look (fun s => match list_Back (order s) with
        | Some oldest =>
            act (sg_order (list_Remove oldest))
            (Act (fun s => sg_cache (match vals (order s) !! oldest with Some (ho, _) => delete ho | None => fun c => c end) s) (fun _ => sg_push k v))
        | None => sg_push k v
        end)
      else sg_push k v)
  end).
(** hashmap/limithashmap.go:207-214 [Clear]: one segment after the other, from [i] on. *)
Fixpoint sg_clear (n i : nat) : code :=
  match n with
  | O => Fin HUnit
  | S n => Enter i true (act (sg_cache (fun _ => ∅)) (act (sg_order list_Init) (Leave (sg_clear n (S i)))))
  end.
(** hashmap/limithashmap.go:216-224 [Len]: likewise. *)
Fixpoint sg_len (n i : nat) (total : Z) : code :=
  match n with
  | O => Fin (HNum total)
  | S n => Enter i true (look (fun s => Leave (sg_len n (S i) (total + list_Len (order s)))))
  end.
(** hashmap/limithashmap.go:146-224. *)
Definition sg_body (o : hop K V) : code :=
  match o with
  | HGet k => Enter (sg_of k) false (look (fun s => match cache s !! hash k with
      | Some ele => look (fun s => match vals (order s) !! ele with
          | Some (_, (_, v)) => if is_nil v then Leave (Fin (HVal None)) else Leave (Fin (HVal (Some v)))
          | None => Leave (Fin HPanic)
          end)
      | None => Leave (Fin (HVal None))
      end))
  | HPut k v => Enter (sg_of k) true (sg_put k v)
  | HDel k => Enter (sg_of k) true (look (fun s => match cache s !! hash k with
      | Some ele => act (sg_order (list_Remove ele)) (act (sg_cache (delete (hash k))) (Leave (Fin HUnit)))
      | None => Leave (Fin HUnit)
      end))
  | HContains k => Enter (sg_of k) false (look (fun s => Leave (Fin (HBool (match cache s !! hash k with Some _ => true | None => false end)))))
  | HClear => sg_clear (Z.to_nat segs) 0
  | HLen => sg_len (Z.to_nat segs) 0 0
  end.
End limithash.
