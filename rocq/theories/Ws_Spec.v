(** What a user of a websocket Handler relies on, said of what can be seen ([event]s, oldest first). *)
From stdpp Require Import list.
From Coq Require Import ZArith.
From Verif Require Import Conc Ws_Model.
Local Open Scope Z_scope.

(** The handler is shut: a Close has returned, or OnClose has begun. *)
Definition shut (e : event) : Prop := match e with EvRet _ _ OClose _ | EvClose => True | _ => False end.
(** It is over: shut, or OnError has begun. *)
Definition over (e : event) : Prop := match e with EvErr _ => True | _ => shut e end.
(** The call was made when the handler was over. *)
Definition late (t k : nat) (tr : list event) : Prop := exists tr1 tr2 e o, tr = tr1 ++ tr2 /\ e ∈ tr1 /\ over e /\ EvCall t k o ∈ tr2.

(** Messages received and messages given to OnMessage, in order. *)
Definition received (tr : list event) : list (list Z) := omap (fun e => match e with EvRecv m => Some m | _ => None end) tr.
Definition handed (tr : list event) : list (list Z) := omap (fun e => match e with EvMsg m => Some m | _ => None end) tr.
(** How often [m] is in [l]. *)
Definition one (m x : list Z) : Z := if decide (x = m) then 1 else 0.
Definition cnt (m : list Z) (l : list (list Z)) : Z := sumZ (one m) l.
(** How often OnClose and OnError were called. *)
Definition closes (tr : list event) : list unit := omap (fun e => match e with EvClose => Some tt | _ => None end) tr.
Definition errors (tr : list event) : list (option werr) := omap (fun e => match e with EvErr x => Some x | _ => None end) tr.
(** The bytes on the wire. *)
Definition sent (tr : list event) : list Z := omap (fun e => match e with EvByte b => Some b | _ => None end) tr.
(** The calls of Send a frame was written for. *)
Definition send_ids (F : list origin) : list (nat * nat) := omap (fun o => match o with FSend t k _ => Some (t, k) | _ => None end) F.

(** The successful Send [t', k', bs'] returned before the call [t, k] was made. *)
Definition precedes (tr : list event) t' k' bs' t k : Prop := exists tr1 tr2 o, tr = tr1 ++ tr2 /\ EvRet t' k' (OSend bs') None ∈ tr1 /\ EvCall t k o ∈ tr2.

(** No goroutine can do anything more, whatever comes from the network. *)
Definition quiet frame ho he hc hm (c : wsconf) : Prop := forall t th i, ths c !! t = Some th -> th_step frame ho he hc hm (sh c) t th i = None.
