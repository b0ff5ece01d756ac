(** Model of websocket/wshandle.go [Handler]: opening, Send, Close, Error and the read loop, under every interleaving.

    Steps are single accesses to shared variables; the plain variable err is taken as sequentially consistent.  The connection is
    golang.org/x/net/websocket's Conn, from its published code: Message.Send and Close write one frame under the connection's own
    lock wio, byte by byte here; Close then closes the socket; Receive answers a ping with a frame and returns a message (never
    nil) or an error.  A write fails once the socket is closed or the network is broken, which it may be at any moment and then
    for ever.  What Receive finds is arbitrary at every step.  Dialling comes first and is modelled in Net_Model.v.  A callback
    that uses the handler is one of the users. *)
From stdpp Require Import list.
From Coq Require Import ZArith.
Local Open Scope Z_scope.

(** The errors of a handler (websocket/wshandle.go:41): "connection is closed" (103), or one from the network. *)
Inductive werr := EClosed | ENet (code : Z).
(** What a user may call (websocket/wshandle.go:95,102,110). *)
Inductive uop := OSend (bs : list Z) | OClose | OError.

(** What can be seen from outside: the calls of the callbacks (websocket/wshandle.go:82,123,127,131; the end of OnOpen too), the
    users' calls (goroutine, number, operation) and their results, messages received (119), bytes on the wire. *)
Inductive event :=
| EvOpen | EvOpened
| EvRecv (m : list Z)
| EvMsg (m : list Z)
| EvErr (e : option werr)
| EvClose
| EvCall (t k : nat) (o : uop)
| EvRet (t k : nat) (o : uop) (r : option werr)
| EvByte (b : Z).

(** What a frame is for: a user's Send (goroutine, number, data), a Close (x/net/websocket Conn.Close), a pong. *)
Inductive origin := FSend (t k : nat) (bs : list Z) | FClose | FPong (bs : list Z).
(** Inside a frame write (x/net/websocket Codec.Send, WriteClose, WritePong): taking wio, the bytes left to write, giving up wio. *)
Inductive wwr := WwLock | WwBytes (rest : list Z) | WwUnlock (r : option werr).

(** Where a user is (the numbers are lines of wshandle.go). *)
Inductive upc :=
| UIdle
| UTest (bs : list Z)                      (* 96 *)
| ULock (bs : list Z)                      (* 90 *)
| USend (bs : list Z) (w : wwr)            (* 92 *)
| UUnlock (bs : list Z) (r : option werr)  (* 91, deferred *)
| USet                                     (* 103 *)
| UFrame (w : wwr)                         (* 105: the close frame *)
| USock (r : option werr)                  (* 105: the socket *)
| UError.                                  (* 111 *)
(** Where the reader is. *)
Inductive rpc :=
| RTest (e : option werr)                  (* 116; e: the local err *)
| RRecv                                    (* 118 *)
| RPong (bs : list Z) (w : wwr)            (* 118: answering a ping *)
| RSet (e : werr)                          (* 119 *)
| RGo (m : list Z)                         (* 122 *)
| RErr (e : option werr)                   (* 126 *)
| RClosed                                  (* 103, called at 129 *)
| RFrame (w : wwr)                         (* 105 *)
| RSock                                    (* 105 *)
| ROnClose.                                (* 130 *)
(** The goroutines: the one in NewHandler (80: handler made; 84: OnOpen has returned), the reader, one for each OnMessage and
    OnError (123, 127), users (what they will call, number of the next call). *)
Inductive wth :=
| TNew | TOpening
| TRead (p : rpc)
| TMsg (m : list Z)
| TErr (e : option werr)
| TUser (todo : list uop) (k : nat) (p : upc)
| TEnd.
(** websocket/wshandle.go:37-42: whether the handler exists, err, mux; the connection: wio, socket closed, network broken; [tr]: what has been seen so
    far, oldest first. *)
Record wsh := WS { live : bool; err : option werr; mux : bool; wio : bool; closed : bool; broken : bool; tr : list event }.
(** The handler and the goroutines (websocket/wshandle.go:37). *)
Record wsconf := WC { sh : wsh; ths : list wth }.

(** Assignments (websocket/wshandle.go:37-42). *)
Definition s_live s := WS true (err s) (mux s) (wio s) (closed s) (broken s) (tr s).
Definition s_err e s := WS (live s) e (mux s) (wio s) (closed s) (broken s) (tr s).
Definition s_mux b s := WS (live s) (err s) b (wio s) (closed s) (broken s) (tr s).
Definition s_wio b s := WS (live s) (err s) (mux s) b (closed s) (broken s) (tr s).
Definition s_closed s := WS (live s) (err s) (mux s) (wio s) true (broken s) (tr s).
Definition s_broken s := WS (live s) (err s) (mux s) (wio s) (closed s) true (tr s).
Definition s_tr e s := WS (live s) (err s) (mux s) (wio s) (closed s) (broken s) (tr s ++ [e]).

(** What Receive finds (websocket/wshandle.go:118). *)
Inductive input := IMsg (m : list Z) | IFail (code : Z) | IPing (bs : list Z).

Section handler.
(** The bytes of a frame (x/net/websocket hybi.go), and which callbacks are given (websocket/wshandle.go:31-34). *)
Context (frame : origin -> list Z) (hasOpen hasErr hasClose hasMsg : bool).

(** One step of writing a frame (x/net/websocket hybi.go): [None] if it has to wait; the new state, and what is left of the write or its result. *)
Definition write_step (s : wsh) (o : origin) (w : wwr) : option (wsh * (wwr + option werr)) :=
  match w with
  | WwLock => if wio s then None else Some (s_wio true s, inl (WwBytes (frame o)))
  | WwBytes [] => Some (s, inl (WwUnlock None))
  | WwBytes (b :: r) => if closed s || broken s then Some (s, inl (WwUnlock (Some (ENet 0)))) else Some (s_tr (EvByte b) s, inl (WwBytes r))
  | WwUnlock r => Some (s_wio false s, inr r)
  end.

(** One step of goroutine [t], and the goroutines it starts; [None] when it has to wait or has ended (websocket/wshandle.go:79-133). *)
Definition th_step (s : wsh) (t : nat) (th : wth) (i : input) : option (wsh * wth * list wth) :=
  match th with
  | TNew => let s := s_live s in Some (if hasOpen then s_tr EvOpen s else s, TOpening, [])
  | TOpening => Some (if hasOpen then s_tr EvOpened s else s, TEnd, [TRead (RTest None)])
  | TMsg m => Some (s_tr (EvMsg m) s, TEnd, [])
  | TErr e => Some (s_tr (EvErr e) s, TEnd, [])
  | TRead p =>
      let go s p := Some (s, TRead p, []) in
      match p with
      | RTest e => match err s with None => go s RRecv | Some _ => go s (RErr e) end
      | RRecv =>
          match i with
          | IMsg m => go (s_tr (EvRecv m) s) (RGo m)
          | IFail c => go s (RSet (ENet c))
          | IPing bs => go s (RPong bs WwLock)
          end
      | RPong bs w =>
          match write_step s (FPong bs) w with
          | None => None
          | Some (s, inl w) => go s (RPong bs w)
          | Some (s, inr None) => go s RRecv
          | Some (s, inr (Some e)) => go s (RSet e)
          end
      | RSet e => go (s_err (Some e) s) (RErr (Some e))
      | RGo m => Some (s, TRead (RTest None), if hasMsg then [TMsg m] else [])
      | RErr e => Some (s, TRead RClosed, if hasErr then [TErr e] else [])
      | RClosed => go (s_err (Some EClosed) s) (RFrame WwLock)
      | RFrame w =>
          match write_step s FClose w with
          | None => None
          | Some (s, inl w) => go s (RFrame w)
          | Some (s, inr _) => go s RSock
          end
      | RSock => go (s_closed s) ROnClose
      | ROnClose => Some (if hasClose then s_tr EvClose s else s, TEnd, [])
      end
  | TUser todo k p =>
      let go s p := Some (s, TUser todo k p, []) in
      let ret s o r := Some (s_tr (EvRet t k o r) s, TUser todo (S k) UIdle, []) in
      match p with
      | UIdle =>
          match todo with
          | [] => None
          | o :: todo =>
              if live s
              then Some (s_tr (EvCall t k o) s, TUser todo k (match o with OSend bs => UTest bs | OClose => USet | OError => UError end), [])
              else None
          end
      | UTest bs => match err s with Some e => ret s (OSend bs) (Some e) | None => go s (ULock bs) end
      | ULock bs => if mux s then None else go (s_mux true s) (USend bs WwLock)
      | USend bs w =>
          match write_step s (FSend t k bs) w with
          | None => None
          | Some (s, inl w) => go s (USend bs w)
          | Some (s, inr r) => go s (UUnlock bs r)
          end
      | UUnlock bs r => ret (s_mux false s) (OSend bs) r
      | USet => go (s_err (Some EClosed) s) (UFrame WwLock)
      | UFrame w =>
          match write_step s FClose w with
          | None => None
          | Some (s, inl w) => go s (UFrame w)
          | Some (s, inr r) => go s (USock r)
          end
      | USock r => ret (s_closed s) OClose (match r with Some _ => r | None => if closed s then Some (ENet 1) else None end)
      | UError => ret s OError (err s)
      end
  | TEnd => None
  end.

(** An event: goroutine [t] makes a step (with what Receive finds), or the network breaks (websocket/wshandle.go:79-133). *)
Inductive wev := Step (t : nat) (i : input) | Break.
Definition ws_step (c : wsconf) (e : wev) : wsconf :=
  match e with
  | Break => WC (s_broken (sh c)) (ths c)
  | Step t i =>
      match ths c !! t with
      | None => c
      | Some th => match th_step (sh c) t th i with
                   | None => c
                   | Some (s, th', new) => WC s (<[t := th']> (ths c) ++ new)
                   end
      end
  end.
(** NewHandler has dialled (websocket/wshandle.go:79); users about to make their calls. *)
Definition ws_init (progs : list (list uop)) : wsconf :=
  WC (WS false None false false false false []) (TNew :: ((fun p => TUser p 0 UIdle) <$> progs)).
(** Any interleaving (websocket/wshandle.go:79-133). *)
Definition ws_run (c : wsconf) (evs : list wev) : wsconf := foldl ws_step c evs.
End handler.
