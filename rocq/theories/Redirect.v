(** Model of scripts/tcp_serial_redirect.py, the program that makes a PCI on a
    serial port reachable over TCP (docs/hacking.rst 47-62).  No proofs in this
    file.

    The program is written for Python 2 (scripts/tcp_serial_redirect.py 87,
    117, 314, 346: [except socket.error, msg]).  Its two threads, one copying
    from the serial port to the socket and one copying back, are interleaved in
    every possible way: one step of a thread is one test of [self.alive] or the
    end of one call that can block.  Not modelled: the messages on standard
    error, the output of [--spy] and Ctrl-C.  The options are in
    RedirectLine.v. *)
From Coq Require Import List ZArith Bool Arith.
From Verif Require Import Py.
Import ListNotations.
Open Scope Z_scope.

(** Does [s] begin with [sep]?  Used by [data.split(sep)] in
    tcp_serial_redirect.py 80 and 111. *)
Fixpoint begins (sep s : bytes) : bool :=
  match sep, s with
  | [], _ => true
  | a :: sep', b :: s' => (a =? b) && begins sep' s'
  | _ :: _, [] => false
  end.
(** [data.split(sep)] for a [sep] that is not empty: the pieces between the
    occurrences of [sep], looked for from the left.  [acc] is the current
    piece, backwards; [skip] counts the bytes of an occurrence still to pass.
    tcp_serial_redirect.py 80 and 111. *)
Fixpoint split_on (sep acc : bytes) (skip : nat) (s : bytes) : list bytes :=
  match s with
  | [] => [rev acc]
  | c :: s' =>
      match skip with
      | S k => split_on sep acc k s'
      | O => if begins sep s then rev acc :: split_on sep [] (List.length sep - 1) s'
             else split_on sep (c :: acc) 0 s'
      end
  end.
(** [sep.join(l)], tcp_serial_redirect.py 80 and 111. *)
Fixpoint join_with (sep : bytes) (l : list bytes) : bytes :=
  match l with
  | [] => []
  | [a] => a
  | a :: l' => a ++ sep ++ join_with sep l'
  end.

(** The newlines of the serial port and of the network when [--convert] is
    given, otherwise [None]: tcp_serial_redirect.py 46-50 and 333-337. *)
Definition conversion : Set := option (bytes * bytes).
(** From the serial port to the network, tcp_serial_redirect.py 77-80. *)
Definition to_net (cv : conversion) (data : bytes) : bytes :=
  match cv with
  | None => data
  | Some (ser_newline, net_newline) => join_with net_newline (split_on ser_newline [] 0 data)
  end.
(** From the network to the serial port, tcp_serial_redirect.py 108-111. *)
Definition to_serial (cv : conversion) (data : bytes) : bytes :=
  match cv with
  | None => data
  | Some (ser_newline, net_newline) => join_with ser_newline (split_on net_newline [] 0 data)
  end.

(** Where the thread from the serial port to the socket is: before the test of
    [self.alive], in the reading of the serial port, in [sendall], or gone.
    tcp_serial_redirect.py 64-91. *)
Inductive rstate : Set := RTop | RRead | RSend (data : bytes) | RGone.
(** Where the main thread is while it serves a connection: before the test of
    [self.alive], in [recv], in the writing to the serial port, in the [join]
    of the other thread, or back from [shortcut].
    tcp_serial_redirect.py 101-122. *)
Inductive wstate : Set := WTop | WRecv | WWrite (data : bytes) | WJoin | WGone.

(** One connection: [self.alive], the two threads, the bytes that arrived on
    the socket and were not received yet, and whether the peer closed it.
    tcp_serial_redirect.py 46-62. *)
Record conn : Set := mkConn {
  c_alive : bool; c_reader : rstate; c_writer : wstate; c_net : bytes; c_closed : bool }.
(** The program: the bytes waiting at the serial port, all connections so far,
    oldest first, and whether the process still runs.
    tcp_serial_redirect.py 324-347. *)
Record prog : Set := mkProg { p_serial : bytes; p_conns : list conn; p_up : bool }.

(** How a call that can block ends: normally, with [n] bytes where it reads;
    or with an exception, after [n] bytes went out where it writes.
    tcp_serial_redirect.py 68-71, 84, 105, 112. *)
Inductive how : Set := Fine (n : nat) | Fault (n : nat).
(** What can happen: bytes arrive at the serial port; bytes arrive on
    connection [i]; its peer closes it; [accept] returns; one of the threads of
    connection [i] takes a step.  tcp_serial_redirect.py 64-122 and 327-347. *)
Inductive op : Set :=
| SerialIn (b : bytes)
| NetIn (i : nat) (b : bytes)
| NetClose (i : nat)
| Accept
| Reader (i : nat) (h : how)
| Writer (i : nat) (h : how).

(** What is seen from outside: bytes reach the serial port of the program;
    bytes reach it on connection [i]; it accepts connection [i]; it sends bytes
    on connection [i]; it writes bytes to the serial port; it closes connection
    [i]; it ends.  tcp_serial_redirect.py 84, 105, 112, 330, 343. *)
Inductive ev : Set :=
| EIn (b : bytes)
| ENet (i : nat) (b : bytes)
| EStart (i : nat)
| ESend (i : nat) (b : bytes)
| EWrite (b : bytes)
| EEnd (i : nat)
| EExit.

(** Replacement of one element; the objects are updated in place in
    tcp_serial_redirect.py 57 and 91. *)
Fixpoint set_nth {A} (i : nat) (x : A) (l : list A) : list A :=
  match l, i with
  | [], _ => []
  | _ :: l', O => x :: l'
  | a :: l', S j => a :: set_nth j x l'
  end.

(** One step of the thread from the serial port to the socket: connection,
    bytes left at the serial port, bytes sent.  [read(1)], [inWaiting] and
    [read(n)] are one step, which takes some of the bytes waiting at the port,
    none if the timeout of one second (306) passes.  An exception of the serial
    port is no [socket.error] and ends the thread without line 91; one of the
    socket ends it through line 91.  tcp_serial_redirect.py 64-91. *)
Definition reader_step (cv : conversion) (c : conn) (serial : bytes) (h : how) : conn * bytes * option bytes :=
  match c_reader c, h with
  | RTop, _ =>
      if c_alive c then (mkConn true RRead (c_writer c) (c_net c) (c_closed c), serial, None)
      else (mkConn false RGone (c_writer c) (c_net c) (c_closed c), serial, None)
  | RRead, Fine n =>
      match firstn n serial with
      | [] => (mkConn (c_alive c) RTop (c_writer c) (c_net c) (c_closed c), serial, None)
      | data => (mkConn (c_alive c) (RSend data) (c_writer c) (c_net c) (c_closed c), skipn n serial, None)
      end
  | RRead, Fault _ => (mkConn (c_alive c) RGone (c_writer c) (c_net c) (c_closed c), serial, None)
  | RSend data, Fine _ =>
      (mkConn (c_alive c) RTop (c_writer c) (c_net c) (c_closed c), serial, Some (to_net cv data))
  | RSend data, Fault n =>
      (mkConn false RGone (c_writer c) (c_net c) (c_closed c), serial, Some (firstn n (to_net cv data)))
  | RGone, _ => (c, serial, None)
  end.

(** What a step of the main thread does besides: tcp_serial_redirect.py 112,
    122, 343. *)
Inductive wact : Set := WNothing | WWrote (b : bytes) | WEnded | WDied (b : bytes).

(** One step of the main thread in [writer].  [recv(1024)] returns between one
    and 1024 of the bytes that arrived; with none it waits, or returns nothing
    if the peer closed the connection.  An exception of the serial port is no
    [socket.error] and ends the program, as the main loop does not catch it
    either (344-347).  tcp_serial_redirect.py 101-122. *)
Definition writer_step (cv : conversion) (c : conn) (h : how) : conn * wact :=
  match c_writer c, h with
  | WTop, _ =>
      if c_alive c then (mkConn true (c_reader c) WRecv (c_net c) (c_closed c), WNothing)
      else (mkConn false (c_reader c) WJoin (c_net c) (c_closed c), WNothing)
  | WRecv, Fine n =>
      match c_net c with
      | [] => if c_closed c then (mkConn false (c_reader c) WJoin [] true, WNothing) else (c, WNothing)
      | _ => let m := Nat.min 1024 (Nat.max 1 n) in
             (mkConn (c_alive c) (c_reader c) (WWrite (firstn m (c_net c))) (skipn m (c_net c)) (c_closed c), WNothing)
      end
  | WRecv, Fault _ => (mkConn false (c_reader c) WJoin (c_net c) (c_closed c), WNothing)
  | WWrite data, Fine _ =>
      (mkConn (c_alive c) (c_reader c) WTop (c_net c) (c_closed c), WWrote (to_serial cv data))
  | WWrite data, Fault n =>
      (mkConn (c_alive c) (c_reader c) WGone (c_net c) (c_closed c), WDied (firstn n (to_serial cv data)))
  | WJoin, _ =>
      match c_reader c with
      | RGone => (mkConn (c_alive c) RGone WGone (c_net c) (c_closed c), WEnded)
      | _ => (c, WNothing)
      end
  | WGone, _ => (c, WNothing)
  end.

(** Is the main thread back in [accept]?  tcp_serial_redirect.py 327-343. *)
Definition back (c : conn) : bool := match c_writer c with WGone => true | _ => false end.

(** One step of everything.  Nothing happens where the operation is not
    possible: bytes on a connection that does not exist or was closed, a second
    [accept] before the return of [shortcut], any step after the end of the
    process.  tcp_serial_redirect.py 64-122 and 327-347. *)
Definition step (cv : conversion) (p : prog) (o : op) : prog * list ev :=
  if negb (p_up p) then (p, []) else
  match o with
  | SerialIn b => (mkProg (p_serial p ++ b) (p_conns p) true, [EIn b])
  | NetIn i b =>
      match nth_error (p_conns p) i with
      | Some c =>
          if c_closed c then (p, [])
          else (mkProg (p_serial p)
                  (set_nth i (mkConn (c_alive c) (c_reader c) (c_writer c) (c_net c ++ b) false) (p_conns p)) true,
                [ENet i b])
      | None => (p, [])
      end
  | NetClose i =>
      match nth_error (p_conns p) i with
      | Some c =>
          (mkProg (p_serial p)
             (set_nth i (mkConn (c_alive c) (c_reader c) (c_writer c) (c_net c) true) (p_conns p)) true, [])
      | None => (p, [])
      end
  | Accept =>
      if forallb back (p_conns p)
      then (mkProg (p_serial p) (p_conns p ++ [mkConn true RTop WTop [] false]) true,
            [EStart (List.length (p_conns p))])
      else (p, [])
  | Reader i h =>
      match nth_error (p_conns p) i with
      | Some c =>
          match reader_step cv c (p_serial p) h with
          | (c', s, sent) =>
              (mkProg s (set_nth i c' (p_conns p)) true,
               match sent with Some b => [ESend i b] | None => [] end)
          end
      | None => (p, [])
      end
  | Writer i h =>
      match nth_error (p_conns p) i with
      | Some c =>
          match writer_step cv c h with
          | (c', a) =>
              match a with
              | WNothing => (mkProg (p_serial p) (set_nth i c' (p_conns p)) true, [])
              | WWrote b => (mkProg (p_serial p) (set_nth i c' (p_conns p)) true, [EWrite b])
              | WEnded => (mkProg (p_serial p) (set_nth i c' (p_conns p)) true, [EEnd i])
              | WDied b => (mkProg (p_serial p) (set_nth i c' (p_conns p)) false, [EWrite b; EExit])
              end
          end
      | None => (p, [])
      end
  end.
(** Any sequence of such steps, tcp_serial_redirect.py 327-347. *)
Fixpoint run (cv : conversion) (p : prog) (l : list op) : prog * list ev :=
  match l with
  | [] => (p, [])
  | o :: l' =>
      match step cv p o with
      | (p1, e1) => match run cv p1 l' with (p2, e2) => (p2, e1 ++ e2) end
      end
  end.
(** The program once it listens, tcp_serial_redirect.py 299-326. *)
Definition listening : prog := mkProg [] [] true.

