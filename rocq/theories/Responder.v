(** Model of experiments/cni_discovery.py, which answers the discovery queries
    of C-Bus Toolkit.  No proofs in this file.

    An address is the pair of host and port that the network gives; hosts are
    numbers here.  Twisted's reactor is modelled as the delivery of datagrams,
    in any order, to [datagramReceived].  The texts that are printed are not
    modelled, nor errors of [sendto]. *)
From Coq Require Import String List ZArith Bool Arith.
From Verif Require Import Py Text.
Import ListNotations.
Open Scope Z_scope.

(** (host, port), experiments/cni_discovery.py 56. *)
Definition address : Set := (Z * Z)%type.
(** A datagram: from, to, data.  experiments/cni_discovery.py 55 and 94. *)
Record datagram : Set := mkDatagram { g_from : address; g_to : address; g_data : bytes }.

(** CBUS_DISCOVERY_PORT and CBUS_DISCOVERY_QUERY,
    experiments/cni_discovery.py 34 and 36. *)
Definition discovery_port : Z := 20050.
(** experiments/cni_discovery.py 36. *)
Definition discovery_query : bytes := [203; 128; 0; 0].
(** The argument of [b16decode] in experiments/cni_discovery.py 68-79. *)
Definition reply_text : text :=
  txt "CB81000020E8F5528101000105810B00022721811D00010080010002661E".
(** Equality of bytes, experiments/cni_discovery.py 63. *)
Fixpoint same_bytes (a b : bytes) : bool :=
  match a, b with
  | [], [] => true
  | x :: a', y :: b' => (x =? y) && same_bytes a' b'
  | _, _ => false
  end.
(** [datagramReceived] of a responder at address [me]: the datagrams it sends,
    or an exception.  experiments/cni_discovery.py 55-95. *)
Definition datagram_received (me : address) (data : bytes) (from : address) : res (list datagram) :=
  if same_bytes (firstn 4 data) discovery_query then
    match b16decode reply_text with
    | Ok d => Ok [mkDatagram me from d]
    | Raise e => Raise e
    end
  else Ok [].

(** A network of responders.  [hosts] says on which hosts one runs; it listens
    on the discovery port of that host (43).  experiments/cni_discovery.py
    42-43, 55-95. *)
Definition responder (hosts : Z -> bool) (a : address) : bool :=
  hosts (fst a) && (snd a =? discovery_port).
(** The delivery of the [n]th of the datagrams on their way; what a responder
    sends is on its way then.  experiments/cni_discovery.py 55-95. *)
Definition deliver (hosts : Z -> bool) (flying : list datagram) (n : nat) : option (list datagram) :=
  match nth_error flying n with
  | None => None
  | Some g =>
      let rest := firstn n flying ++ skipn (S n) flying in
      if responder hosts (g_to g) then
        match datagram_received (g_to g) (g_data g) (g_from g) with
        | Ok out => Some (rest ++ out)
        | Raise _ => Some rest
        end
      else Some rest
  end.
(** A sequence of deliveries; [None] if one of them is not possible.
    experiments/cni_discovery.py 55-95. *)
Fixpoint deliveries (hosts : Z -> bool) (flying : list datagram) (l : list nat) : option (list datagram) :=
  match l with
  | [] => Some flying
  | n :: l' => match deliver hosts flying n with Some f => deliveries hosts f l' | None => None end
  end.
