(** Model of the wiring code of emerge/swarm/swarm.go, of the two neighbor containers of an
    agent (emerge/agent/agent.go) and of internal/topology.  Agents are represented by their
    IDs; a *Agent stored in a container is represented by its ID.  Random results are read from
    explicit lists; [None] = the list ran out (the loop is still running) or an index out of
    range. *)
From Coq Require Import ZArith List Bool String.
From Verif Require Import Num GoBase M_Neighbors M_SwarmConfig.
Import ListNotations.
Open Scope Z_scope.

(** All the sync.Maps [neighbors] of all agents together: (a, b) is in the list when
    a.Neighbors() has the key b. *)
Definition Adj := list (string * string).
Definition has (e : Adj) (a b : string) : bool :=
  existsb (fun p => String.eqb (fst p) a && String.eqb (snd p) b)%bool e.
(** a.Neighbors().Store(b, ...): a key is present once. *)
Definition store (e : Adj) (a b : string) : Adj := if has e a b then e else (a, b) :: e.
(** The two Store calls of one connection (swarm.go:367-368, 404-405, 425-426). *)
Definition link (e : Adj) (a b : string) : Adj := store (store e a b) b a.

Section Wiring.
Context {T : Type} {N : Num T}.

(** emerge/swarm/swarm.go:386-411 connectToNeighbors for agent [a] at index [i]: the loop from
    index [j] on, [fl] = results of random.Float64. *)
Fixpoint connectLoop (mx : Z) (p : T) (a : string) (i : nat) (rest : list string) (j : nat)
  (connected : Z) (e : Adj) (fl : list T) : option (Z * Adj * list T) :=
  match rest with
  | [] => Some (connected, e, fl)
  | nb :: r =>
    if Nat.eqb j i then connectLoop mx p a i r (S j) connected e fl
    else if mx <=? connected then Some (connected, e, fl)
    else if has e a nb then connectLoop mx p a i r (S j) (connected + 1) e fl
    else match fl with
         | [] => None
         | d :: fl' =>
           if nlt d p then connectLoop mx p a i r (S j) (connected + 1) (link e a nb) fl'
           else connectLoop mx p a i r (S j) connected e fl'
         end
  end.
Definition connectToNeighbors (mx : Z) (p : T) (a : string) (agents : list string) (i : nat)
  (e : Adj) (fl : list T) : option (Z * Adj * list T) :=
  connectLoop mx p a i agents 0 0 e fl.

(** emerge/swarm/swarm.go:414-431 ensureMinimumConnectivity; [il] = results of random.Intn. *)
Fixpoint ensureLoop (mn : Z) (a : string) (agents : list string) (connected : Z) (e : Adj)
  (il : list Z) : option (Adj * list Z) :=
  if connected <? mn then
    match il with
    | [] => None
    | idx :: il' =>
      match nthZ agents idx with
      | None => None
      | Some nb =>
        if String.eqb nb a then ensureLoop mn a agents connected e il'
        else if has e a nb then ensureLoop mn a agents connected e il'
        else ensureLoop mn a agents (connected + 1) (link e a nb) il'
      end
    end
  else Some (e, il).
Definition ensureMinimumConnectivity (mn : Z) (a : string) (agents : list string) (connected : Z)
  (e : Adj) (il : list Z) : option (Adj * list Z) :=
  if (connected <? mn) && (mn <? Z.of_nat (List.length agents)) then ensureLoop mn a agents connected e il
  else Some (e, il).

(** emerge/swarm/swarm.go:378-383 establishProbabilisticConnections, from agent index [i] on. *)
Fixpoint probLoop (mx mn : Z) (p : T) (agents todo : list string) (i : nat) (e : Adj)
  (fl : list T) (il : list Z) : option Adj :=
  match todo with
  | [] => Some e
  | a :: r =>
    match connectToNeighbors mx p a agents i e fl with
    | None => None
    | Some (connected, e', fl') =>
      match ensureMinimumConnectivity mn a agents connected e' il with
      | None => None
      | Some (e'', il') => probLoop mx mn p agents r (S i) e'' fl' il'
      end
    end
  end.
Definition establishProbabilisticConnections (c : SCfg T) (agents : list string) (e : Adj)
  (fl : list T) (il : list Z) : option Adj :=
  probLoop (sc_maxn c) (sc_minn c) (sc_prob c) agents agents 0 e fl il.

(** emerge/swarm/swarm.go:353-375 establishMinimalConnections: the inner loop with [left] =
    maxAttempts - attempts, then the loop over the agents. *)
Fixpoint minimalInner (mn : Z) (a : string) (agents : list string) (connected : Z) (left : nat)
  (e : Adj) (il : list Z) : option (Adj * list Z) :=
  match left with
  | O => Some (e, il)
  | S left' =>
    if (connected <? mn) && (connected <? Z.of_nat (List.length agents) - 1) then
      match il with
      | [] => None
      | idx :: il' =>
        match nthZ agents idx with
        | None => None
        | Some nb =>
          if negb (String.eqb nb a) then
            if negb (has e a nb) then minimalInner mn a agents (connected + 1) left' (link e a nb) il'
            else minimalInner mn a agents connected left' e il'
          else minimalInner mn a agents connected left' e il'
        end
      end
    else Some (e, il)
  end.
Fixpoint minimalOuter (mn : Z) (agents todo : list string) (e : Adj) (il : list Z) : option Adj :=
  match todo with
  | [] => Some e
  | a :: r => match minimalInner mn a agents 0 (List.length agents * 2) e il with
              | None => None
              | Some (e', il') => minimalOuter mn agents r e' il'
              end
  end.
Definition establishMinimalConnections (c : SCfg T) (agents : list string) (e : Adj) (il : list Z)
  : option Adj := minimalOuter (sc_minn c) agents agents e il.

(** emerge/swarm/swarm.go:320-328 establishConnections on freshly created agents. *)
Definition establishConnections (c : SCfg T) (agents : list string) (fl : list T) (il : list Z)
  : option Adj :=
  if (sc_opt c && (sc_optthr c <? Z.of_nat (List.length agents)))%bool
  then establishMinimalConnections c agents [] il
  else establishProbabilisticConnections c agents [] fl il.
End Wiring.

(** The neighbor containers of all agents: [net_opt a] = a.optimizedNeighbors (agent.New sets
    useOptimizedNeighbors to true and nothing clears it), [net_map] = the sync.Maps. *)
Record Net := mkNet { net_opt : string -> NeighborStorage string; net_map : Adj }.
(** Fresh agents (emerge/agent/agent.go:59-96 New: NewNeighborStorage(20)). *)
Definition newNet : Net := mkNet (fun _ => NewNeighborStorage ""%string 20) [].

(** emerge/agent/agent.go:279-289 ConnectTo for a non-nil agent. *)
Definition ConnectTo (n : Net) (a b : string) : option Net :=
  if String.eqb b a then Some n
  else match Store (net_opt n a) b b with
       | None => None
       | Some (s, _) => Some (mkNet (fun x => if String.eqb x a then s else net_opt n x) (net_map n))
       end.
(** emerge/agent/agent.go:292-298 DisconnectFrom. *)
Definition DisconnectFrom (n : Net) (a b : string) : option Net :=
  match Delete ""%string (net_opt n a) b with
  | None => None
  | Some s => Some (mkNet (fun x => if String.eqb x a then s else net_opt n x) (net_map n))
  end.
(** emerge/agent/agent.go:301-308 IsConnectedTo. *)
Definition IsConnectedTo (n : Net) (a b : string) : option bool :=
  match Load ""%string (net_opt n a) b with Some (_, ok) => Some ok | None => None end.
(** The neighbor list of UpdateContext and calculateLocalCoherence
    (emerge/agent/agent.go:313-323, 476-486). *)
Definition contextNeighbors (n : Net) (a : string) : option (list string) := All (net_opt n a).
(** emerge/agent/agent.go:251-269 NeighborCount. *)
Definition NeighborCount (n : Net) (a : string) : Z :=
  let oc := Count (net_opt n a) in
  let mc := Z.of_nat (List.length (filter (fun p => String.eqb (fst p) a) (net_map n))) in
  if mc <? oc then oc else mc.

(** internal/topology: the agents enumerated by ForEachAgent are the list [agents]; result
    None = panic, Some (_, false) = error returned. *)
Fixpoint connectAll (n : Net) (a : string) (bs : list string) : option Net :=
  match bs with
  | [] => Some n
  | b :: r => match ConnectTo n a b with None => None | Some n' => connectAll n' a r end
  end.
(** [for j, neighbor := range agents { if i != j {...} }]: the elements other than index [i]. *)
Fixpoint dropIdx {A} (i : nat) (l : list A) : list A :=
  match l, i with
  | [], _ => []
  | _ :: r, O => r
  | x :: r, S k => x :: dropIdx k r
  end.
(** internal/topology/full.go:10-26 FullyConnected. *)
Fixpoint fullLoop (agents todo : list string) (i : nat) (n : Net) : option Net :=
  match todo with
  | [] => Some n
  | a :: r => match connectAll n a (dropIdx i agents) with
              | None => None
              | Some n' => fullLoop agents r (S i) n'
              end
  end.
Definition FullyConnected (agents : list string) (n : Net) : option (Net * bool) :=
  match fullLoop agents agents 0 n with Some n' => Some (n', true) | None => None end.
(** internal/topology/ring.go:13-36 Ring. *)
Fixpoint ringLoop (agents todo : list string) (i : Z) (n : Net) : option Net :=
  match todo with
  | [] => Some n
  | a :: r =>
    let len := Z.of_nat (List.length agents) in
    match nthZ agents (Z.rem (i - 1 + len) len), nthZ agents (Z.rem (i + 1) len) with
    | Some prev, Some next =>
      match ConnectTo n a prev with
      | None => None
      | Some n' => match ConnectTo n' a next with
                   | None => None
                   | Some n'' => ringLoop agents r (i + 1) n''
                   end
      end
    | _, _ => None
    end
  end.
Definition Ring (agents : list string) (n : Net) : option (Net * bool) :=
  if Z.of_nat (List.length agents) <? 2 then Some (n, false)
  else match ringLoop agents agents 0 n with Some n' => Some (n', true) | None => None end.
(** internal/topology/star.go:13-41 Star. *)
Fixpoint spokes (hub : string) (todo : list string) (n : Net) : option Net :=
  match todo with
  | [] => Some n
  | a :: r => match ConnectTo n a hub with None => None | Some n' => spokes hub r n' end
  end.
Definition Star (agents : list string) (n : Net) : option (Net * bool) :=
  if Z.of_nat (List.length agents) <? 2 then Some (n, false)
  else match agents with
       | [] => None
       | hub :: others =>
         match connectAll n hub others with
         | None => None
         | Some n' => match spokes hub others n' with Some n'' => Some (n'', true) | None => None end
         end
       end.
