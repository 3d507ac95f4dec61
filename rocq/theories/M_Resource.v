(** Model of internal/resource/token.go. *)
From Coq Require Import ZArith List Bool.
From Verif Require Import Num.
Import ListNotations.
Open Scope num_scope.

Section Token.
Context {T : Type} {N : Num T}.

(** internal/resource/token.go:12-16 TokenManager (the mutex makes Request/Release atomic). *)
Record TokenManager := mkTM { tm_tokens : T; tm_max : T }.

(** internal/resource/token.go:19-29 NewTokenManager. *)
Definition NewTokenManager (maxTokens : T) : TokenManager :=
  let m := if maxTokens <? n0 then n0 else maxTokens in mkTM m m.

(** internal/resource/token.go:32-51 Request: new manager and the amount allocated. *)
Definition Request (t : TokenManager) (amount : T) : TokenManager * T :=
  if amount <=? n0 then (t, n0)
  else if tm_tokens t <=? n0 then (t, n0)
  else let allocated := nmin amount (tm_tokens t) in
       (mkTM (tm_tokens t - allocated) (tm_max t), allocated).

(** internal/resource/token.go:54-65 Release. *)
Definition Release (t : TokenManager) (amount : T) : TokenManager :=
  if amount <=? n0 then t
  else mkTM (nmin (tm_tokens t + amount) (tm_max t)) (tm_max t).

(** internal/resource/token.go:68-70 Available. *)
Definition Available (t : TokenManager) : T := tm_tokens t.

(** A mutex-protected call and a history of calls (every interleaving of callers is one). *)
Inductive TokOp := TReq (amount : T) | TRel (amount : T).
Definition tokStep (t : TokenManager) (o : TokOp) : TokenManager :=
  match o with TReq a => fst (Request t a) | TRel a => Release t a end.
Definition tokRun (t : TokenManager) (l : list TokOp) : TokenManager := fold_left tokStep l t.
End Token.
Arguments TokenManager : clear implicits.
Arguments TokOp : clear implicits.
