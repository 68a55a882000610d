(** UntidySpec.v - specification vocabulary for the untidy queue (C28, C57, C58):
    what it stores, and the histories of calls. *)
From Verif Require Import Base Num Grid UntidyModel.
Open Scope Z_scope.

Section Q.
Context {N : Num}.

(** everything stored, and what bucket [i] stores *)
Definition bag (q : uq (N := N)) : list Z := concat (uq_tab q).
Definition bucket (q : uq (N := N)) (i : Z) : list Z := nth (Z.to_nat i) (uq_tab q) [].

(** [uhist q h S]: [q] is the result of some sequence of calls on a new queue, [S] the
    elements pushed and not popped, [h e] the bucket returned by the last push or
    increase of [e].  As in FMUntidyQueue, an element is pushed only when it is not
    stored, and increased only when it is, with the bucket it was told. *)
Inductive uhist : uq (N := N) -> (Z -> Z) -> list Z -> Prop :=
| uh_new size inc h : 0 < size < 4294967296 -> uhist (uq_new size inc) h []
| uh_push q h S e t q' b : uhist q h S -> ~ In e S -> uq_push q e t = Ok (q', b) ->
    uhist q' (fun x => if x =? e then b else h x) (e :: S)
| uh_incr q h S e t q' b : uhist q h S -> In e S -> uq_increase q e (h e) t = Ok (q', b) ->
    uhist q' (fun x => if x =? e then b else h x) S
| uh_top q h S q' x : uhist q h S -> uq_top q = Ok (q', x) -> uhist q' h S
| uh_pop q h S q1 x q' : uhist q h S -> S <> [] -> uq_top q = Ok (q1, x) -> uq_pop q = Ok q' ->
    uhist q' h (filter (fun y => negb (y =? x)) S)
| uh_clear q h S : uhist q h S -> uhist (uq_clear q) h [].

End Q.

From Coq Require Import Reals.
From Verif Require Import NumXR.

(** Timed histories over the reals, for a queue of [size] buckets spanning [inc].
    [T e] is the time last given for [e].  Every push into a non-empty queue and every
    increase gives a time inside the window [t0, t0 + inc), t0 being the origin the queue
    shows at that moment; the first push into an empty queue may give any time. *)
Inductive thist (size : Z) (inc : R) : uq (N := XR) -> (Z -> Z) -> list Z -> (Z -> R) -> Prop :=
| th_new h T : thist size inc (uq_new size (XFin inc : XR)) h [] T
| th_first q h T e t q' b : thist size inc q h [] T -> uq_push q e (XFin t : XR) = Ok (q', b) ->
    thist size inc q' (fun x => if x =? e then b else h x) [e] (fun x => if x =? e then t else T x)
| th_push q h S T e t t0 q' b : thist size inc q h S T -> S <> [] -> ~ In e S ->
    uq_t0 q = XFin t0 -> (t0 <= t < t0 + inc)%R -> uq_push q e (XFin t : XR) = Ok (q', b) ->
    thist size inc q' (fun x => if x =? e then b else h x) (e :: S) (fun x => if x =? e then t else T x)
| th_incr q h S T e t t0 q' b : thist size inc q h S T -> In e S ->
    uq_t0 q = XFin t0 -> (t0 <= t < t0 + inc)%R -> uq_increase q e (h e) (XFin t : XR) = Ok (q', b) ->
    thist size inc q' (fun x => if x =? e then b else h x) S (fun x => if x =? e then t else T x)
| th_top q h S T q' x : thist size inc q h S T -> uq_top q = Ok (q', x) -> thist size inc q' h S T
| th_pop q h S T q1 x q' : thist size inc q h S T -> S <> [] -> uq_top q = Ok (q1, x) -> uq_pop q = Ok q' ->
    thist size inc q' h (filter (fun y => negb (y =? x)) S) T
| th_clear q h S T : thist size inc q h S T -> thist size inc (uq_clear q) h [] T.
