(** Specification vocabulary for the async methods. *)
From Verif Require Import Base Crypto Params SigBase Http Hyper Digest Async.

(** the world at the first poll of child [i] *)
Fixpoint first_poll {W} (i : nat) (polls : list (nat * W)) : option W :=
  match polls with [] => None | (j, w) :: r => if Nat.eqb j i then Some w else first_poll i r end.
(** every one of [n] children is polled *)
Definition covers {W} (n : nat) (polls : list (nat * W)) : Prop := forall i, (i < n)%nat -> In i (map fst polls).
(** the clock that child [i] reads *)
Definition clock_of (polls : list (nat * penv)) (i : nat) : nat -> N := match first_poll i polls with Some e => e_clock e | None => fun _ => 0 end.
(** the job with the random seed that child [i] draws *)
Definition seeded (polls : list (nat * penv)) (i : nat) (j : job) : job :=
  mkJob (j_params j) (j_key j) (j_name j) (match first_poll i polls with Some e => e_seed e | None => 0 end).
Fixpoint seeded_from (polls : list (nat * penv)) (i : nat) (jobs : list job) : list job :=
  match jobs with [] => [] | j :: r => seeded polls i j :: seeded_from polls (S i) r end.
(** equal, or both calls panic (with several panics, the schedule decides which comes first) *)
Definition same_outcome {E A} (r r' : result E A) : Prop := r = r' \/ ((exists p, r = Panic p) /\ exists p, r' = Panic p).

(** all frames of a body, and the number of times it is pending *)
Definition frames (s : source) : body := flat_map (fun o : option frame => match o with Some f => [f] | None => [] end) s.
Definition pendings (s : source) : nat := length (filter (fun o : option frame => match o with None => true | _ => false end) s).
