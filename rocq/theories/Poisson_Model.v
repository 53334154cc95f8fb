(** Arrival times: models /repo/marxs/source/basesources.py:35-77 (poisson_process). Units are left out: [T] is the exposure time,
    [rate] the product of rate and area; the exponential draws are an argument, in the order in which they are made. *)
From Verif Require Export Vec_Model.
Open Scope R_scope.

Fixpoint arrival (draws : nat -> R) (n : nat) : R := match n with O => 0 | S k => arrival draws k + draws k end.
(** [int(time * rate * 1.1)] *)
Definition batch (rate time : R) : nat := Z.to_nat (Rfloor (time * rate * (11 / 10))).
(** basesources.py:70-75: the number of draws made; [fuel] bounds the number of passes of the while loop *)
Fixpoint poisson_loop (fuel : nat) (draws : nat -> R) (T rate : R) (n : nat) : result nat :=
  if Rltb (arrival draws n) T
  then match fuel with
       | O => Err NonTermination
       | S f => poisson_loop f draws T rate (n + batch rate (T - arrival draws n))
       end
  else Ok n.
(** basesources.py:68-77 *)
Definition poisson_rate (fuel : nat) (draws : nat -> R) (T rate : R) : result (list R) :=
  bind (poisson_loop fuel draws T rate (batch rate T))
       (fun n => Ok (filter (fun t => Rltb t T) (map (arrival draws) (seq 1 n)))).
