(** Model of the in-process message channel src/common/threads_messenger.h: a queue
    with a mutex and a condition variable, one thread that calls Send, one that
    calls Receive. (A ThreadMessenger has two such channels, one per direction, which
    share nothing.) The two threads are interleaved between any two operations on
    the mutex, the queue or the condition variable. *)
From Coq Require Import List.
From Verif Require Import Text.
Import ListNotations.

(** Where the sender is: outside Send; behind the lock (23); behind the push (24);
    behind the notification (25). *)
Inductive spc : Set := SOut | SLocked | SPushed | SNotified.

(** Where the receiver is: outside Receive; holding the lock and about to evaluate
    the condition (30); asleep in wait; woken and about to take the lock again;
    behind wait, the condition having been true (31); behind the pop with the
    message (32). *)
Inductive rpc : Type := ROut | RTest | RAsleep | RAwake | RReady | RPopped (m : text).

Inductive who : Set := Sender | Receiver.

Record chan : Type := mkChan {
  q : list text;               (* std::queue, front first *)
  mutex : option who;
  at_s : spc;
  at_r : rpc;
  todo : list text;            (* messages the sender has yet to send; the head while in Send *)
  got : list text              (* messages Receive has returned, oldest first *)
}.

Inductive act : Set := Work_s | Work_r | Spurious.

(** One step. lock_guard / unique_lock acquire only a free mutex; wait releases the
    mutex and falls asleep in one step; notify_one wakes the receiver if it is
    asleep and is lost otherwise; a sleeper may also wake without a reason. *)
Inductive step : act -> chan -> chan -> Prop :=
| s_lock : forall qu r m t g, step Work_s (mkChan qu None SOut r (m :: t) g) (mkChan qu (Some Sender) SLocked r (m :: t) g)
| s_push : forall qu r m t g, step Work_s (mkChan qu (Some Sender) SLocked r (m :: t) g) (mkChan (qu ++ [m]) (Some Sender) SPushed r t g)
| s_notify : forall qu r t g, step Work_s (mkChan qu (Some Sender) SPushed r t g)
    (mkChan qu (Some Sender) SNotified (match r with RAsleep => RAwake | _ => r end) t g)
| s_unlock : forall qu r t g, step Work_s (mkChan qu (Some Sender) SNotified r t g) (mkChan qu None SOut r t g)
| r_lock : forall qu s t g, step Work_r (mkChan qu None s ROut t g) (mkChan qu (Some Receiver) s RTest t g)
| r_sleep : forall s t g, step Work_r (mkChan [] (Some Receiver) s RTest t g) (mkChan [] None s RAsleep t g)
| r_ready : forall m qu s t g, step Work_r (mkChan (m :: qu) (Some Receiver) s RTest t g) (mkChan (m :: qu) (Some Receiver) s RReady t g)
| r_relock : forall qu s t g, step Work_r (mkChan qu None s RAwake t g) (mkChan qu (Some Receiver) s RTest t g)
| r_pop : forall m qu s t g, step Work_r (mkChan (m :: qu) (Some Receiver) s RReady t g) (mkChan qu (Some Receiver) s (RPopped m) t g)
| r_return : forall m qu s t g, step Work_r (mkChan qu (Some Receiver) s (RPopped m) t g) (mkChan qu None s ROut t (g ++ [m]))
| r_spurious : forall qu x s t g, step Spurious (mkChan qu x s RAsleep t g) (mkChan qu x s RAwake t g).

Inductive steps : list act -> chan -> chan -> Prop :=
| st_nil : forall c, steps [] c c
| st_cons : forall a l c d e, step a c d -> steps l d e -> steps (a :: l) c e.

Definition fresh (ms : list text) : chan := mkChan [] None SOut ROut ms [].
