(** * Iterators handed from thread to thread, with the threadsafe feature (Cargo.toml:21)

    With it a [ConstantPoolIter] (constant_pool.rs:1117-1129) holds shared references to [Arc<Mutex<_>>] only, so it may be sent to another
    thread, or be shared under a lock of the user.  [next] takes [&mut self] (constant_pool.rs:1134): at any time at most one call for an
    iterator is going on.  The threads here call [next] on whatever iterator their script names next, as soon as nobody else is using it.

    The lock operations of a call are those of [next_l] (M_Locks.v); the rules for mutexes are the same as there.  Simplification: the
    iterators are made before the threads start ([constantpool_iter], lib.rs:335-340, touches no cell).  How the user hands an iterator
    over (a channel, a mutex of his own) is not modelled further: a thread that wants an iterator waits until it is idle. *)
From Verif Require Import Base M_Names M_Descriptors M_ConstantPool M_Bytecode M_Attributes M_Class M_Locks.

(** constant_pool.rs:1134-1197 [next]. What a thread is doing. *)
Inductive doing :=
| Idle
| Calling (id : nat) (held : list cell) (todo : act (option cp_item * N))   (* inside [next] of the iterator [id] *)
| Failing (held : list cell)                                                (* panicking inside [next]: the guards still to be dropped *)
| Dead.
(** Code of the user, calling constant_pool.rs:1134. [wants]: the iterators on which it will call [next], in this order. *)
Record worker := mk_worker { wants : list nat; does : doing }.
(** An iterator: its field [index] (constant_pool.rs:1119), as of the end of the last call, and whether a thread is inside [next]. *)
Record iterator := mk_iterator { position : N; busy : bool }.
(** Code of the user, calling constant_pool.rs:1134. [returned]: what the calls returned, with the iterator, in the order in which they returned. *)
Record crew := mk_crew { broken : list cell; iterators : list iterator; returned : list (nat * option cp_item); workers : list worker }.

(** constant_pool.rs:71-76: the guards that a thread holds *)
Definition guards (d : doing) : list cell := match d with Calling _ h _ | Failing h => h | Idle | Dead => [] end.
(** constant_pool.rs:21-22, 71-76. No guard of any thread for [l] exists. *)
Definition unheld (X : crew) (l : cell) : Prop := forall w, In w (workers X) -> ~ In l (guards (does w)).

(** constant_pool.rs:1134 ([&mut self]): the iterator is changed *)
Fixpoint set_nth {A} (n : nat) (a : A) (l : list A) : list A :=
  match l, n with
  | [], _ => []
  | _ :: l', O => a :: l'
  | x :: l', S n' => x :: set_nth n' a l'
  end.

(** constant_pool.rs:1134-1197, lock operations at 71-76. One step of the thread [w]. *)
Inductive worker_step (p : pool) (X : crew) : worker -> list cell -> list iterator -> list (nat * option cp_item) -> worker -> Prop :=
| call_begin id ids i : nth_error (iterators X) id = Some (mk_iterator i false) ->
    worker_step p X (mk_worker (id :: ids) Idle) (broken X) (set_nth id (mk_iterator i true) (iterators X)) (returned X)
                (mk_worker ids (Calling id [] (next_l p i)))
| call_lock ids id h l k : unheld X l -> ~ In l (broken X) ->
    worker_step p X (mk_worker ids (Calling id h (Lock l k))) (broken X) (iterators X) (returned X) (mk_worker ids (Calling id (l :: h) k))
| call_poison ids id h l k : unheld X l -> In l (broken X) ->
    worker_step p X (mk_worker ids (Calling id h (Lock l k))) (broken X) (iterators X) (returned X) (mk_worker ids (Failing h))
| call_unlock ids id h l k :
    worker_step p X (mk_worker ids (Calling id (l :: h) (Unlock l k))) (broken X) (iterators X) (returned X) (mk_worker ids (Calling id h k))
| call_abort ids id h x :
    worker_step p X (mk_worker ids (Calling id h (Abort x))) (broken X) (iterators X) (returned X) (mk_worker ids (Failing h))
| call_drop ids h l :
    worker_step p X (mk_worker ids (Failing (l :: h))) (l :: broken X) (iterators X) (returned X) (mk_worker ids (Failing h))
| call_dead ids :
    worker_step p X (mk_worker ids (Failing [])) (broken X) (iterators X) (returned X) (mk_worker ids Dead)
| call_end ids id o j :
    worker_step p X (mk_worker ids (Calling id [] (Done (o, j)))) (broken X) (set_nth id (mk_iterator j false) (iterators X))
                (returned X ++ [(id, o)]) (mk_worker ids Idle).
(** The code is that of constant_pool.rs:1134-1197. The scheduler lets any thread make a step. *)
Inductive crew_step (p : pool) (X : crew) : crew -> Prop :=
| crew_some ws1 w ws2 b its rs w' : workers X = ws1 ++ w :: ws2 -> worker_step p X w b its rs w' ->
    crew_step p X (mk_crew b its rs (ws1 ++ w' :: ws2)).
(** A number of such steps; the code is that of constant_pool.rs:1134-1197 *)
Inductive crew_steps (p : pool) : nat -> crew -> crew -> Prop :=
| crew_O X : crew_steps p 0 X X
| crew_S n X X' X'' : crew_steps p n X X' -> crew_step p X' X'' -> crew_steps p (S n) X X''.

(** [n] new iterators (index 0, constant_pool.rs:1123-1128, lib.rs:335-340) and one thread for each script. *)
Definition crew_start (n : nat) (scripts : list (list nat)) : crew :=
  mk_crew [] (repeat (mk_iterator 0 false) n) [] (map (fun ids => mk_worker ids Idle) scripts).
