(** * Model of the list of wait records of a lock of the pool.

    [S] is src/lock_pool.cpp.  Each lock has its own heap here: blocks are numbered as they are allocated and
    numbers are not reused.  A pointer is the number of its block, or [None] for null.  Dereferencing null or a
    freed block, freeing a block that is not allocated, leaving an array, and a failed BOOST_ASSERT all give the
    outcome [None].  Simplifications: [size_t] counters are unbounded naturals (decrementing 0 gives [None]); the
    platform members of a record are left out here. *)
From Coq Require Import ZArith List Bool Arith.
From Verif Require Import SpecRecords FindModel.
Import ListNotations.
Notation "' p <-? e ;; k" := (obind e (fun x => match x with p => k end)) (at level 61, p pattern, e at next level, right associativity).

(** [wait_state_base], S 202-217 *)
Record wrec := { r_refs : nat; r_index : nat }.
(** the buffer: header (S 223-229), array of atomic pointers, array of record pointers (S 231-241) *)
Record buf := { b_size : nat; b_cap : nat; b_addrs : list Z; b_ws : list (option nat) }.
(** [wait_state_list], S 220-243, with its heap *)
Record wlist := {
  hdr : option nat;
  free_memory : bool;
  bufs : nat -> option buf;
  recs : nat -> option wrec;
  next : nat
}.
Definition set_fn {A} (f : nat -> A) (k : nat) (v : A) : nat -> A := fun j => if Nat.eqb j k then v else f j.

(** BOOST_ATOMIC_WAIT_STATE_LIST_INIT, S 312; nothing is allocated *)
Definition wlist0 : wlist :=
  {| hdr := None; free_memory := false; bufs := fun _ => None; recs := fun _ => None; next := 0 |}.

Definition with_bufs (l : wlist) (b : nat -> option buf) : wlist :=
  {| hdr := hdr l; free_memory := free_memory l; bufs := b; recs := recs l; next := next l |}.
Definition with_recs (l : wlist) (r : nat -> option wrec) : wlist :=
  {| hdr := hdr l; free_memory := free_memory l; bufs := bufs l; recs := r; next := next l |}.
Definition with_hdr (l : wlist) (h : option nat) : wlist :=
  {| hdr := h; free_memory := free_memory l; bufs := bufs l; recs := recs l; next := next l |}.
Definition with_free (l : wlist) : wlist :=
  {| hdr := hdr l; free_memory := true; bufs := bufs l; recs := recs l; next := next l |}.
Definition with_next (l : wlist) (n : nat) : wlist :=
  {| hdr := hdr l; free_memory := free_memory l; bufs := bufs l; recs := recs l; next := n |}.

(** writing an array element *)
Fixpoint upd {A} (l : list A) (i : nat) (x : A) : option (list A) :=
  match l, i with
  | [], _ => None
  | _ :: r, O => Some (x :: r)
  | y :: r, S j => r' <-? upd r j x ;; Some (y :: r')
  end.

(** dereferencing *)
Definition get_buf (l : wlist) (h : option nat) : option (nat * buf) :=
  k <-? h ;; b <-? bufs l k ;; Some (k, b).
Definition check (b : bool) : option unit := if b then Some tt else None.

Section List_.
  (** the search ([find_address], S 182-194) and [initial_capacity] (S 252) of the target *)
  Variables (search : Z -> list Z -> nat -> option nat) (initial_capacity : nat).

  (** [find], S 286-299.  The result is a pointer; the outer option is the undefined outcome. *)
  Definition find (l : wlist) (addr : Z) : option (option nat) :=
    match hdr l with
    | None => Some None
    | Some _ =>
        ' (_, b) <-? get_buf l (hdr l) ;;
        pos <-? search addr (b_addrs b) (b_size b) ;;
        if (pos <? b_size b)%nat then nth_error (b_ws b) pos else Some None
    end.

  (** [allocate_buffer], S 1066-1106.  [ok]: the allocator's answer.  The registration of the exit handler is
      in the pool model below.  Reading the old arrays past their end gives [None]. *)
  Definition allocate_buffer (l : wlist) (new_capacity : nat) (old : option nat) (ok : bool) : option (wlist * option nat) :=
    if ok then
      let k := next l in
      b <-? match old with
            | Some _ =>
                ' (_, o) <-? get_buf l old ;;
                _ <-? check (b_cap o <=? new_capacity)%nat ;;
                _ <-? check (b_size o <=? length (b_addrs o))%nat ;;
                _ <-? check (b_cap o <=? length (b_ws o))%nat ;;
                Some {| b_size := b_size o; b_cap := new_capacity;
                        b_addrs := firstn (b_size o) (b_addrs o) ++ repeat 0%Z (new_capacity - b_size o);
                        b_ws := firstn (b_cap o) (b_ws o) ++ repeat None (new_capacity - b_cap o) |}
            | None =>
                Some {| b_size := 0; b_cap := new_capacity; b_addrs := repeat 0%Z new_capacity;
                        b_ws := repeat None new_capacity |}
            end ;;
      Some (with_next (with_bufs l (set_fn (bufs l) k (Some b))) (S k), Some k)
    else Some (l, None).

  (** [aligned_free] *)
  Definition free_buf (l : wlist) (h : option nat) : option wlist :=
    ' (k, _) <-? get_buf l h ;; Some (with_bufs l (set_fn (bufs l) k None)).
  (** [delete w] *)
  Definition free_rec (l : wlist) (k : nat) : option wlist :=
    _ <-? recs l k ;; Some (with_recs l (set_fn (recs l) k None)).
  (** writing the current buffer *)
  Definition put_buf (l : wlist) (b : buf) : option wlist :=
    ' (k, _) <-? get_buf l (hdr l) ;; Some (with_bufs l (set_fn (bufs l) k (Some b))).

  (** the end of [find_or_create], S 1007-1024: take the first spare slot *)
  Definition take_slot (l : wlist) (addr : Z) (record_ok : bool) : option (wlist * option nat) :=
    ' (_, b) <-? get_buf l (hdr l) ;;
    let index := b_size b in
    _ <-? check (index <? b_cap b)%nat ;;
    p <-? nth_error (b_ws b) index ;;
    ' (l, w) <-? match p with
                 | Some w => Some (l, Some w)
                 | None =>
                     if record_ok then
                       let k := next l in
                       ws' <-? upd (b_ws b) index (Some k) ;;
                       l' <-? put_buf (with_next (with_recs l (set_fn (recs l) k (Some {| r_refs := 0; r_index := index |}))) (S k))
                                {| b_size := b_size b; b_cap := b_cap b; b_addrs := b_addrs b; b_ws := ws' |} ;;
                       Some (l', Some k)
                     else Some (l, None)
                 end ;;
    match w with
    | None => Some (l, None)
    | Some w =>
        ' (_, b) <-? get_buf l (hdr l) ;;
        addrs' <-? upd (b_addrs b) index addr ;;
        l' <-? put_buf l {| b_size := S (b_size b); b_cap := b_cap b; b_addrs := addrs'; b_ws := b_ws b |} ;;
        Some (l', Some w)
    end.

  (** [find_or_create], S 983-1025 *)
  Definition find_or_create (l : wlist) (addr : Z) (buffer_ok record_ok : bool) : option (wlist * option nat) :=
    match hdr l with
    | None =>
        ' (l, h) <-? allocate_buffer l initial_capacity None buffer_ok ;;
        let l := with_hdr l h in
        match h with
        | None => Some (l, None)
        | Some _ => take_slot l addr record_ok
        end
    | Some _ =>
        ws <-? find l addr ;;
        match ws with
        | Some w => Some (l, Some w)
        | None =>
            ' (_, b) <-? get_buf l (hdr l) ;;
            if (b_size b =? b_cap b)%nat then
              ' (l, h) <-? allocate_buffer l (b_cap b * 2) (hdr l) buffer_ok ;;
              match h with
              | None => Some (l, None)
              | Some _ =>
                  l <-? free_buf l (hdr l) ;;
                  take_slot (with_hdr l h) addr record_ok
              end
            else take_slot l addr record_ok
        end
    end.

  (** [free_spare], S 1109-1130; the loop deletes from [i] up to the first null *)
  Fixpoint free_from (l : wlist) (ws : list (option nat)) (i n : nat) : option (wlist * list (option nat)) :=
    match n with
    | O => Some (l, ws)
    | S n' =>
        p <-? nth_error ws i ;;
        match p with
        | None => Some (l, ws)
        | Some w =>
            l <-? free_rec l w ;;
            ws <-? upd ws i None ;;
            free_from l ws (S i) n'
        end
    end.
  Definition free_spare (l : wlist) : option wlist :=
    match hdr l with
    | None => Some l
    | Some _ =>
        ' (_, b) <-? get_buf l (hdr l) ;;
        ' (l, ws) <-? free_from l (b_ws b) (b_size b) (b_cap b - b_size b) ;;
        l <-? put_buf l {| b_size := b_size b; b_cap := b_cap b; b_addrs := b_addrs b; b_ws := ws |} ;;
        if (b_size b =? 0)%nat then
          l <-? free_buf l (hdr l) ;; Some (with_hdr l None)
        else Some l
    end.

  (** [erase], S 1028-1063 *)
  Definition set_index (l : wlist) (w i : nat) : option wlist :=
    r <-? recs l w ;; Some (with_recs l (set_fn (recs l) w (Some {| r_refs := r_refs r; r_index := i |}))).
  Definition erase (l : wlist) (w : nat) : option wlist :=
    ' (_, b) <-? get_buf l (hdr l) ;;
    r <-? recs l w ;;
    let index := r_index r in
    _ <-? check (index <? b_size b)%nat ;;
    p <-? nth_error (b_ws b) index ;;
    _ <-? check (match p with Some w' => Nat.eqb w' w | None => false end) ;;
    let last_index := (b_size b - 1)%nat in
    ' (l, pa, pw) <-?
      (if negb (index =? last_index)%nat then
         la <-? nth_error (b_addrs b) last_index ;;
         pa <-? upd (b_addrs b) index la ;;
         pa <-? upd pa last_index 0%Z ;;
         lw <-? nth_error (b_ws b) last_index ;;
         pw <-? upd (b_ws b) index lw ;;
         pw <-? upd pw last_index (Some w) ;;
         lw <-? lw ;;
         l <-? set_index l lw index ;;
         l <-? set_index l w last_index ;;
         Some (l, pa, pw)
       else
         pa <-? upd (b_addrs b) index 0%Z ;;
         Some (l, pa, b_ws b)) ;;
    l <-? put_buf l {| b_size := b_size b - 1; b_cap := b_cap b; b_addrs := pa; b_ws := pw |} ;;
    if free_memory l then free_spare l else Some l.

  (** [allocate_wait_state], S 1155-1170 *)
  Definition allocate_wait_state (l : wlist) (addr : Z) (bo ro : bool) : option (wlist * option nat) :=
    ' (l, ws) <-? find_or_create l addr bo ro ;;
    match ws with
    | None => Some (l, None)
    | Some w =>
        r <-? recs l w ;;
        Some (with_recs l (set_fn (recs l) w (Some {| r_refs := S (r_refs r); r_index := r_index r |})), Some w)
    end.
  (** [free_wait_state], S 1172-1185, for a non-null record (null is a no-op) *)
  Definition free_wait_state (l : wlist) (w : nat) : option wlist :=
    r <-? recs l w ;;
    match r_refs r with
    | O => None
    | S n =>
        let l := with_recs l (set_fn (recs l) w (Some {| r_refs := n; r_index := r_index r |})) in
        if (n =? 0)%nat then erase l w else Some l
    end.
  (** [cleanup_lock_pool], S 961-971, for one lock *)
  Definition cleanup (l : wlist) : option wlist := free_spare (with_free l).

  (** ** The pool

      [registered] is g_pool_cleanup_registered (S 974), [handlers] the number of times [std::atexit] has been
      given [cleanup_lock_pool] and has not yet run it. *)
  Record pool := { lists : nat -> wlist; registered : bool; handlers : nat }.
  Definition pool0 : pool := {| lists := fun _ => wlist0; registered := false; handlers := 0 |}.

  (** whether this [find_or_create] calls [allocate_buffer] (S 987, 999) *)
  Definition needs_buffer (l : wlist) (addr : Z) : option bool :=
    match hdr l with
    | None => Some true
    | Some _ =>
        ws <-? find l addr ;;
        ' (_, b) <-? get_buf l (hdr l) ;;
        Some (match ws with Some _ => false | None => (b_size b =? b_cap b)%nat end)
    end.
  (** S 1068-1072: register once *)
  Definition register (p : pool) : pool :=
    if registered p then p else {| lists := lists p; registered := true; handlers := S (handlers p) |}.
  Definition set_list (p : pool) (i : nat) (l : wlist) : pool :=
    {| lists := set_fn (lists p) i l; registered := registered p; handlers := handlers p |}.

  (** the loop of [cleanup_lock_pool] over locks [0 .. n) *)
  Fixpoint cleanup_all (n : nat) (p : pool) : option pool :=
    match n with
    | O => Some p
    | S m => p <-? cleanup_all m p ;; l <-? cleanup (lists p m) ;; Some (set_list p m l)
    end.
  Fixpoint run_handlers (k n : nat) (p : pool) : option pool :=
    match k with
    | O => Some p
    | S k' =>
        p <-? cleanup_all n p ;;
        run_handlers k' n {| lists := lists p; registered := registered p; handlers := pred (handlers p) |}
    end.

  (** one call; [n] is the number of locks *)
  Definition wstep (n : nat) (o : wop) (p : pool) : option (pool * wres) :=
    match o with
    | Begin i a bo ro =>
        nb <-? needs_buffer (lists p i) a ;;
        let p := if nb then register p else p in
        ' (l, r) <-? allocate_wait_state (lists p i) a bo ro ;;
        Some (set_list p i l, Obtained r)
    | End i a r => l <-? free_wait_state (lists p i) r ;; Some (set_list p i l, Nothing)
    | Notify i a => r <-? find (lists p i) a ;; Some (p, Found r)
    | Exit => p <-? run_handlers (handlers p) n p ;; Some (p, Nothing)
    end.

  (** reachable: any sequence of allowed calls, with the waits in progress *)
  Inductive reached (n : nat) : list wop -> pool -> waits -> Prop :=
  | re_nil : reached n [] pool0 []
  | re_step t p w o p' r w' :
      reached n t p w -> allowed n w o -> wstep n o p = Some (p', r) -> waits_step w o r w' ->
      reached n (t ++ [o]) p' w'.
End List_.
