(** What a file is: its content and a position. *)
From Coq Require Import ZArith List Bool.
From Verif Require Import Common Text StreamModel.
Import ListNotations.
Open Scope Z_scope.

Definition size (c : list Z) : Z := Z.of_nat (length c).
Definition overwrite (c data : list Z) (offset : Z) : list Z := firstn (Z.to_nat offset) c ++ data ++ skipn (Z.to_nat offset + length data) c.
Definition piece (c : list Z) (offset n : Z) : list Z := firstn (Z.to_nat n) (skipn (Z.to_nat offset) c).

(** one call on the file [c] at position [p]: what it becomes and what is answered. Reads stay inside the file, writes
    start inside it or at its end. *)
Inductive file_step : list Z * Z -> stream_op -> list Z * Z -> answer -> Prop :=
| f_write_at c p data o : 0 <= o <= size c -> file_step (c, p) (SWriteAt data o) (overwrite c data o, p) (AOk true)
| f_read_at c p n o : 0 <= o -> 0 <= n -> o + n <= size c -> file_step (c, p) (SReadAt n o) (c, p) (ABytes (piece c o n))
| f_seek c p o : 0 <= o <= size c -> file_step (c, p) (SSeek o) (c, o) (APos o)
| f_tell c p : file_step (c, p) STell (c, p) (APos p)
| f_size c p : file_step (c, p) SSize (c, p) (APos (size c))
| f_read c p n : 0 <= n -> p + n <= size c -> file_step (c, p) (SRead n) (c, p + n) (ABytes (piece c p n))
| f_write c p data : file_step (c, p) (SWrite data) (overwrite c data p, p + size data) (AOk true).
Inductive file_run : list Z * Z -> list stream_op -> list Z * Z -> list answer -> Prop :=
| fr_nil f : file_run f [] f []
| fr_cons f o f' a r f'' l : file_step f o f' a -> file_run f' r f'' l -> file_run f (o :: r) f'' (a :: l).

(** no call makes the file longer *)
Inductive no_growth : list Z * Z -> list stream_op -> Prop :=
| ng_nil f : no_growth f []
| ng_cons f o f' a r : file_step f o f' a -> size (fst f') = size (fst f) -> no_growth f' r -> no_growth f (o :: r).
(** at most one call makes the file longer *)
Inductive one_growth : list Z * Z -> list stream_op -> Prop :=
| og_none f ops : no_growth f ops -> one_growth f ops
| og_keep f o f' a r : file_step f o f' a -> size (fst f') = size (fst f) -> one_growth f' r -> one_growth f (o :: r)
| og_grow f o f' a r : file_step f o f' a -> no_growth f' r -> one_growth f (o :: r).

(** the stream holds this file *)
Definition holds_file (s : stream) (f : list Z * Z) : Prop :=
  s_cap s = size (fst f) /\ s_cap s <= s_room s /\ s_cursor s = snd f /\ 0 <= snd f <= size (fst f) /\
  forall i, 0 <= i < size (fst f) -> s_bytes s i = nth (Z.to_nat i) (fst f) 0.
