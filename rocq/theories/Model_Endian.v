(* utils.native_endian (utils.py 19-39) on the bytes of a numpy array, as Template.__init__ uses it for the arrays of a template file (templates.py 69-70, 82).
   Simplifications: an array is its buffer, the size of its items and its byte order (dtype.byteorder), all items of one plain type; the number that the bytes of an item
   stand for is an arbitrary function of the bytes from the least to the most significant; the buffer's identity is a label, so that a copy can be told from the array itself. *)
From Verif Require Import Prelude.
From Coq Require Import Ascii.
Inductive order := LittleEndian | BigEndian | NoOrder.                       (* '<', '>', '|' (items of one byte); '=' is the order of the host *)
Definition order_eqb (a b : order) : bool := match a, b with LittleEndian, LittleEndian | BigEndian, BigEndian | NoOrder, NoOrder => true | _, _ => false end.
Record ndarray := { nd_label : nat; nd_order : order; nd_size : nat; nd_items : list (list ascii) }.
(* numpy: dtype.isnative *)
Definition isnative (host : order) (a : ndarray) : bool := order_eqb (nd_order a) NoOrder || order_eqb (nd_order a) host.
(* numpy: data.byteswap(), a copy with the bytes of every item in opposite order and the same dtype *)
Definition byteswap (fresh : nat) (a : ndarray) : ndarray := {| nd_label := fresh; nd_order := nd_order a; nd_size := nd_size a; nd_items := map (@rev ascii) (nd_items a) |}.
(* numpy: a.view(dtype.newbyteorder('native')): the same buffer, read in the order of the host *)
Definition view_native (host : order) (a : ndarray) : ndarray :=
  {| nd_label := nd_label a; nd_order := match nd_order a with NoOrder => NoOrder | _ => host end; nd_size := nd_size a; nd_items := nd_items a |}.
(* utils.py 35-39 *)
Definition native_endian (host : order) (fresh : nat) (a : ndarray) : ndarray :=
  if isnative host a then a else view_native host (byteswap fresh a).
(* the values of an array: what numpy shows, np.asarray(.., dtype=np.float64) converts and scipy.sparse (on the host) computes with *)
Definition values {V} (num : list ascii -> V) (a : ndarray) : list V :=
  map (fun b => num match nd_order a with BigEndian => rev b | _ => b end) (nd_items a).
(* the values that code sees which ignores the byte order of the dtype and reads the buffer in the order of the host (scipy 0.14 sparse, utils.py 25-27) *)
Definition raw_values {V} (num : list ascii -> V) (host : order) (a : ndarray) : list V :=
  map (fun b => num match host with BigEndian => rev b | _ => b end) (nd_items a).
