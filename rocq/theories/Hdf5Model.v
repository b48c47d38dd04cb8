(** Model of src/core_hdf5.hpp (typed reading and writing of data sets) and of the parts of src/app_serialize.hpp that write and read
    configurations and schedules (C56).

    The HDF5 library itself is modelled by what its documentation says of the calls made: a group is a map from link names to objects;
    a data set has a type, a space and one element per point of the space; H5Dwrite and H5Dread copy the elements when the memory type
    is the type of the data set (which check_compatible makes sure of) and the number of points is the same, and fail otherwise.  A
    failing call throws std::invalid_argument (detail::check).  Creation property lists and chunked or extensible data sets are left
    out, and so are names that are paths: such a name yields [UB], so that nothing is provable about it. *)
From Coq Require Import List Arith Ascii String Bool ZArith.
From Verif Require Import Base StrModel MapModel ConfigModel ScheduleModel.
Import ListNotations.
Close Scope Z_scope.
Close Scope string_scope.
Open Scope nat_scope.

(** Datatype, core_hdf5.hpp 185-273: the types made by native_int, native_ulong, native_double, c_s1().with_size(n), as_array(n) and
    compound(members), the last without the offsets and the size of the structure: they are those of the compiler, the same for
    writing and for reading. *)
Inductive dtype : Type := TInt | TULong | TDouble | TStr (n : nat) | TArr (t : dtype) (n : nat) | TComp (members : list (str * dtype)).
(** Datatype::operator==, core_hdf5.hpp 238-241. *)
Fixpoint dtype_eqb (a b : dtype) : bool :=
  match a, b with
  | TInt, TInt | TULong, TULong | TDouble, TDouble => true
  | TStr n, TStr m => n =? m
  | TArr t n, TArr u m => dtype_eqb t u && (n =? m)
  | TComp l, TComp m =>
      (fix go (l m : list (str * dtype)) : bool :=
         match l, m with
         | [], [] => true
         | (k, t) :: l', (j, u) :: m' => (match str_cmp k j with Eq => true | _ => false end) && dtype_eqb t u && go l' m'
         | _, _ => false
         end) l m
  | _, _ => false
  end.
(** Datatype::with_size on a string type, core_hdf5.hpp 253-258: H5Tset_size refuses 0, its answer is not checked, and the type stays
    as it was. *)
Definition str_with_size (t : dtype) (n : nat) : dtype :=
  match t with TStr m => if n =? 0 then TStr m else TStr n | _ => t end.
Definition c_s1 : dtype := TStr 1.
(** Datatype::size of a string type, core_hdf5.hpp 248-251. *)
Definition str_size (t : dtype) : nat := match t with TStr n => n | _ => 0 end.

(** Dataspace, core_hdf5.hpp 279-415: scalar() and simple(dims). *)
Inductive dspace : Type := Scalar | Simple (dims : list nat).
Definition npoints (s : dspace) : nat := match s with Scalar => 1 | Simple d => fold_right Nat.mul 1 d end.
(** Dataspace::operator==, core_hdf5.hpp 329-332. *)
Definition dspace_eqb (a b : dspace) : bool :=
  match a, b with
  | Scalar, Scalar => true
  | Simple d, Simple e => if list_eq_dec Nat.eq_dec d e then true else false
  | _, _ => false
  end.

Section Hdf5.
Context {D : Type}.

(** The contents of one point. *)
Inductive elem : Type := EInt (z : Z) | EULong (z : Z) | EDbl (d : D) | EStr (s : str) | EArr (l : list elem) | ECmp (l : list elem).
Record dataset : Type := mkds { ds_type : dtype; ds_space : dspace; ds_data : list elem }.
Inductive obj : Type := OGroup (links : list (str * obj)) | OData (d : dataset).
Definition group : Type := smap obj.

(** name.data(): what a C function sees of a std::string. *)
Fixpoint c_name (s : str) : str := match s with [] => [] | a :: s' => if Ascii.eqb a zero then [] else a :: c_name s' end.
(** A name of a link of the group itself, not a path. *)
Definition plain (n : str) : bool :=
  match n with [] => false | _ => true end && negb (List.existsb (Ascii.eqb "/"%char) n) && negb (if list_eq_dec ascii_dec n ["."%char] then true else false).

(** hdf5_type_info<T>, core_hdf5.hpp 421-507: how a value is laid out.  [i_elems] is what lies at get_address; [i_fill] is the value
    after H5Dread has stored elements at its address. *)
Record info (T : Type) : Type := mkinfo {
  i_mem : Type;
  i_writable : T -> i_mem;
  i_type : i_mem -> dtype;
  i_space : i_mem -> dspace;
  i_elems : i_mem -> list elem;
  i_prepare : dtype -> dspace -> outcome i_mem;
  i_fill : i_mem -> list elem -> i_mem;
  i_final : i_mem -> T }.
Arguments i_mem {T}. Arguments i_writable {T}. Arguments i_type {T}. Arguments i_space {T}. Arguments i_elems {T}.
Arguments i_prepare {T}. Arguments i_fill {T}. Arguments i_final {T}.

(** Value types of fixed layout: their data type, the element for a value, and the value of an element. *)
Record fixed (T : Type) : Type := mkfixed { f_default : T; f_type : dtype; f_put : T -> elem; f_get : elem -> T }.
Arguments f_default {T}. Arguments f_type {T}. Arguments f_put {T}. Arguments f_get {T}.

(** hdf5_type_info<int>, <unsigned long> and <double>, core_hdf5.hpp 434-471. *)
Definition fixed_int : fixed Z := mkfixed Z 0%Z TInt EInt (fun e => match e with EInt z => z | _ => 0%Z end).
Definition fixed_ulong : fixed Z := mkfixed Z 0%Z TULong EULong (fun e => match e with EULong z => z | _ => 0%Z end).
Definition fixed_double (zero : D) : fixed D := mkfixed D zero TDouble EDbl (fun e => match e with EDbl d => d | _ => zero end).
(** hdf5_type_info<arithmetic_sequence_t> and <rational_number_t> (an array of two ints), app_serialize.hpp 239-250 and 273-284. *)
Definition fixed_array {T} (f : fixed T) (n : nat) : fixed (list T) :=
  mkfixed (list T) (repeat (f_default f) n) (TArr (f_type f) n) (fun l => EArr (map (f_put f) l))
          (fun e => match e with EArr l => map (f_get f) l | _ => repeat (f_default f) n end).

(** A single value of such a type. *)
Definition scalar_info {T} (f : fixed T) : info T :=
  mkinfo T T (fun v => v) (fun _ => f_type f) (fun _ => Scalar) (fun v => [f_put f v]) (fun _ _ => Ok (f_default f))
         (fun v es => match es with e :: _ => f_get f e | [] => v end) (fun v => v).
(** hdf5_type_info<std::vector>, core_hdf5.hpp 486-497. *)
Definition vector_info {T} (f : fixed T) : info (list T) :=
  mkinfo (list T) (list T) (fun v => v) (fun _ => f_type f) (fun v => Simple [List.length v]) (map (f_put f))
         (fun _ s => Ok (repeat (f_default f) (npoints s))) (fun _ es => map (f_get f) es) (fun v => v).
(** hdf5_type_info<linked_list_t>, app_serialize.hpp 226-233: written as a vector. *)
Definition list_info {T L} (f : fixed T) (to_vector : L -> list T) (of_vector : list T -> L) : info L :=
  mkinfo L (list T) to_vector (fun _ => f_type f) (fun v => Simple [List.length v]) (map (f_put f))
         (fun _ s => Ok (repeat (f_default f) (npoints s))) (fun _ es => map (f_get f) es) of_vector.
(** hdf5_type_info<nd::shared_array>, app_serialize.hpp 194-204: the shape, and the buffer in row-major order; reading gets the shape
    from the file, and throws std::logic_error if the rank is another. *)
Definition array_info {T} (f : fixed T) (rank : nat) : info (list nat * list T) :=
  mkinfo (list nat * list T) (list nat * list T) (fun v => v) (fun _ => f_type f) (fun v => Simple (fst v)) (fun v => map (f_put f) (snd v))
         (fun _ s => match s with
                     | Simple d => if List.length d =? rank then Ok (d, repeat (f_default f) (npoints (Simple d))) else Throw LogicError
                     | Scalar => if 0 =? rank then Ok ([], [f_default f]) else Throw LogicError
                     end)
         (fun v es => (fst v, map (f_get f) es)) (fun v => v).

(** hdf5_type_info<std::string>, core_hdf5.hpp 473-484. *)
Definition string_type (s : str) : dtype := str_with_size c_s1 (Nat.max 1 (List.length s)).
Definition string_info : info str :=
  mkinfo str str (fun v => v) string_type (fun _ => Scalar) (fun s => [EStr s]) (fun t _ => Ok (repeat zero (str_size t)))
         (fun v es => match es with [EStr s] => s | _ => v end) (fun v => v).

(** hdf5_type_info<config_parameter_t>, app_serialize.hpp 290-347. *)
Definition cval_info (dzero : D) : info (cval D) :=
  mkinfo (cval D) (cval D) (fun v => v)
    (fun v => match v with CInt _ => TInt | CDbl _ => TDouble | CStr s => string_type s end)
    (fun _ => Scalar)
    (fun v => match v with CInt z => [EInt z] | CDbl d => [EDbl d] | CStr s => [EStr s] end)
    (fun t _ =>
       if dtype_eqb t TInt then Ok (CInt 0%Z)
       else if dtype_eqb t TDouble then Ok (CDbl dzero)
       else if dtype_eqb (str_with_size t 1) c_s1 then Ok (CStr (repeat zero (str_size t)))
       else Throw InvalidArgument)
    (fun v es => match v, es with
                 | CInt _, [EInt z] => CInt z
                 | CDbl _, [EDbl d] => CDbl d
                 | CStr _, [EStr s] => CStr s
                 | _, _ => v
                 end)
    (fun v => v).

(** What H5Dwrite takes from the memory: as many characters as the type has.  Past the end of a std::string lies one null character,
    and reading any further is undefined. *)
Definition stored (t : dtype) (es : list elem) : outcome (list elem) :=
  match t with
  | TStr n => mapM (fun e => match e with
                             | EStr s => if n <=? List.length s then Ok (EStr (firstn n s))
                                         else if n =? S (List.length s) then Ok (EStr (s ++ [zero])) else UB
                             | e => Ok e
                             end) es
  | _ => Ok es
  end.

(** Dataset::check_compatible, core_hdf5.hpp 758-765. *)
Definition check_compatible (d : dataset) (t : dtype) : outcome unit := if dtype_eqb t (ds_type d) then Ok tt else Throw InvalidArgument.

(** Dataset::write, core_hdf5.hpp 688-703. *)
Definition dataset_write {T} (I : info T) (d : dataset) (w : i_mem I) : outcome dataset :=
  let t := i_type I w in
  do _ <- check_compatible d t;
  if npoints (i_space I w) =? npoints (ds_space d)
  then do es <- stored t (i_elems I w); Ok (mkds (ds_type d) (ds_space d) es)
  else Throw InvalidArgument.

(** Dataset::read, core_hdf5.hpp 705-721. *)
Definition dataset_read {T} (I : info T) (d : dataset) : outcome T :=
  do v <- i_prepare I (ds_type d) (ds_space d);
  do _ <- check_compatible d (i_type I v);
  if npoints (i_space I v) =? npoints (ds_space d) then Ok (i_final I (i_fill I v (ds_data d))) else Throw InvalidArgument.

(** Link::create_dataset, core_hdf5.hpp 591-604: H5Dcreate refuses a name in use. *)
Definition create_dataset (g : group) (name : str) (t : dtype) (s : dspace) : outcome dataset :=
  if negb (plain (c_name name)) then UB
  else match mfind (c_name name) g with Some _ => Throw InvalidArgument | None => Ok (mkds t s []) end.
(** Location::open_dataset, core_hdf5.hpp 837-840. *)
Definition open_dataset (g : group) (name : str) : outcome dataset :=
  if negb (plain (c_name name)) then UB
  else match mfind (c_name name) g with Some (OData d) => Ok d | _ => Throw InvalidArgument end.
(** Location::require_dataset, core_hdf5.hpp 842-861. *)
Definition require_dataset (g : group) (name : str) (t : dtype) (s : dspace) : outcome dataset :=
  if negb (plain (c_name name)) then UB
  else match mfind (c_name name) g with
       | Some (OData d) => if dtype_eqb (ds_type d) t && dspace_eqb (ds_space d) s then Ok d else Throw InvalidArgument
       | _ => create_dataset g name t s
       end.

(** Location::write, core_hdf5.hpp 869-876: the group afterwards. *)
Definition write {T} (I : info T) (g : group) (name : str) (v : T) : outcome group :=
  let w := i_writable I v in
  do d <- require_dataset g name (i_type I w) (i_space I w);
  do d' <- dataset_write I d w;
  Ok (mset (c_name name) (OData d') g).
(** Location::read, core_hdf5.hpp 878-888. *)
Definition read {T} (I : info T) (g : group) (name : str) : outcome T := do d <- open_dataset g name; dataset_read I d.

(** Location::require_group and open_group, core_hdf5.hpp 819-835: the links of the group. *)
Definition require_group (g : group) (name : str) : outcome group :=
  if negb (plain (c_name name)) then UB
  else match mfind (c_name name) g with
       | Some (OGroup l) => Ok l
       | Some (OData _) => Throw InvalidArgument
       | None => Ok []
       end.
Definition open_group (g : group) (name : str) : outcome group :=
  if negb (plain (c_name name)) then UB
  else match mfind (c_name name) g with Some (OGroup l) => Ok l | _ => Throw InvalidArgument end.

(** Link::iterator::operator*, core_hdf5.hpp 620-630: H5Lget_name_by_idx stores at most 1023 characters and answers the true length;
    std::overflow_error (a runtime_error) only if that is above 1024. *)
Definition link_name (n : str) : outcome str := if 1024 <? List.length n then Throw RuntimeError else Ok (firstn 1023 n).

(** write_config, app_serialize.hpp 100-106. *)
Definition write_config_file (dzero : D) (g : group) (params : smap (cval D)) : outcome group :=
  foldM (fun g e => write (cval_info dzero) g (fst e) (snd e)) g params.
(** read_config, app_serialize.hpp 108-123: [links] are the names in the order in which the library lists them; what cannot be read is
    reported and left out. *)
Definition read_config_file (dzero : D) (g : group) (links : list str) : outcome (smap (cval D)) :=
  foldM (fun m link =>
           do n <- link_name link;
           match read (cval_info dzero) g n with
           | Ok v => Ok (mset n v m)
           | Throw _ => Ok m
           | UB => UB
           | NoFuel => NoFuel
           end) [] links.

(** write_schedule, app_serialize.hpp 69-78. *)
Definition write_task (tzero : D) (g : group) (e : str * task D) : outcome group :=
  do h <- require_group g (fst e);
  do h <- write string_info h (lit "name"%string) (t_name (snd e));
  do h <- write (scalar_info fixed_int) h (lit "num_times_performed"%string) (t_count (snd e));
  do h <- write (scalar_info (fixed_double tzero)) h (lit "last_performed"%string) (t_last (snd e));
  Ok (mset (c_name (fst e)) (OGroup h) g).
Definition write_schedule_file (tzero : D) (g : group) (s : schedule D) : outcome group := foldM (write_task tzero) g s.
(** read_schedule, app_serialize.hpp 80-94. *)
Definition read_task (tzero : D) (g : group) (n : str) : outcome (task D) :=
  do h <- open_group g n;
  do c <- read (scalar_info fixed_int) h (lit "num_times_performed"%string);
  do t <- read (scalar_info (fixed_double tzero)) h (lit "last_performed"%string);
  Ok (mktask n c t false).
Definition read_schedule_file (tzero : D) (g : group) (links : list str) : outcome (schedule D) :=
  foldM (fun s link => do n <- link_name link; do t <- read_task tzero g n; Ok (sinsert t s)) [] links.
End Hdf5.
Arguments i_mem {D T}. Arguments i_writable {D T}. Arguments i_type {D T}. Arguments i_space {D T}. Arguments i_elems {D T}.
Arguments i_prepare {D T}. Arguments i_fill {D T}. Arguments i_final {D T}. Arguments mkinfo {D T}.
Arguments f_default {D T}. Arguments f_type {D T}. Arguments f_put {D T}. Arguments f_get {D T}. Arguments mkfixed {D T}.
Arguments elem : clear implicits. Arguments dataset : clear implicits. Arguments obj : clear implicits. Arguments group : clear implicits.
