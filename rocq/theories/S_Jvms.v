(** * The rules of the JVM specification for constants (JVMS 4.4, 4.8).

    Written from the Java Virtual Machine Specification, not from what cafebabe
    accepts ([valid_constant] in [S_Format] is that).  Texts are read with the
    decoder [dec]: a text it cannot decode is no name and no descriptor. *)
From Verif Require Import Base S_Lang S_Names S_Format S_Pool.
From Verif Require M_Descriptors M_ConstantPool M_Attributes.
Import M_Descriptors(field_desc, dimensions, fd_type, FLong, FDouble, FObject,
  return_desc, RReturn, RVoid, method_desc, parameters, return_type).
Import M_ConstantPool(ref_kind, GetField, GetStatic, PutField, PutStatic, InvokeVirtual,
  InvokeStatic, InvokeSpecial, NewInvokeSpecial, InvokeInterface).

(** ** Descriptors *)
(** JVMS 4.3.2: class names are binary names in internal form (4.2.1), at most 255 dimensions. *)
Definition j_field (d : field_desc) : Prop :=
  dimensions d <= 255 /\ match fd_type d with FObject n => binary_name n | _ => True end.
Definition j_return (r : return_desc) : Prop := match r with RVoid => True | RReturn d => j_field d end.
(** JVMS 4.3.3: parameters of type long and double contribute two units. *)
Definition units (d : field_desc) : N :=
  match fd_type d with
  | FLong | FDouble => if dimensions d =? 0 then 2 else 1
  | _ => 1
  end.
Definition parameter_units (d : method_desc) : N := fold_right (fun p n => units p + n) 0 (parameters d).
(** JVMS 4.3.3 without and with the limit on parameters. *)
Definition j_method_form (d : method_desc) : Prop := Forall j_field (parameters d) /\ j_return (return_type d).
Definition j_method (d : method_desc) : Prop := j_method_form d /\ parameter_units d <= 255.

(** JVMS 4.2.2: names of methods. *)
Definition ordinary_method_name (s : str) : Prop := s <> [] /\ without ".;[/<>" s.

Section Pool.
Variable dec : list byte -> option str.
Variable cs : list constant.
Let sl := slots_of cs.

(** The name and the descriptor of the NameAndType at an index. *)
Definition named (nt : N) (name desc : str) : Prop :=
  exists n d, at_index sl nt (CNameAndType n d) /\ utf8_at dec sl n name /\ utf8_at dec sl d desc.
(** The name of the member at an index. *)
Definition member_named (m : N) (name : str) : Prop :=
  exists c nt n d, (at_index sl m (CFieldref c nt) \/ at_index sl m (CMethodref c nt) \/ at_index sl m (CInterfaceMethodref c nt))
    /\ at_index sl nt (CNameAndType n d) /\ utf8_at dec sl n name.

(** JVMS 4.4.8 *)
Definition j_target (major : N) (k : ref_kind) (m : N) : Prop :=
  match k with
  | GetField | GetStatic | PutField | PutStatic => exists c nt, at_index sl m (CFieldref c nt)
  | InvokeVirtual | NewInvokeSpecial => exists c nt, at_index sl m (CMethodref c nt)
  | InvokeStatic | InvokeSpecial => (exists c nt, at_index sl m (CMethodref c nt))
      \/ 52 <= major /\ exists c nt, at_index sl m (CInterfaceMethodref c nt)
  | InvokeInterface => exists c nt, at_index sl m (CInterfaceMethodref c nt)
  end.
Definition j_target_name (k : ref_kind) (s : str) : Prop :=
  match k with
  | InvokeVirtual | InvokeStatic | InvokeSpecial | InvokeInterface => s <> lit "<init>" /\ s <> lit "<clinit>"
  | NewInvokeSpecial => s = lit "<init>"
  | _ => True
  end.

(** One constant of a file of version [major] with [boots] bootstrap methods;
    [modular] if the file declares a module. *)
Definition jvms_constant (major boots : N) (modular : bool) (c : constant) : Prop :=
  match c with
  | CUtf8 raw => Forall (fun b => Byte.to_N b <> 0 /\ Byte.to_N b < 0xF0) raw                       (* 4.4.7 *)
  | CInteger _ | CFloat _ | CLong _ | CDouble _ => True                                             (* 4.4.4, 4.4.5 *)
  | CClass n => exists s, utf8_at dec sl n s
      /\ (binary_name s \/ exists d, j_field d /\ 0 < dimensions d /\ s = field_text d)             (* 4.4.1 *)
  | CString t => is_utf8 sl t                                                                       (* 4.4.3 *)
  | CFieldref c nt => is_class sl c                                                                 (* 4.4.2 *)
      /\ exists name d, named nt name (field_text d) /\ unqualified name /\ j_field d
  | CMethodref c nt => is_class sl c                                                                (* 4.4.2 *)
      /\ exists name d, named nt name (method_text d) /\ j_method d
         /\ (ordinary_method_name name \/ name = lit "<init>" /\ return_type d = RVoid)
  | CInterfaceMethodref c nt => is_class sl c                                                       (* 4.4.2 *)
      /\ exists name d, named nt name (method_text d) /\ j_method d
         /\ (ordinary_method_name name \/ name = lit "<init>" \/ name = lit "<clinit>")
  | CNameAndType n d =>                                                                             (* 4.4.6 *)
      (exists name, utf8_at dec sl n name /\ unqualified name)
      /\ exists s, utf8_at dec sl d s
         /\ ((exists fd, j_field fd /\ s = field_text fd) \/ (exists md, j_method md /\ s = method_text md))
  | CMethodHandle k m => j_target major k m /\ exists name, member_named m name /\ j_target_name k name   (* 4.4.8 *)
  | CMethodType d => exists md, utf8_at dec sl d (method_text md) /\ j_method md                    (* 4.4.9 *)
  | CDynamic b nt => b < boots /\ exists name d, named nt name (field_text d) /\ unqualified name /\ j_field d   (* 4.4.10 *)
  | CInvokeDynamic b nt => b < boots
      /\ exists name d, named nt name (method_text d) /\ unqualified name /\ j_method d             (* 4.4.10 *)
  | CModule n => (exists s, utf8_at dec sl n s /\ module_name s) /\ modular = true                  (* 4.4.11 *)
  | CPackage n => (exists s, utf8_at dec sl n s /\ binary_name s) /\ modular = true                 (* 4.4.12 *)
  end.
(** The constants of a file whose count is [count]: the indices they take are below it (4.1, 4.4.5). *)
Definition jvms_pool (count major boots : N) (modular : bool) : Prop :=
  Forall (jvms_constant major boots modular) cs
  /\ forall k x, nth_error cs k = Some x -> index_of cs k + width x <= count.

(** ** The rules cafebabe does not check *)
Inductive unchecked :=
| TextBytes             (** 4.4.7: no byte of a text is 0 or above 0xEF *)
| MethodrefName         (** 4.2.2, 4.4.2: names of methods referred to; those starting with < *)
| ParameterCount        (** 4.3.3: at most 255 units of parameters *)
| NameAndTypeDescriptor (** 4.4.6: the descriptor of a NameAndType not used by another constant *)
| HandleName            (** 4.4.8: <init> and <clinit> in method handles *)
| ModuleOnly            (** 4.4.11, 4.4.12: Module and Package only in module files *)
| LastIndex             (** 4.4.5: the index after a long or double is below the count *).

Definition passes (count : N) (modular : bool) (u : unchecked) : Prop :=
  match u with
  | TextBytes => forall raw b, In (CUtf8 raw) cs -> In b raw -> Byte.to_N b <> 0 /\ Byte.to_N b < 0xF0
  | MethodrefName => forall c nt name d, named nt name (method_text d) -> j_method_form d ->
      (In (CMethodref c nt) cs -> ordinary_method_name name \/ name = lit "<init>" /\ return_type d = RVoid)
      /\ (In (CInterfaceMethodref c nt) cs -> ordinary_method_name name \/ name = lit "<init>" \/ name = lit "<clinit>")
  | ParameterCount => forall n i d, (In (CNameAndType n i) cs \/ In (CMethodType i) cs) ->
      utf8_at dec sl i (method_text d) -> j_method_form d -> parameter_units d <= 255
  | NameAndTypeDescriptor => forall n i, In (CNameAndType n i) cs -> exists s, utf8_at dec sl i s
      /\ ((exists fd, j_field fd /\ s = field_text fd) \/ (exists md, j_method_form md /\ s = method_text md))
  | HandleName => forall k m name, In (CMethodHandle k m) cs -> member_named m name -> j_target_name k name
  | ModuleOnly => forall n, In (CModule n) cs \/ In (CPackage n) cs -> modular = true
  | LastIndex => forall k x, nth_error cs k = Some x -> index_of cs k + width x <= count
  end.

(** ** The rules cafebabe adds *)
(** The class names in a descriptor. *)
Definition names_of (d : field_desc) : list str := match fd_type d with FObject n => [n] | _ => [] end.
Definition method_names_of (d : method_desc) : list str :=
  flat_map names_of (parameters d) ++ match return_type d with RReturn r => names_of r | RVoid => [] end.
(** The descriptors a constant requires to be valid contain no class name with < or >. *)
Definition plain (c : constant) : Prop :=
  match c with
  | CClass n => forall d, utf8_at dec sl n (field_text d) -> j_field d -> Forall (without "<>") (names_of d)
  | CFieldref _ nt | CDynamic _ nt =>
      forall name d, named nt name (field_text d) -> j_field d -> Forall (without "<>") (names_of d)
  | CMethodref _ nt | CInterfaceMethodref _ nt | CInvokeDynamic _ nt =>
      forall name d, named nt name (method_text d) -> j_method_form d -> Forall (without "<>") (method_names_of d)
  | CMethodType i => forall d, utf8_at dec sl i (method_text d) -> j_method_form d -> Forall (without "<>") (method_names_of d)
  | _ => True
  end.
End Pool.

(** JVMS 4.7.x: what attribute_length must be.  Attributes with parts of varying
    length and those holding other attributes are left out; C23 is about those. *)
Definition sum {A} (f : A -> N) (l : list A) : N := fold_right (fun a n => f a + n) 0 l.
Definition len {A} (l : list A) : N := N.of_nat (length l).
Definition proper_length (a : M_Attributes.attr_data) : option N :=
  match a with
  | M_Attributes.AConstantValue _ | M_Attributes.ASignature _ | M_Attributes.ASourceFile _
  | M_Attributes.AModuleMainClass _ | M_Attributes.ANestHost _ => Some 2
  | M_Attributes.AEnclosingMethod _ _ => Some 4
  | M_Attributes.ASynthetic | M_Attributes.ADeprecated => Some 0
  | M_Attributes.AExceptions l | M_Attributes.AModulePackages l | M_Attributes.ANestMembers l
  | M_Attributes.APermittedSubclasses l => Some (2 + 2 * len l)
  | M_Attributes.AInnerClasses l => Some (2 + 8 * len l)
  | M_Attributes.ALineNumberTable l => Some (2 + 4 * len l)
  | M_Attributes.ALocalVariableTable l => Some (2 + 10 * len l)
  | M_Attributes.ALocalVariableTypeTable l => Some (2 + 10 * len l)
  | M_Attributes.ABootstrapMethods l => Some (2 + sum (fun b => 4 + 2 * len (M_Attributes.bm_arguments b)) l)
  | M_Attributes.AMethodParameters l => Some (1 + 4 * len l)
  | M_Attributes.AModule m => Some (16 + 6 * len (M_Attributes.md_requires m)
      + sum (fun e => 6 + 2 * len (M_Attributes.xp_exports_to e)) (M_Attributes.md_exports m)
      + sum (fun o => 6 + 2 * len (M_Attributes.op_opens_to o)) (M_Attributes.md_opens m)
      + 2 * len (M_Attributes.md_uses m)
      + sum (fun p => 4 + 2 * len (M_Attributes.pv_provides_with p)) (M_Attributes.md_provides m))
  | _ => None
  end.
