(** * Model of releasing a class: the destructors of the data outside the constant pool

    As for the pool ([M_Drop]), there is no explicit code: the compiler generates, for each type, a destructor that drops the fields in
    the order of their declaration, and the elements of a vector from first to last.  Two types contain themselves and therefore have
    recursive destructors: annotation values (attributes.rs:120-152) and lists of attributes (attributes.rs:26-34 [CodeData],
    309-314 [RecordComponentEntry]).  [stk] is the number of nested calls the stack has room for, one for each nested value and
    one for each nested list of attributes; the calls for the types between them (annotations, vectors, options) are not counted, as in
    the model of the parser.  Strings, numbers and slices have nothing recursive to drop and are left out. *)
From Verif Require Import Base M_Names M_Descriptors M_ConstantPool M_Bytecode M_Attributes M_Class M_Drop.

(** attributes.rs:18-358 (the destructors of vectors). One after the other. *)
Fixpoint each {A} (f : A -> outcome unit) (l : list A) : outcome unit :=
  match l with
  | [] => Ok tt
  | a :: l' => let* _ := f a in each f l'
  end.

(** attributes.rs:148-152: the elements of an annotation; attributes.rs:142-146: an element's value *)
Definition drop_annotation_with (V : element_value -> outcome unit) (a : annotation) : outcome unit :=
  each (fun nv => V (snd nv)) (ann_elements a).
(** attributes.rs:120-140 *)
Fixpoint drop_value (stk : nat) (v : element_value) : outcome unit :=
  match stk with
  | O => Panic PStackOverflow
  | S stk' =>
      match v with
      | EvAnnotation a => drop_annotation_with (drop_value stk') a
      | EvArray vs => each (drop_value stk') vs
      | _ => Ok tt
      end
  end.
(** attributes.rs:148-152: the destructor of [Annotation] *)
Definition drop_annotation (stk : nat) : annotation -> outcome unit := drop_annotation_with (drop_value stk).

(** attributes.rs:212-217: the target and the path of a type annotation are not recursive *)
Definition drop_type_annotation (stk : nat) (t : type_annotation) : outcome unit := drop_annotation stk (ta_annotation t).

(** attributes.rs:316-352 ([AttributeData]); [A] drops a nested list of attributes *)
Definition drop_data (A : list attr_info -> outcome unit) (stk : nat) (d : attr_data) : outcome unit :=
  match d with
  | ACode c => A (cd_attributes c)
  | ARecord l => each (fun r => A (rc_attributes r)) l
  | ARuntimeVisibleAnnotations l | ARuntimeInvisibleAnnotations l => each (drop_annotation stk) l
  | ARuntimeVisibleParameterAnnotations l | ARuntimeInvisibleParameterAnnotations l => each (each (drop_annotation stk)) l
  | ARuntimeVisibleTypeAnnotations l | ARuntimeInvisibleTypeAnnotations l => each (drop_type_annotation stk) l
  | AAnnotationDefault v => drop_value stk v
  | _ => Ok tt
  end.
(** attributes.rs:354-358 ([AttributeInfo]) and the vector of them *)
Fixpoint drop_attributes (stk : nat) (l : list attr_info) : outcome unit :=
  match stk with
  | O => Panic PStackOverflow
  | S stk' => each (fun a => drop_data (drop_attributes stk') stk' (attr_dat a)) l
  end.

(** lib.rs:321-333 ([ClassFile]), 153-159 ([FieldInfo]), 217-223 ([MethodInfo]): the pool (the entries freed are returned), the fields,
    the methods and the attributes *)
Definition drop_class (stk : nat) (c : class_file) : outcome (list N) :=
  let* freed := drop_pool stk (constant_pool c) in
  let* _ := each (fun f => drop_attributes stk (f_attributes f)) (fields c) in
  let* _ := each (fun m => drop_attributes stk (m_attributes m)) (methods c) in
  let* _ := drop_attributes stk (class_attributes c) in
  Ok freed.
