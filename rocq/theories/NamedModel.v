(** Model of the lists of named data in src/mbedtls/asn1parse.c and src/mbedtls/asn1write.c, on the heap of HeapModel.

    An entry (mbedtls_asn1_named_data, asn1.h:146-153) is a block of five fields: oid.len, oid.p, val.len, val.p, next.  The
    fields oid.tag, val.tag and next_merged are not represented: these functions neither read nor assign them. *)
From Verif Require Import Base HeapModel.

Definition f_oid_len : nat := 0.
Definition f_oid_p : nat := 1.
Definition f_val_len : nat := 2.
Definition f_val_p : nat := 3.
Definition f_next : nat := 4.
Definition get_field (h : heap) (cur : Z) (i : nat) : outcome Z := f <- load h cur 5 ;; Ok (nth i f 0).
Definition set_field (h : heap) (cur : Z) (i : nat) (v : Z) : outcome heap := f <- load h cur 5 ;; save h cur (firstn i f ++ v :: skipn (S i) f).

(** mbedtls_asn1_find_named_data, asn1parse.c:376-391; [fuel] bounds the entries visited *)
Fixpoint nd_find (fuel : nat) (h : heap) (list : Z) (oid : bytes) : outcome Z :=
  match fuel with
  | O => Diverge
  | S fuel =>
    if list =? 0 then Ok 0
    else
      len <- get_field h list f_oid_len ;;
      same <- (if len =? zlen oid then p <- get_field h list f_oid_p ;; d <- load h p (length oid) ;; Ok (bytes_eqb d oid) else Ok false) ;;
      if same : bool then Ok list
      else next <- get_field h list f_next ;; nd_find fuel h next oid
  end.
(** mbedtls_asn1_free_named_data, asn1parse.c:353-362 *)
Definition nd_free (h : heap) (cur : Z) : outcome heap :=
  if cur =? 0 then Ok h
  else
    p <- get_field h cur f_oid_p ;; h <- release h p ;;
    p <- get_field h cur f_val_p ;; h <- release h p ;;
    save h cur (repeat 0 5).
(** mbedtls_asn1_free_named_data_list, asn1parse.c:364-374: heap and *head *)
Fixpoint nd_free_list (fuel : nat) (h : heap) (head : Z) : outcome (heap * Z) :=
  match fuel with
  | O => Diverge
  | S fuel =>
    if head =? 0 then Ok (h, 0)
    else
      next <- get_field h head f_next ;;
      h <- nd_free h head ;;
      h <- release h head ;;
      nd_free_list fuel h next
  end.

Section Named.
Context (ora : nat -> bool).
(** mbedtls_asn1_store_named_data, asn1write.c:339-397: heap, *head and the returned pointer; [v] is None for the null pointer *)
Definition nd_store (h : heap) (head : Z) (oid : bytes) (v : option bytes) (val_len : Z) : outcome (heap * Z * Z) :=
  let write h head cur :=
    h <- match v with
         | Some d => d <- rd d 0 val_len ;; p <- get_field h cur f_val_p ;; save h p d
         | None => Ok h
         end ;;
    Ok (h, head, cur) in
  cur <- nd_find (S (length (cells h))) h head oid ;;
  if cur =? 0 then
    let '(cur, h) := calloc ora h 5 in
    if cur =? 0 then Ok (h, head, 0)
    else
      h <- set_field h cur f_oid_len (zlen oid) ;;
      let '(p, h) := calloc ora h (length oid) in
      h <- set_field h cur f_oid_p p ;;
      if p =? 0 then h <- release h cur ;; Ok (h, head, 0)
      else
        h <- save h p oid ;;
        h <- set_field h cur f_val_len val_len ;;
        let '(q, h) := calloc ora h (Z.to_nat val_len) in
        h <- set_field h cur f_val_p q ;;
        if q =? 0 then
          p <- get_field h cur f_oid_p ;; h <- release h p ;;
          h <- release h cur ;; Ok (h, head, 0)
        else
          h <- set_field h cur f_next head ;;
          write h cur cur
  else
    len <- get_field h cur f_val_len ;;
    if len <? val_len then
      let '(p, h) := calloc ora h (Z.to_nat val_len) in
      if p =? 0 then Ok (h, head, 0)
      else
        old <- get_field h cur f_val_p ;; h <- release h old ;;
        h <- set_field h cur f_val_p p ;;
        h <- set_field h cur f_val_len val_len ;;
        write h head cur
    else write h head cur.
(** Several calls, starting with a null pointer as list *)
Fixpoint nd_run (cs : list (bytes * option bytes * Z)) (h : heap) (head : Z) : outcome (heap * Z) :=
  match cs with
  | [] => Ok (h, head)
  | (oid, v, n) :: cs => '(h, head, _) <- nd_store h head oid v n ;; nd_run cs h head
  end.
End Named.
