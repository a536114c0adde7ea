(** C62: the operations on JSON objects, for every object, columns and data. *)
From Coq Require Import String ZArith List Bool Lia Sorting.Permutation.
From Verif Require Import Base TsearchModel MapModel MapProofs ListModel Json IntSpec JsonHeapModel JsonHeapSpec JsonHeapProofs SqlModel SqlSpec SqlProofs SqlJsonModel SqlJsonSpec SqlJsonProofs
  SqlSelectModel SqlGenericModel SqlGenericSpec SqlGenericProofs SqlUseSpec SqlUseProofs SqlReportSpec SqlReportProofs PropSql PropSqlJson PropSqlGeneric PropSqlUse.
Import ListNotations.
Open Scope Z_scope.

(** For every object, columns (also repeated ones) and data (also used before): the
    members are taken in some order, up to the first complaint.  The operation is run with
    the data so far, complaint or not, and the status gets the report and the complaint.
    With an update template and nothing to update, it is undefined after that.  If a member
    comes that is undefined, the operation is not run. *)
Theorem C62_exact : forall DB op (w : world DB) a kvs infos data t s,
  holds (w_heap DB w) (JObj kvs) a -> is_status (w_heap DB w) s -> Forall (fun info => i_col info <> []) infos ->
  (length infos <= length data)%nat ->
  (forall tp, t_update_template t = Some tp -> exists before behind, template tp before behind) ->
  exists order r, Permutation order kvs /\ uses infos true order data r /\
  match r with
  | Undefined => exists b, generic_opcode byval_str_mk DB op w (Some a) (Some infos) (Some data) t s = Bad b
  | Used data' us ns es => exists h1 s1 t',
    same_status (w_heap DB w) s s1 /\ is_status h1 s1 /\ only_status (w_heap DB w) h1 None /\ composed kvs infos (Some data') t t' /\
    (forall b, op (World DB (w_db DB w) (w_open DB w) h1) (Some infos) (Some data') t' s1 = Bad b ->
       generic_opcode byval_str_mk DB op w (Some a) (Some infos) (Some data) t s = Bad b) /\
    (forall rc w2, op (World DB (w_db DB w) (w_open DB w) h1) (Some infos) (Some data') t' s1 = Ok (rc, w2, s1) ->
       only_status h1 (w_heap DB w2) s1 -> is_status (w_heap DB w2) s1 ->
       if match t_update_template t, t_update_x t' with Some _, None => true | _, _ => false end
       then generic_opcode byval_str_mk DB op w (Some a) (Some infos) (Some data) t s = Bad NullDeref
       else exists w', generic_opcode byval_str_mk DB op w (Some a) (Some infos) (Some data) t s = Ok (rc, w', Some data', s1) /\
         w_db DB w' = w_db DB w2 /\ w_open DB w' = w_open DB w2 /\
         only_status (w_heap DB w2) (w_heap DB w') s1 /\ with_report (w_heap DB w2) (w_heap DB w') s1 (debug_value t t' us ns) es)
  end.
Proof.
  intros DB op w a kvs infos data t s H St Fc Ld Tp.
  assert (exists n, st (w_heap DB w) s n /\ Z.of_nat n < 2 ^ 32) as (n & St' & B) by (apply status_st; auto).
  destruct (generic_more DB op w a kvs infos data t s n H St' Fc Ld Tp) as (order & r & Pm & Us & R). exists order, r. split; [auto|]. split; [auto|].
  destruct r as [data' us ns es|]; [|exact R]. destruct R as (h1 & s1 & t' & Ss & X & Ns & St1 & Co & Gb & Gn & Go). exists h1, s1, t'. split; [auto|]. split.
  { destruct s1 as [[r|]|]; cbn [is_status st] in *; auto. destruct St1 as (kas & F & L). exists kas. split; [auto|lia]. }
  split; [split; [apply extends_len; auto|intros c Lc _; apply extends_get; auto]|]. split; [auto|]. split; [exact Gb|].
  intros rc w2 Eo O2 Is2. apply status_st in Is2 as (m & St2 & B2).
  assert (Yes : (t_update_template t <> None -> t_update_x t' <> None) -> exists w', generic_opcode byval_str_mk DB op w (Some a) (Some infos) (Some data) t s = Ok (rc, w', Some data', s1) /\
         w_db DB w' = w_db DB w2 /\ w_open DB w' = w_open DB w2 /\
         only_status (w_heap DB w2) (w_heap DB w') s1 /\ with_report (w_heap DB w2) (w_heap DB w') s1 (debug_value t t' us ns) es).
  { intros Tx. destruct (Go rc w2 m Eo O2 St2) as (h' & Eg & O' & _ & Wd); [lia|auto|]. exists (on_heap DB w2 h'). split; [auto|]. split; [auto|]. split; [auto|]. split; auto. }
  destruct (t_update_template t) as [tp|] eqn:Et; [|apply Yes; congruence].
  destruct (t_update_x t') as [x|] eqn:Ex; [apply Yes; congruence|]. apply (Gn rc w2 Eo); congruence.
Qed.

(** A text for an integer column: the operation is run with the data as it was, and the
    status has the complaint.  A boolean for a text column: it is not run. *)
Example C62_exact_example :
  (let r := generic_opcode byval_str_mk _ record (World _ [] 0 (object_with [([97], NStr [120])])) (Some 0%nat) (Some [column 97 T_INT false]) (Some [zero_data]) (Stmts [] [] [] false [] [] None None None) (Some None) in
   match r with
   | Ok (rc, w, d, Some (Some s)) => rc = 7 /\ d = Some [zero_data] /\ map fst (w_db _ w) = [d] /\
     match object_get (w_heap _ w) (Some s) (Some (said "error")) with
     | Ok e => texts (w_heap _ w) (Some e) = [NStr (said "'a' should be int")]
     | _ => False end
   | _ => False end) /\
  generic_opcode byval_str_mk _ record (World _ [] 0 (object_with [([97], NBool true)])) (Some 0%nat) (Some [column 97 T_TEXT false]) (Some [zero_data]) (Stmts [] [] [] false [] [] None None None) (Some None) = Bad NullDeref.
Proof. vm_compute. auto 10. Qed.

Print Assumptions C62_exact.
