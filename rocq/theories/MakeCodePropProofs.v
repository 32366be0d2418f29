From Coq Require Import String ZArith List Bool Lia.
From Verif Require Import Common MemModel AllocModel ArrayModel HashtableModel HashtableProofs HashtablePropProofs HashModel Text StrOpsModel StrOpsSpec StrModel StrSpec InternModel InternSpec InternProofs InternProofs2 MakeCodeModel MakeCodeSpec MakeCodeProofs.
Import ListNotations.
Open Scope Z_scope.

Lemma p45_macros m0 start per max m cx log pools m1 pools1 cx1 p l : start_ok m0 start per ->
  cs_history m0 (ctx_init start per max) m cx log -> reset m pools cx = (m1, pools1, cx1) ->
  lookup_macro m1 cx1 p l = Ok None.
Proof.
  intros (B & S1 & S2 & S3 & S4) H HR. destruct (history_inv _ _ _ _ _ _ _ B S1 S2 S3 S4 H) as [I E].
  destruct I as (Bm & A & P & blks & f & g & (BF & _) & DC & (WM & DM) & FK & _ & MG).
  unfold reset in HR. destruct (clear_pools m pools). injection HR as _ _ <-. unfold lookup_macro. cbn [cx_macros].
  destruct (clear_WF (cx_macros cx) WM) as (W & K & _). rewrite ht_get_spec by auto. rewrite lookup_kv. fold (kv (ht_clear (cx_macros cx))). rewrite K. reflexivity.
Qed.
