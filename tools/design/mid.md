
## 6. Testing the theorems

`tools/mutate.py` applies an edit to one definition of the model in a scratch copy, rebuilds
and records which theorems fail. `seeded/LOG.jsonl` holds one line per seeded fault:
definition, edit, broken claim, failed theorems, tightened theorems. Faults that
survived either led to a tightened theorem (named there) or are explained in the record as
equivalent to the original.

## 7. Findings about the code

Found while modelling; those marked (T) are proved as `_refuted` theorems.

