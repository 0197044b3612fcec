(** The committed BLAS interface files of /repo, transcribed declaration by declaration by
    tools/gen_blas.py (generated: do not edit).  The cited file follows each table; an
    entry stands for the declaration or definition of that name. *)
From Verif Require Import Base BlasIf_Model.
Require Import String.
Local Open Scope string_scope. Local Open Scope list_scope.

(** include/BlasBooster/BlasInterface/FunctionList.yml, section functions_blas *)
Definition functions_blas : list fn := [
  mkFn F32 "scabs1" [(true, C32)];
  mkFn F32 "sasum" [(true, Int); (true, F32); (true, Int)];
  mkFn Void "saxpy" [(true, Int); (true, F32); (true, F32); (true, Int); (false, F32); (true, Int)];
  mkFn Void "saxpby" [(true, Int); (true, F32); (true, F32); (true, Int); (true, F32); (false, F32); (true, Int)];
  mkFn F32 "scasum" [(true, Int); (true, C32); (true, Int)];
  mkFn F32 "scnrm2" [(true, Int); (true, C32); (true, Int)];
  mkFn Void "scopy" [(true, Int); (true, F32); (true, Int); (false, F32); (true, Int)];
  mkFn F32 "sdot" [(true, Int); (true, F32); (true, Int); (true, F32); (true, Int)];
  mkFn F32 "sdsdot" [(true, Int); (true, F32); (true, F32); (true, Int); (true, F32); (true, Int)];
  mkFn F32 "snrm2" [(true, Int); (true, F32); (true, Int)];
  mkFn Void "srot" [(true, Int); (false, F32); (true, Int); (false, F32); (true, Int); (true, F32); (true, F32)];
  mkFn Void "srotg" [(false, F32); (false, F32); (false, F32); (false, F32)];
  mkFn Void "srotm" [(true, Int); (false, F32); (true, Int); (false, F32); (true, Int); (true, F32)];
  mkFn Void "srotmg" [(false, F32); (false, F32); (false, F32); (true, F32); (false, F32)];
  mkFn Void "sscal" [(true, Int); (true, F32); (false, F32); (true, Int)];
  mkFn Void "sswap" [(true, Int); (false, F32); (true, Int); (false, F32); (true, Int)];
  mkFn Int "isamax" [(true, Int); (true, F32); (true, Int)];
  mkFn Int "isamin" [(true, Int); (true, F32); (true, Int)];
  mkFn Void "caxpy" [(true, Int); (true, C32); (true, C32); (true, Int); (false, C32); (true, Int)];
  mkFn Void "caxpby" [(true, Int); (true, C32); (true, C32); (true, Int); (true, C32); (false, C32); (true, Int)];
  mkFn Void "ccopy" [(true, Int); (true, C32); (true, Int); (false, C32); (true, Int)];
  mkFn Void "crotg" [(false, C32); (true, C32); (false, F32); (false, C32)];
  mkFn Void "cscal" [(true, Int); (true, C32); (false, C32); (true, Int)];
  mkFn Void "csrot" [(true, Int); (false, C32); (true, Int); (false, C32); (true, Int); (true, F32); (true, F32)];
  mkFn Void "csscal" [(true, Int); (true, F32); (false, C32); (true, Int)];
  mkFn Void "cswap" [(true, Int); (false, C32); (true, Int); (false, C32); (true, Int)];
  mkFn Int "icamax" [(true, Int); (true, C32); (true, Int)];
  mkFn Int "icamin" [(true, Int); (true, C32); (true, Int)];
  mkFn F64 "dcabs1" [(true, C64)];
  mkFn F64 "dasum" [(true, Int); (true, F64); (true, Int)];
  mkFn Void "daxpy" [(true, Int); (true, F64); (true, F64); (true, Int); (false, F64); (true, Int)];
  mkFn Void "daxpby" [(true, Int); (true, F64); (true, F64); (true, Int); (true, F64); (false, F64); (true, Int)];
  mkFn Void "dcopy" [(true, Int); (true, F64); (true, Int); (false, F64); (true, Int)];
  mkFn F64 "ddot" [(true, Int); (true, F64); (true, Int); (true, F64); (true, Int)];
  mkFn F64 "dsdot" [(true, Int); (true, F32); (true, Int); (true, F32); (true, Int)];
  mkFn F64 "dnrm2" [(true, Int); (true, F64); (true, Int)];
  mkFn Void "drot" [(true, Int); (false, F64); (true, Int); (false, F64); (true, Int); (true, F64); (true, F64)];
  mkFn Void "drotg" [(false, F64); (false, F64); (false, F64); (false, F64)];
  mkFn Void "drotm" [(true, Int); (false, F64); (true, Int); (false, F64); (true, Int); (true, F64)];
  mkFn Void "drotmg" [(false, F64); (false, F64); (false, F64); (true, F64); (false, F64)];
  mkFn Void "dscal" [(true, Int); (true, F64); (false, F64); (true, Int)];
  mkFn Void "dswap" [(true, Int); (false, F64); (true, Int); (false, F64); (true, Int)];
  mkFn F64 "dzasum" [(true, Int); (true, C64); (true, Int)];
  mkFn F64 "dznrm2" [(true, Int); (true, C64); (true, Int)];
  mkFn Int "idamax" [(true, Int); (true, F64); (true, Int)];
  mkFn Int "idamin" [(true, Int); (true, F64); (true, Int)];
  mkFn Void "zaxpy" [(true, Int); (true, C64); (true, C64); (true, Int); (false, C64); (true, Int)];
  mkFn Void "zaxpby" [(true, Int); (true, C64); (true, C64); (true, Int); (true, C64); (false, C64); (true, Int)];
  mkFn Void "zcopy" [(true, Int); (true, C64); (true, Int); (false, C64); (true, Int)];
  mkFn Void "zdrot" [(true, Int); (false, C64); (true, Int); (false, C64); (true, Int); (true, F64); (true, F64)];
  mkFn Void "zdscal" [(true, Int); (true, F64); (false, C64); (true, Int)];
  mkFn Void "zrotg" [(false, C64); (true, C64); (false, F64); (false, C64)];
  mkFn Void "zscal" [(true, Int); (true, C64); (false, C64); (true, Int)];
  mkFn Void "zswap" [(true, Int); (false, C64); (true, Int); (false, C64); (true, Int)];
  mkFn Int "izamax" [(true, Int); (true, C64); (true, Int)];
  mkFn Int "izamin" [(true, Int); (true, C64); (true, Int)];
  mkFn Void "sgbmv" [(true, Char); (true, Int); (true, Int); (true, Int); (true, Int); (true, F32); (true, F32); (true, Int); (true, F32); (true, Int); (true, F32); (false, F32); (true, Int)];
  mkFn Void "sgemv" [(true, Char); (true, Int); (true, Int); (true, F32); (true, F32); (true, Int); (true, F32); (true, Int); (true, F32); (false, F32); (true, Int)];
  mkFn Void "sger" [(true, Int); (true, Int); (true, F32); (true, F32); (true, Int); (true, F32); (true, Int); (false, F32); (true, Int)];
  mkFn Void "ssbmv" [(true, Char); (true, Int); (true, Int); (true, F32); (true, F32); (true, Int); (true, F32); (true, Int); (true, F32); (false, F32); (true, Int)];
  mkFn Void "sspmv" [(true, Char); (true, Int); (true, F32); (true, F32); (true, F32); (true, Int); (true, F32); (false, F32); (true, Int)];
  mkFn Void "sspr" [(true, Char); (true, Int); (true, F32); (true, F32); (true, Int); (false, F32)];
  mkFn Void "sspr2" [(true, Char); (true, Int); (true, F32); (true, F32); (true, Int); (true, F32); (true, Int); (false, F32)];
  mkFn Void "ssymv" [(true, Char); (true, Int); (true, F32); (true, F32); (true, Int); (true, F32); (true, Int); (true, F32); (false, F32); (true, Int)];
  mkFn Void "ssyr" [(true, Char); (true, Int); (true, F32); (true, F32); (true, Int); (false, F32); (true, Int)];
  mkFn Void "ssyr2" [(true, Char); (true, Int); (true, F32); (true, F32); (true, Int); (true, F32); (true, Int); (false, F32); (true, Int)];
  mkFn Void "stbmv" [(true, Char); (true, Char); (true, Char); (true, Int); (true, Int); (true, F32); (true, Int); (false, F32); (true, Int)];
  mkFn Void "stbsv" [(true, Char); (true, Char); (true, Char); (true, Int); (true, Int); (true, F32); (true, Int); (false, F32); (true, Int)];
  mkFn Void "stpmv" [(true, Char); (true, Char); (true, Char); (true, Int); (true, F32); (false, F32); (true, Int)];
  mkFn Void "stpsv" [(true, Char); (true, Char); (true, Char); (true, Int); (true, F32); (false, F32); (true, Int)];
  mkFn Void "strmv" [(true, Char); (true, Char); (true, Char); (true, Int); (true, F32); (true, Int); (false, F32); (true, Int)];
  mkFn Void "strsv" [(true, Char); (true, Char); (true, Char); (true, Int); (true, F32); (true, Int); (false, F32); (true, Int)];
  mkFn Void "cgbmv" [(true, Char); (true, Int); (true, Int); (true, Int); (true, Int); (true, C32); (true, C32); (true, Int); (true, C32); (true, Int); (true, C32); (false, C32); (true, Int)];
  mkFn Void "cgemv" [(true, Char); (true, Int); (true, Int); (true, C32); (true, C32); (true, Int); (true, C32); (true, Int); (true, C32); (false, C32); (true, Int)];
  mkFn Void "cgerc" [(true, Int); (true, Int); (true, C32); (true, C32); (true, Int); (true, C32); (true, Int); (false, C32); (true, Int)];
  mkFn Void "cgeru" [(true, Int); (true, Int); (true, C32); (true, C32); (true, Int); (true, C32); (true, Int); (false, C32); (true, Int)];
  mkFn Void "chbmv" [(true, Char); (true, Int); (true, Int); (true, C32); (true, C32); (true, Int); (true, C32); (true, Int); (true, C32); (false, C32); (true, Int)];
  mkFn Void "chemv" [(true, Char); (true, Int); (true, C32); (true, C32); (true, Int); (true, C32); (true, Int); (true, C32); (false, C32); (true, Int)];
  mkFn Void "cher" [(true, Char); (true, Int); (true, F32); (true, C32); (true, Int); (false, C32); (true, Int)];
  mkFn Void "cher2" [(true, Char); (true, Int); (true, C32); (true, C32); (true, Int); (true, C32); (true, Int); (false, C32); (true, Int)];
  mkFn Void "chpmv" [(true, Char); (true, Int); (true, C32); (true, C32); (true, C32); (true, Int); (true, C32); (false, C32); (true, Int)];
  mkFn Void "chpr" [(true, Char); (true, Int); (true, F32); (true, C32); (true, Int); (false, C32)];
  mkFn Void "chpr2" [(true, Char); (true, Int); (true, C32); (true, C32); (true, Int); (true, C32); (true, Int); (false, C32)];
  mkFn Void "ctbmv" [(true, Char); (true, Char); (true, Char); (true, Int); (true, Int); (true, C32); (true, Int); (false, C32); (true, Int)];
  mkFn Void "ctbsv" [(true, Char); (true, Char); (true, Char); (true, Int); (true, Int); (true, C32); (true, Int); (false, C32); (true, Int)];
  mkFn Void "ctpmv" [(true, Char); (true, Char); (true, Char); (true, Int); (true, C32); (false, C32); (true, Int)];
  mkFn Void "ctpsv" [(true, Char); (true, Char); (true, Char); (true, Int); (true, C32); (false, C32); (true, Int)];
  mkFn Void "ctrmv" [(true, Char); (true, Char); (true, Char); (true, Int); (true, C32); (true, Int); (false, C32); (true, Int)];
  mkFn Void "ctrsv" [(true, Char); (true, Char); (true, Char); (true, Int); (true, C32); (true, Int); (false, C32); (true, Int)];
  mkFn Void "dgbmv" [(true, Char); (true, Int); (true, Int); (true, Int); (true, Int); (true, F64); (true, F64); (true, Int); (true, F64); (true, Int); (true, F64); (false, F64); (true, Int)];
  mkFn Void "dgemv" [(true, Char); (true, Int); (true, Int); (true, F64); (true, F64); (true, Int); (true, F64); (true, Int); (true, F64); (false, F64); (true, Int)];
  mkFn Void "dger" [(true, Int); (true, Int); (true, F64); (true, F64); (true, Int); (true, F64); (true, Int); (false, F64); (true, Int)];
  mkFn Void "dsbmv" [(true, Char); (true, Int); (true, Int); (true, F64); (true, F64); (true, Int); (true, F64); (true, Int); (true, F64); (false, F64); (true, Int)];
  mkFn Void "dspmv" [(true, Char); (true, Int); (true, F64); (true, F64); (true, F64); (true, Int); (true, F64); (false, F64); (true, Int)];
  mkFn Void "dspr" [(true, Char); (true, Int); (true, F64); (true, F64); (true, Int); (false, F64)];
  mkFn Void "dspr2" [(true, Char); (true, Int); (true, F64); (true, F64); (true, Int); (true, F64); (true, Int); (false, F64)];
  mkFn Void "dsymv" [(true, Char); (true, Int); (true, F64); (true, F64); (true, Int); (true, F64); (true, Int); (true, F64); (false, F64); (true, Int)];
  mkFn Void "dsyr" [(true, Char); (true, Int); (true, F64); (true, F64); (true, Int); (false, F64); (true, Int)];
  mkFn Void "dsyr2" [(true, Char); (true, Int); (true, F64); (true, F64); (true, Int); (true, F64); (true, Int); (false, F64); (true, Int)];
  mkFn Void "dtbmv" [(true, Char); (true, Char); (true, Char); (true, Int); (true, Int); (true, F64); (true, Int); (false, F64); (true, Int)];
  mkFn Void "dtbsv" [(true, Char); (true, Char); (true, Char); (true, Int); (true, Int); (true, F64); (true, Int); (false, F64); (true, Int)];
  mkFn Void "dtpmv" [(true, Char); (true, Char); (true, Char); (true, Int); (true, F64); (false, F64); (true, Int)];
  mkFn Void "dtpsv" [(true, Char); (true, Char); (true, Char); (true, Int); (true, F64); (false, F64); (true, Int)];
  mkFn Void "dtrmv" [(true, Char); (true, Char); (true, Char); (true, Int); (true, F64); (true, Int); (false, F64); (true, Int)];
  mkFn Void "dtrsv" [(true, Char); (true, Char); (true, Char); (true, Int); (true, F64); (true, Int); (false, F64); (true, Int)];
  mkFn Void "zgbmv" [(true, Char); (true, Int); (true, Int); (true, Int); (true, Int); (true, C64); (true, C64); (true, Int); (true, C64); (true, Int); (true, C64); (false, C64); (true, Int)];
  mkFn Void "zgemv" [(true, Char); (true, Int); (true, Int); (true, C64); (true, C64); (true, Int); (true, C64); (true, Int); (true, C64); (false, C64); (true, Int)];
  mkFn Void "zgerc" [(true, Int); (true, Int); (true, C64); (true, C64); (true, Int); (true, C64); (true, Int); (false, C64); (true, Int)];
  mkFn Void "zgeru" [(true, Int); (true, Int); (true, C64); (true, C64); (true, Int); (true, C64); (true, Int); (false, C64); (true, Int)];
  mkFn Void "zhbmv" [(true, Char); (true, Int); (true, Int); (true, C64); (true, C64); (true, Int); (true, C64); (true, Int); (true, C64); (false, C64); (true, Int)];
  mkFn Void "zhemv" [(true, Char); (true, Int); (true, C64); (true, C64); (true, Int); (true, C64); (true, Int); (true, C64); (false, C64); (true, Int)];
  mkFn Void "zher" [(true, Char); (true, Int); (true, F64); (true, C64); (true, Int); (false, C64); (true, Int)];
  mkFn Void "zher2" [(true, Char); (true, Int); (true, C64); (true, C64); (true, Int); (true, C64); (true, Int); (false, C64); (true, Int)];
  mkFn Void "zhpmv" [(true, Char); (true, Int); (true, C64); (true, C64); (true, C64); (true, Int); (true, C64); (false, C64); (true, Int)];
  mkFn Void "zhpr" [(true, Char); (true, Int); (true, F64); (true, C64); (true, Int); (false, C64)];
  mkFn Void "zhpr2" [(true, Char); (true, Int); (true, C64); (true, C64); (true, Int); (true, C64); (true, Int); (false, C64)];
  mkFn Void "ztbmv" [(true, Char); (true, Char); (true, Char); (true, Int); (true, Int); (true, C64); (true, Int); (false, C64); (true, Int)];
  mkFn Void "ztbsv" [(true, Char); (true, Char); (true, Char); (true, Int); (true, Int); (true, C64); (true, Int); (false, C64); (true, Int)];
  mkFn Void "ztpmv" [(true, Char); (true, Char); (true, Char); (true, Int); (true, C64); (false, C64); (true, Int)];
  mkFn Void "ztpsv" [(true, Char); (true, Char); (true, Char); (true, Int); (true, C64); (false, C64); (true, Int)];
  mkFn Void "ztrmv" [(true, Char); (true, Char); (true, Char); (true, Int); (true, C64); (true, Int); (false, C64); (true, Int)];
  mkFn Void "ztrsv" [(true, Char); (true, Char); (true, Char); (true, Int); (true, C64); (true, Int); (false, C64); (true, Int)];
  mkFn Void "sgemm" [(true, Char); (true, Char); (true, Int); (true, Int); (true, Int); (true, F32); (true, F32); (true, Int); (true, F32); (true, Int); (true, F32); (false, F32); (true, Int)];
  mkFn Void "ssymm" [(true, Char); (true, Char); (true, Int); (true, Int); (true, F32); (true, F32); (true, Int); (true, F32); (true, Int); (true, F32); (false, F32); (true, Int)];
  mkFn Void "ssyr2k" [(true, Char); (true, Char); (true, Int); (true, Int); (true, F32); (true, F32); (true, Int); (true, F32); (true, Int); (true, F32); (false, F32); (true, Int)];
  mkFn Void "ssyrk" [(true, Char); (true, Char); (true, Int); (true, Int); (true, F32); (true, F32); (true, Int); (true, F32); (false, F32); (true, Int)];
  mkFn Void "strmm" [(true, Char); (true, Char); (true, Char); (true, Char); (true, Int); (true, Int); (true, F32); (true, F32); (true, Int); (false, F32); (true, Int)];
  mkFn Void "strsm" [(true, Char); (true, Char); (true, Char); (true, Char); (true, Int); (true, Int); (true, F32); (true, F32); (true, Int); (false, F32); (true, Int)];
  mkFn Void "cgemm" [(true, Char); (true, Char); (true, Int); (true, Int); (true, Int); (true, C32); (true, C32); (true, Int); (true, C32); (true, Int); (true, C32); (false, C32); (true, Int)];
  mkFn Void "cgemm3m" [(true, Char); (true, Char); (true, Int); (true, Int); (true, Int); (true, C32); (true, C32); (true, Int); (true, C32); (true, Int); (true, C32); (false, C32); (true, Int)];
  mkFn Void "chemm" [(true, Char); (true, Char); (true, Int); (true, Int); (true, C32); (true, C32); (true, Int); (true, C32); (true, Int); (true, C32); (false, C32); (true, Int)];
  mkFn Void "cher2k" [(true, Char); (true, Char); (true, Int); (true, Int); (true, C32); (true, C32); (true, Int); (true, C32); (true, Int); (true, F32); (false, C32); (true, Int)];
  mkFn Void "cherk" [(true, Char); (true, Char); (true, Int); (true, Int); (true, F32); (true, C32); (true, Int); (true, F32); (false, C32); (true, Int)];
  mkFn Void "csymm" [(true, Char); (true, Char); (true, Int); (true, Int); (true, C32); (true, C32); (true, Int); (true, C32); (true, Int); (true, C32); (false, C32); (true, Int)];
  mkFn Void "csyr2k" [(true, Char); (true, Char); (true, Int); (true, Int); (true, C32); (true, C32); (true, Int); (true, C32); (true, Int); (true, C32); (false, C32); (true, Int)];
  mkFn Void "csyrk" [(true, Char); (true, Char); (true, Int); (true, Int); (true, C32); (true, C32); (true, Int); (true, C32); (false, C32); (true, Int)];
  mkFn Void "ctrmm" [(true, Char); (true, Char); (true, Char); (true, Char); (true, Int); (true, Int); (true, C32); (true, C32); (true, Int); (false, C32); (true, Int)];
  mkFn Void "ctrsm" [(true, Char); (true, Char); (true, Char); (true, Char); (true, Int); (true, Int); (true, C32); (true, C32); (true, Int); (false, C32); (true, Int)];
  mkFn Void "dgemm" [(true, Char); (true, Char); (true, Int); (true, Int); (true, Int); (true, F64); (true, F64); (true, Int); (true, F64); (true, Int); (true, F64); (false, F64); (true, Int)];
  mkFn Void "dsymm" [(true, Char); (true, Char); (true, Int); (true, Int); (true, F64); (true, F64); (true, Int); (true, F64); (true, Int); (true, F64); (false, F64); (true, Int)];
  mkFn Void "dsyr2k" [(true, Char); (true, Char); (true, Int); (true, Int); (true, F64); (true, F64); (true, Int); (true, F64); (true, Int); (true, F64); (false, F64); (true, Int)];
  mkFn Void "dsyrk" [(true, Char); (true, Char); (true, Int); (true, Int); (true, F64); (true, F64); (true, Int); (true, F64); (false, F64); (true, Int)];
  mkFn Void "dtrmm" [(true, Char); (true, Char); (true, Char); (true, Char); (true, Int); (true, Int); (true, F64); (true, F64); (true, Int); (false, F64); (true, Int)];
  mkFn Void "dtrsm" [(true, Char); (true, Char); (true, Char); (true, Char); (true, Int); (true, Int); (true, F64); (true, F64); (true, Int); (false, F64); (true, Int)];
  mkFn Void "zgemm" [(true, Char); (true, Char); (true, Int); (true, Int); (true, Int); (true, C64); (true, C64); (true, Int); (true, C64); (true, Int); (true, C64); (false, C64); (true, Int)];
  mkFn Void "zgemm3m" [(true, Char); (true, Char); (true, Int); (true, Int); (true, Int); (true, C64); (true, C64); (true, Int); (true, C64); (true, Int); (true, C64); (false, C64); (true, Int)];
  mkFn Void "zhemm" [(true, Char); (true, Char); (true, Int); (true, Int); (true, C64); (true, C64); (true, Int); (true, C64); (true, Int); (true, C64); (false, C64); (true, Int)];
  mkFn Void "zher2k" [(true, Char); (true, Char); (true, Int); (true, Int); (true, C64); (true, C64); (true, Int); (true, C64); (true, Int); (true, F64); (false, C64); (true, Int)];
  mkFn Void "zherk" [(true, Char); (true, Char); (true, Int); (true, Int); (true, F64); (true, C64); (true, Int); (true, F64); (false, C64); (true, Int)];
  mkFn Void "zsymm" [(true, Char); (true, Char); (true, Int); (true, Int); (true, C64); (true, C64); (true, Int); (true, C64); (true, Int); (true, C64); (false, C64); (true, Int)];
  mkFn Void "zsyr2k" [(true, Char); (true, Char); (true, Int); (true, Int); (true, C64); (true, C64); (true, Int); (true, C64); (true, Int); (true, C64); (false, C64); (true, Int)];
  mkFn Void "zsyrk" [(true, Char); (true, Char); (true, Int); (true, Int); (true, C64); (true, C64); (true, Int); (true, C64); (false, C64); (true, Int)];
  mkFn Void "ztrmm" [(true, Char); (true, Char); (true, Char); (true, Char); (true, Int); (true, Int); (true, C64); (true, C64); (true, Int); (false, C64); (true, Int)];
  mkFn Void "ztrsm" [(true, Char); (true, Char); (true, Char); (true, Char); (true, Int); (true, Int); (true, C64); (true, C64); (true, Int); (false, C64); (true, Int)]
].

(** include/BlasBooster/BlasInterface/FunctionList.yml, section functions_blas_zdot *)
Definition functions_blas_zdot : list fn := [
  mkFn C32 "cdotc" [(true, Int); (true, C32); (true, Int); (true, C32); (true, Int)];
  mkFn C32 "cdotu" [(true, Int); (true, C32); (true, Int); (true, C32); (true, Int)];
  mkFn C64 "zdotc" [(true, Int); (true, C64); (true, Int); (true, C64); (true, Int)];
  mkFn C64 "zdotu" [(true, Int); (true, C64); (true, Int); (true, C64); (true, Int)]
].

(** include/BlasBooster/BlasInterface/FunctionList.yml, section functions_blas_zdot_no_return *)
Definition functions_blas_zdot_no_return : list fn := [
  mkFn Void "cdotc" [(false, C32); (true, Int); (true, C32); (true, Int); (true, C32); (true, Int)];
  mkFn Void "cdotu" [(false, C32); (true, Int); (true, C32); (true, Int); (true, C32); (true, Int)];
  mkFn Void "zdotc" [(false, C64); (true, Int); (true, C64); (true, Int); (true, C64); (true, Int)];
  mkFn Void "zdotu" [(false, C64); (true, Int); (true, C64); (true, Int); (true, C64); (true, Int)]
].

(** include/BlasBooster/BlasInterface/FunctionList.yml, section functions_spblas *)
Definition functions_spblas : list fn := [
  mkFn Void "dcsrmm" [(true, Char); (true, Int); (true, Int); (true, Int); (true, F64); (true, Char); (true, F64); (true, Int); (true, Int); (true, Int); (true, F64); (true, Int); (true, F64); (false, F64); (true, Int)];
  mkFn Void "dcsrmultcsr" [(true, Char); (true, Int); (true, Int); (true, Int); (true, Int); (true, Int); (false, F64); (false, Int); (false, Int); (false, F64); (false, Int); (false, Int); (false, F64); (false, Int); (false, Int); (true, Int); (false, Int)];
  mkFn Void "scsrmm" [(true, Char); (true, Int); (true, Int); (true, Int); (true, F32); (true, Char); (true, F32); (true, Int); (true, Int); (true, Int); (true, F32); (true, Int); (true, F32); (false, F32); (true, Int)];
  mkFn Void "scsrmultcsr" [(true, Char); (true, Int); (true, Int); (true, Int); (true, Int); (true, Int); (false, F32); (false, Int); (false, Int); (false, F32); (false, Int); (false, Int); (false, F32); (false, Int); (false, Int); (true, Int); (false, Int)]
].

(** src/Interfaces/OpenBLAS/BlasInterface_OpenBLAS.cpp *)
Definition openblas_cpp : list wrapper := [
  mkW F32 "scabs1" [((true, C32), "v0")] (RetCall "scabs1_" [Var "v0"]);
  mkW F32 "sasum" [((true, Int), "v0"); ((true, F32), "v1"); ((true, Int), "v2")] (RetCall "sasum_" [Var "v0"; Var "v1"; Var "v2"]);
  mkW Void "saxpy" [((true, Int), "v0"); ((true, F32), "v1"); ((true, F32), "v2"); ((true, Int), "v3"); ((false, F32), "v4"); ((true, Int), "v5")] (RetCall "saxpy_" [Var "v0"; Var "v1"; Var "v2"; Var "v3"; Var "v4"; Var "v5"]);
  mkW Void "saxpby" [((true, Int), "v0"); ((true, F32), "v1"); ((true, F32), "v2"); ((true, Int), "v3"); ((true, F32), "v4"); ((false, F32), "v5"); ((true, Int), "v6")] (RetCall "saxpby_" [Var "v0"; Var "v1"; Var "v2"; Var "v3"; Var "v4"; Var "v5"; Var "v6"]);
  mkW F32 "scasum" [((true, Int), "v0"); ((true, C32), "v1"); ((true, Int), "v2")] (RetCall "scasum_" [Var "v0"; Var "v1"; Var "v2"]);
  mkW F32 "scnrm2" [((true, Int), "v0"); ((true, C32), "v1"); ((true, Int), "v2")] (RetCall "scnrm2_" [Var "v0"; Var "v1"; Var "v2"]);
  mkW Void "scopy" [((true, Int), "v0"); ((true, F32), "v1"); ((true, Int), "v2"); ((false, F32), "v3"); ((true, Int), "v4")] (RetCall "scopy_" [Var "v0"; Var "v1"; Var "v2"; Var "v3"; Var "v4"]);
  mkW F32 "sdot" [((true, Int), "v0"); ((true, F32), "v1"); ((true, Int), "v2"); ((true, F32), "v3"); ((true, Int), "v4")] (RetCall "sdot_" [Var "v0"; Var "v1"; Var "v2"; Var "v3"; Var "v4"]);
  mkW F32 "sdsdot" [((true, Int), "v0"); ((true, F32), "v1"); ((true, F32), "v2"); ((true, Int), "v3"); ((true, F32), "v4"); ((true, Int), "v5")] (RetCall "sdsdot_" [Var "v0"; Var "v1"; Var "v2"; Var "v3"; Var "v4"; Var "v5"]);
  mkW F32 "snrm2" [((true, Int), "v0"); ((true, F32), "v1"); ((true, Int), "v2")] (RetCall "snrm2_" [Var "v0"; Var "v1"; Var "v2"]);
  mkW Void "srot" [((true, Int), "v0"); ((false, F32), "v1"); ((true, Int), "v2"); ((false, F32), "v3"); ((true, Int), "v4"); ((true, F32), "v5"); ((true, F32), "v6")] (RetCall "srot_" [Var "v0"; Var "v1"; Var "v2"; Var "v3"; Var "v4"; Var "v5"; Var "v6"]);
  mkW Void "srotg" [((false, F32), "v0"); ((false, F32), "v1"); ((false, F32), "v2"); ((false, F32), "v3")] (RetCall "srotg_" [Var "v0"; Var "v1"; Var "v2"; Var "v3"]);
  mkW Void "srotm" [((true, Int), "v0"); ((false, F32), "v1"); ((true, Int), "v2"); ((false, F32), "v3"); ((true, Int), "v4"); ((true, F32), "v5")] (RetCall "srotm_" [Var "v0"; Var "v1"; Var "v2"; Var "v3"; Var "v4"; Var "v5"]);
  mkW Void "srotmg" [((false, F32), "v0"); ((false, F32), "v1"); ((false, F32), "v2"); ((true, F32), "v3"); ((false, F32), "v4")] (RetCall "srotmg_" [Var "v0"; Var "v1"; Var "v2"; Var "v3"; Var "v4"]);
  mkW Void "sscal" [((true, Int), "v0"); ((true, F32), "v1"); ((false, F32), "v2"); ((true, Int), "v3")] (RetCall "sscal_" [Var "v0"; Var "v1"; Var "v2"; Var "v3"]);
  mkW Void "sswap" [((true, Int), "v0"); ((false, F32), "v1"); ((true, Int), "v2"); ((false, F32), "v3"); ((true, Int), "v4")] (RetCall "sswap_" [Var "v0"; Var "v1"; Var "v2"; Var "v3"; Var "v4"]);
  mkW Int "isamax" [((true, Int), "v0"); ((true, F32), "v1"); ((true, Int), "v2")] (RetCall "isamax_" [Var "v0"; Var "v1"; Var "v2"]);
  mkW Int "isamin" [((true, Int), "v0"); ((true, F32), "v1"); ((true, Int), "v2")] (RetCall "isamin_" [Var "v0"; Var "v1"; Var "v2"]);
  mkW Void "caxpy" [((true, Int), "v0"); ((true, C32), "v1"); ((true, C32), "v2"); ((true, Int), "v3"); ((false, C32), "v4"); ((true, Int), "v5")] (RetCall "caxpy_" [Var "v0"; Var "v1"; Var "v2"; Var "v3"; Var "v4"; Var "v5"]);
  mkW Void "caxpby" [((true, Int), "v0"); ((true, C32), "v1"); ((true, C32), "v2"); ((true, Int), "v3"); ((true, C32), "v4"); ((false, C32), "v5"); ((true, Int), "v6")] (RetCall "caxpby_" [Var "v0"; Var "v1"; Var "v2"; Var "v3"; Var "v4"; Var "v5"; Var "v6"]);
  mkW Void "ccopy" [((true, Int), "v0"); ((true, C32), "v1"); ((true, Int), "v2"); ((false, C32), "v3"); ((true, Int), "v4")] (RetCall "ccopy_" [Var "v0"; Var "v1"; Var "v2"; Var "v3"; Var "v4"]);
  mkW Void "crotg" [((false, C32), "v0"); ((true, C32), "v1"); ((false, F32), "v2"); ((false, C32), "v3")] (RetCall "crotg_" [Var "v0"; Var "v1"; Var "v2"; Var "v3"]);
  mkW Void "cscal" [((true, Int), "v0"); ((true, C32), "v1"); ((false, C32), "v2"); ((true, Int), "v3")] (RetCall "cscal_" [Var "v0"; Var "v1"; Var "v2"; Var "v3"]);
  mkW Void "csrot" [((true, Int), "v0"); ((false, C32), "v1"); ((true, Int), "v2"); ((false, C32), "v3"); ((true, Int), "v4"); ((true, F32), "v5"); ((true, F32), "v6")] (RetCall "csrot_" [Var "v0"; Var "v1"; Var "v2"; Var "v3"; Var "v4"; Var "v5"; Var "v6"]);
  mkW Void "csscal" [((true, Int), "v0"); ((true, F32), "v1"); ((false, C32), "v2"); ((true, Int), "v3")] (RetCall "csscal_" [Var "v0"; Var "v1"; Var "v2"; Var "v3"]);
  mkW Void "cswap" [((true, Int), "v0"); ((false, C32), "v1"); ((true, Int), "v2"); ((false, C32), "v3"); ((true, Int), "v4")] (RetCall "cswap_" [Var "v0"; Var "v1"; Var "v2"; Var "v3"; Var "v4"]);
  mkW Int "icamax" [((true, Int), "v0"); ((true, C32), "v1"); ((true, Int), "v2")] (RetCall "icamax_" [Var "v0"; Var "v1"; Var "v2"]);
  mkW Int "icamin" [((true, Int), "v0"); ((true, C32), "v1"); ((true, Int), "v2")] (RetCall "icamin_" [Var "v0"; Var "v1"; Var "v2"]);
  mkW F64 "dcabs1" [((true, C64), "v0")] (RetCall "dcabs1_" [Var "v0"]);
  mkW F64 "dasum" [((true, Int), "v0"); ((true, F64), "v1"); ((true, Int), "v2")] (RetCall "dasum_" [Var "v0"; Var "v1"; Var "v2"]);
  mkW Void "daxpy" [((true, Int), "v0"); ((true, F64), "v1"); ((true, F64), "v2"); ((true, Int), "v3"); ((false, F64), "v4"); ((true, Int), "v5")] (RetCall "daxpy_" [Var "v0"; Var "v1"; Var "v2"; Var "v3"; Var "v4"; Var "v5"]);
  mkW Void "daxpby" [((true, Int), "v0"); ((true, F64), "v1"); ((true, F64), "v2"); ((true, Int), "v3"); ((true, F64), "v4"); ((false, F64), "v5"); ((true, Int), "v6")] (RetCall "daxpby_" [Var "v0"; Var "v1"; Var "v2"; Var "v3"; Var "v4"; Var "v5"; Var "v6"]);
  mkW Void "dcopy" [((true, Int), "v0"); ((true, F64), "v1"); ((true, Int), "v2"); ((false, F64), "v3"); ((true, Int), "v4")] (RetCall "dcopy_" [Var "v0"; Var "v1"; Var "v2"; Var "v3"; Var "v4"]);
  mkW F64 "ddot" [((true, Int), "v0"); ((true, F64), "v1"); ((true, Int), "v2"); ((true, F64), "v3"); ((true, Int), "v4")] (RetCall "ddot_" [Var "v0"; Var "v1"; Var "v2"; Var "v3"; Var "v4"]);
  mkW F64 "dsdot" [((true, Int), "v0"); ((true, F32), "v1"); ((true, Int), "v2"); ((true, F32), "v3"); ((true, Int), "v4")] (RetCall "dsdot_" [Var "v0"; Var "v1"; Var "v2"; Var "v3"; Var "v4"]);
  mkW F64 "dnrm2" [((true, Int), "v0"); ((true, F64), "v1"); ((true, Int), "v2")] (RetCall "dnrm2_" [Var "v0"; Var "v1"; Var "v2"]);
  mkW Void "drot" [((true, Int), "v0"); ((false, F64), "v1"); ((true, Int), "v2"); ((false, F64), "v3"); ((true, Int), "v4"); ((true, F64), "v5"); ((true, F64), "v6")] (RetCall "drot_" [Var "v0"; Var "v1"; Var "v2"; Var "v3"; Var "v4"; Var "v5"; Var "v6"]);
  mkW Void "drotg" [((false, F64), "v0"); ((false, F64), "v1"); ((false, F64), "v2"); ((false, F64), "v3")] (RetCall "drotg_" [Var "v0"; Var "v1"; Var "v2"; Var "v3"]);
  mkW Void "drotm" [((true, Int), "v0"); ((false, F64), "v1"); ((true, Int), "v2"); ((false, F64), "v3"); ((true, Int), "v4"); ((true, F64), "v5")] (RetCall "drotm_" [Var "v0"; Var "v1"; Var "v2"; Var "v3"; Var "v4"; Var "v5"]);
  mkW Void "drotmg" [((false, F64), "v0"); ((false, F64), "v1"); ((false, F64), "v2"); ((true, F64), "v3"); ((false, F64), "v4")] (RetCall "drotmg_" [Var "v0"; Var "v1"; Var "v2"; Var "v3"; Var "v4"]);
  mkW Void "dscal" [((true, Int), "v0"); ((true, F64), "v1"); ((false, F64), "v2"); ((true, Int), "v3")] (RetCall "dscal_" [Var "v0"; Var "v1"; Var "v2"; Var "v3"]);
  mkW Void "dswap" [((true, Int), "v0"); ((false, F64), "v1"); ((true, Int), "v2"); ((false, F64), "v3"); ((true, Int), "v4")] (RetCall "dswap_" [Var "v0"; Var "v1"; Var "v2"; Var "v3"; Var "v4"]);
  mkW F64 "dzasum" [((true, Int), "v0"); ((true, C64), "v1"); ((true, Int), "v2")] (RetCall "dzasum_" [Var "v0"; Var "v1"; Var "v2"]);
  mkW F64 "dznrm2" [((true, Int), "v0"); ((true, C64), "v1"); ((true, Int), "v2")] (RetCall "dznrm2_" [Var "v0"; Var "v1"; Var "v2"]);
  mkW Int "idamax" [((true, Int), "v0"); ((true, F64), "v1"); ((true, Int), "v2")] (RetCall "idamax_" [Var "v0"; Var "v1"; Var "v2"]);
  mkW Int "idamin" [((true, Int), "v0"); ((true, F64), "v1"); ((true, Int), "v2")] (RetCall "idamin_" [Var "v0"; Var "v1"; Var "v2"]);
  mkW Void "zaxpy" [((true, Int), "v0"); ((true, C64), "v1"); ((true, C64), "v2"); ((true, Int), "v3"); ((false, C64), "v4"); ((true, Int), "v5")] (RetCall "zaxpy_" [Var "v0"; Var "v1"; Var "v2"; Var "v3"; Var "v4"; Var "v5"]);
  mkW Void "zaxpby" [((true, Int), "v0"); ((true, C64), "v1"); ((true, C64), "v2"); ((true, Int), "v3"); ((true, C64), "v4"); ((false, C64), "v5"); ((true, Int), "v6")] (RetCall "zaxpby_" [Var "v0"; Var "v1"; Var "v2"; Var "v3"; Var "v4"; Var "v5"; Var "v6"]);
  mkW Void "zcopy" [((true, Int), "v0"); ((true, C64), "v1"); ((true, Int), "v2"); ((false, C64), "v3"); ((true, Int), "v4")] (RetCall "zcopy_" [Var "v0"; Var "v1"; Var "v2"; Var "v3"; Var "v4"]);
  mkW Void "zdrot" [((true, Int), "v0"); ((false, C64), "v1"); ((true, Int), "v2"); ((false, C64), "v3"); ((true, Int), "v4"); ((true, F64), "v5"); ((true, F64), "v6")] (RetCall "zdrot_" [Var "v0"; Var "v1"; Var "v2"; Var "v3"; Var "v4"; Var "v5"; Var "v6"]);
  mkW Void "zdscal" [((true, Int), "v0"); ((true, F64), "v1"); ((false, C64), "v2"); ((true, Int), "v3")] (RetCall "zdscal_" [Var "v0"; Var "v1"; Var "v2"; Var "v3"]);
  mkW Void "zrotg" [((false, C64), "v0"); ((true, C64), "v1"); ((false, F64), "v2"); ((false, C64), "v3")] (RetCall "zrotg_" [Var "v0"; Var "v1"; Var "v2"; Var "v3"]);
  mkW Void "zscal" [((true, Int), "v0"); ((true, C64), "v1"); ((false, C64), "v2"); ((true, Int), "v3")] (RetCall "zscal_" [Var "v0"; Var "v1"; Var "v2"; Var "v3"]);
  mkW Void "zswap" [((true, Int), "v0"); ((false, C64), "v1"); ((true, Int), "v2"); ((false, C64), "v3"); ((true, Int), "v4")] (RetCall "zswap_" [Var "v0"; Var "v1"; Var "v2"; Var "v3"; Var "v4"]);
  mkW Int "izamax" [((true, Int), "v0"); ((true, C64), "v1"); ((true, Int), "v2")] (RetCall "izamax_" [Var "v0"; Var "v1"; Var "v2"]);
  mkW Int "izamin" [((true, Int), "v0"); ((true, C64), "v1"); ((true, Int), "v2")] (RetCall "izamin_" [Var "v0"; Var "v1"; Var "v2"]);
  mkW Void "sgbmv" [((true, Char), "v0"); ((true, Int), "v1"); ((true, Int), "v2"); ((true, Int), "v3"); ((true, Int), "v4"); ((true, F32), "v5"); ((true, F32), "v6"); ((true, Int), "v7"); ((true, F32), "v8"); ((true, Int), "v9"); ((true, F32), "v10"); ((false, F32), "v11"); ((true, Int), "v12")] (RetCall "sgbmv_" [Var "v0"; Var "v1"; Var "v2"; Var "v3"; Var "v4"; Var "v5"; Var "v6"; Var "v7"; Var "v8"; Var "v9"; Var "v10"; Var "v11"; Var "v12"]);
  mkW Void "sgemv" [((true, Char), "v0"); ((true, Int), "v1"); ((true, Int), "v2"); ((true, F32), "v3"); ((true, F32), "v4"); ((true, Int), "v5"); ((true, F32), "v6"); ((true, Int), "v7"); ((true, F32), "v8"); ((false, F32), "v9"); ((true, Int), "v10")] (RetCall "sgemv_" [Var "v0"; Var "v1"; Var "v2"; Var "v3"; Var "v4"; Var "v5"; Var "v6"; Var "v7"; Var "v8"; Var "v9"; Var "v10"]);
  mkW Void "sger" [((true, Int), "v0"); ((true, Int), "v1"); ((true, F32), "v2"); ((true, F32), "v3"); ((true, Int), "v4"); ((true, F32), "v5"); ((true, Int), "v6"); ((false, F32), "v7"); ((true, Int), "v8")] (RetCall "sger_" [Var "v0"; Var "v1"; Var "v2"; Var "v3"; Var "v4"; Var "v5"; Var "v6"; Var "v7"; Var "v8"]);
  mkW Void "ssbmv" [((true, Char), "v0"); ((true, Int), "v1"); ((true, Int), "v2"); ((true, F32), "v3"); ((true, F32), "v4"); ((true, Int), "v5"); ((true, F32), "v6"); ((true, Int), "v7"); ((true, F32), "v8"); ((false, F32), "v9"); ((true, Int), "v10")] (RetCall "ssbmv_" [Var "v0"; Var "v1"; Var "v2"; Var "v3"; Var "v4"; Var "v5"; Var "v6"; Var "v7"; Var "v8"; Var "v9"; Var "v10"]);
  mkW Void "sspmv" [((true, Char), "v0"); ((true, Int), "v1"); ((true, F32), "v2"); ((true, F32), "v3"); ((true, F32), "v4"); ((true, Int), "v5"); ((true, F32), "v6"); ((false, F32), "v7"); ((true, Int), "v8")] (RetCall "sspmv_" [Var "v0"; Var "v1"; Var "v2"; Var "v3"; Var "v4"; Var "v5"; Var "v6"; Var "v7"; Var "v8"]);
  mkW Void "sspr" [((true, Char), "v0"); ((true, Int), "v1"); ((true, F32), "v2"); ((true, F32), "v3"); ((true, Int), "v4"); ((false, F32), "v5")] (RetCall "sspr_" [Var "v0"; Var "v1"; Var "v2"; Var "v3"; Var "v4"; Var "v5"]);
  mkW Void "sspr2" [((true, Char), "v0"); ((true, Int), "v1"); ((true, F32), "v2"); ((true, F32), "v3"); ((true, Int), "v4"); ((true, F32), "v5"); ((true, Int), "v6"); ((false, F32), "v7")] (RetCall "sspr2_" [Var "v0"; Var "v1"; Var "v2"; Var "v3"; Var "v4"; Var "v5"; Var "v6"; Var "v7"]);
  mkW Void "ssymv" [((true, Char), "v0"); ((true, Int), "v1"); ((true, F32), "v2"); ((true, F32), "v3"); ((true, Int), "v4"); ((true, F32), "v5"); ((true, Int), "v6"); ((true, F32), "v7"); ((false, F32), "v8"); ((true, Int), "v9")] (RetCall "ssymv_" [Var "v0"; Var "v1"; Var "v2"; Var "v3"; Var "v4"; Var "v5"; Var "v6"; Var "v7"; Var "v8"; Var "v9"]);
  mkW Void "ssyr" [((true, Char), "v0"); ((true, Int), "v1"); ((true, F32), "v2"); ((true, F32), "v3"); ((true, Int), "v4"); ((false, F32), "v5"); ((true, Int), "v6")] (RetCall "ssyr_" [Var "v0"; Var "v1"; Var "v2"; Var "v3"; Var "v4"; Var "v5"; Var "v6"]);
  mkW Void "ssyr2" [((true, Char), "v0"); ((true, Int), "v1"); ((true, F32), "v2"); ((true, F32), "v3"); ((true, Int), "v4"); ((true, F32), "v5"); ((true, Int), "v6"); ((false, F32), "v7"); ((true, Int), "v8")] (RetCall "ssyr2_" [Var "v0"; Var "v1"; Var "v2"; Var "v3"; Var "v4"; Var "v5"; Var "v6"; Var "v7"; Var "v8"]);
  mkW Void "stbmv" [((true, Char), "v0"); ((true, Char), "v1"); ((true, Char), "v2"); ((true, Int), "v3"); ((true, Int), "v4"); ((true, F32), "v5"); ((true, Int), "v6"); ((false, F32), "v7"); ((true, Int), "v8")] (RetCall "stbmv_" [Var "v0"; Var "v1"; Var "v2"; Var "v3"; Var "v4"; Var "v5"; Var "v6"; Var "v7"; Var "v8"]);
  mkW Void "stbsv" [((true, Char), "v0"); ((true, Char), "v1"); ((true, Char), "v2"); ((true, Int), "v3"); ((true, Int), "v4"); ((true, F32), "v5"); ((true, Int), "v6"); ((false, F32), "v7"); ((true, Int), "v8")] (RetCall "stbsv_" [Var "v0"; Var "v1"; Var "v2"; Var "v3"; Var "v4"; Var "v5"; Var "v6"; Var "v7"; Var "v8"]);
  mkW Void "stpmv" [((true, Char), "v0"); ((true, Char), "v1"); ((true, Char), "v2"); ((true, Int), "v3"); ((true, F32), "v4"); ((false, F32), "v5"); ((true, Int), "v6")] (RetCall "stpmv_" [Var "v0"; Var "v1"; Var "v2"; Var "v3"; Var "v4"; Var "v5"; Var "v6"]);
  mkW Void "stpsv" [((true, Char), "v0"); ((true, Char), "v1"); ((true, Char), "v2"); ((true, Int), "v3"); ((true, F32), "v4"); ((false, F32), "v5"); ((true, Int), "v6")] (RetCall "stpsv_" [Var "v0"; Var "v1"; Var "v2"; Var "v3"; Var "v4"; Var "v5"; Var "v6"]);
  mkW Void "strmv" [((true, Char), "v0"); ((true, Char), "v1"); ((true, Char), "v2"); ((true, Int), "v3"); ((true, F32), "v4"); ((true, Int), "v5"); ((false, F32), "v6"); ((true, Int), "v7")] (RetCall "strmv_" [Var "v0"; Var "v1"; Var "v2"; Var "v3"; Var "v4"; Var "v5"; Var "v6"; Var "v7"]);
  mkW Void "strsv" [((true, Char), "v0"); ((true, Char), "v1"); ((true, Char), "v2"); ((true, Int), "v3"); ((true, F32), "v4"); ((true, Int), "v5"); ((false, F32), "v6"); ((true, Int), "v7")] (RetCall "strsv_" [Var "v0"; Var "v1"; Var "v2"; Var "v3"; Var "v4"; Var "v5"; Var "v6"; Var "v7"]);
  mkW Void "cgbmv" [((true, Char), "v0"); ((true, Int), "v1"); ((true, Int), "v2"); ((true, Int), "v3"); ((true, Int), "v4"); ((true, C32), "v5"); ((true, C32), "v6"); ((true, Int), "v7"); ((true, C32), "v8"); ((true, Int), "v9"); ((true, C32), "v10"); ((false, C32), "v11"); ((true, Int), "v12")] (RetCall "cgbmv_" [Var "v0"; Var "v1"; Var "v2"; Var "v3"; Var "v4"; Var "v5"; Var "v6"; Var "v7"; Var "v8"; Var "v9"; Var "v10"; Var "v11"; Var "v12"]);
  mkW Void "cgemv" [((true, Char), "v0"); ((true, Int), "v1"); ((true, Int), "v2"); ((true, C32), "v3"); ((true, C32), "v4"); ((true, Int), "v5"); ((true, C32), "v6"); ((true, Int), "v7"); ((true, C32), "v8"); ((false, C32), "v9"); ((true, Int), "v10")] (RetCall "cgemv_" [Var "v0"; Var "v1"; Var "v2"; Var "v3"; Var "v4"; Var "v5"; Var "v6"; Var "v7"; Var "v8"; Var "v9"; Var "v10"]);
  mkW Void "cgerc" [((true, Int), "v0"); ((true, Int), "v1"); ((true, C32), "v2"); ((true, C32), "v3"); ((true, Int), "v4"); ((true, C32), "v5"); ((true, Int), "v6"); ((false, C32), "v7"); ((true, Int), "v8")] (RetCall "cgerc_" [Var "v0"; Var "v1"; Var "v2"; Var "v3"; Var "v4"; Var "v5"; Var "v6"; Var "v7"; Var "v8"]);
  mkW Void "cgeru" [((true, Int), "v0"); ((true, Int), "v1"); ((true, C32), "v2"); ((true, C32), "v3"); ((true, Int), "v4"); ((true, C32), "v5"); ((true, Int), "v6"); ((false, C32), "v7"); ((true, Int), "v8")] (RetCall "cgeru_" [Var "v0"; Var "v1"; Var "v2"; Var "v3"; Var "v4"; Var "v5"; Var "v6"; Var "v7"; Var "v8"]);
  mkW Void "chbmv" [((true, Char), "v0"); ((true, Int), "v1"); ((true, Int), "v2"); ((true, C32), "v3"); ((true, C32), "v4"); ((true, Int), "v5"); ((true, C32), "v6"); ((true, Int), "v7"); ((true, C32), "v8"); ((false, C32), "v9"); ((true, Int), "v10")] (RetCall "chbmv_" [Var "v0"; Var "v1"; Var "v2"; Var "v3"; Var "v4"; Var "v5"; Var "v6"; Var "v7"; Var "v8"; Var "v9"; Var "v10"]);
  mkW Void "chemv" [((true, Char), "v0"); ((true, Int), "v1"); ((true, C32), "v2"); ((true, C32), "v3"); ((true, Int), "v4"); ((true, C32), "v5"); ((true, Int), "v6"); ((true, C32), "v7"); ((false, C32), "v8"); ((true, Int), "v9")] (RetCall "chemv_" [Var "v0"; Var "v1"; Var "v2"; Var "v3"; Var "v4"; Var "v5"; Var "v6"; Var "v7"; Var "v8"; Var "v9"]);
  mkW Void "cher" [((true, Char), "v0"); ((true, Int), "v1"); ((true, F32), "v2"); ((true, C32), "v3"); ((true, Int), "v4"); ((false, C32), "v5"); ((true, Int), "v6")] (RetCall "cher_" [Var "v0"; Var "v1"; Var "v2"; Var "v3"; Var "v4"; Var "v5"; Var "v6"]);
  mkW Void "cher2" [((true, Char), "v0"); ((true, Int), "v1"); ((true, C32), "v2"); ((true, C32), "v3"); ((true, Int), "v4"); ((true, C32), "v5"); ((true, Int), "v6"); ((false, C32), "v7"); ((true, Int), "v8")] (RetCall "cher2_" [Var "v0"; Var "v1"; Var "v2"; Var "v3"; Var "v4"; Var "v5"; Var "v6"; Var "v7"; Var "v8"]);
  mkW Void "chpmv" [((true, Char), "v0"); ((true, Int), "v1"); ((true, C32), "v2"); ((true, C32), "v3"); ((true, C32), "v4"); ((true, Int), "v5"); ((true, C32), "v6"); ((false, C32), "v7"); ((true, Int), "v8")] (RetCall "chpmv_" [Var "v0"; Var "v1"; Var "v2"; Var "v3"; Var "v4"; Var "v5"; Var "v6"; Var "v7"; Var "v8"]);
  mkW Void "chpr" [((true, Char), "v0"); ((true, Int), "v1"); ((true, F32), "v2"); ((true, C32), "v3"); ((true, Int), "v4"); ((false, C32), "v5")] (RetCall "chpr_" [Var "v0"; Var "v1"; Var "v2"; Var "v3"; Var "v4"; Var "v5"]);
  mkW Void "chpr2" [((true, Char), "v0"); ((true, Int), "v1"); ((true, C32), "v2"); ((true, C32), "v3"); ((true, Int), "v4"); ((true, C32), "v5"); ((true, Int), "v6"); ((false, C32), "v7")] (RetCall "chpr2_" [Var "v0"; Var "v1"; Var "v2"; Var "v3"; Var "v4"; Var "v5"; Var "v6"; Var "v7"]);
  mkW Void "ctbmv" [((true, Char), "v0"); ((true, Char), "v1"); ((true, Char), "v2"); ((true, Int), "v3"); ((true, Int), "v4"); ((true, C32), "v5"); ((true, Int), "v6"); ((false, C32), "v7"); ((true, Int), "v8")] (RetCall "ctbmv_" [Var "v0"; Var "v1"; Var "v2"; Var "v3"; Var "v4"; Var "v5"; Var "v6"; Var "v7"; Var "v8"]);
  mkW Void "ctbsv" [((true, Char), "v0"); ((true, Char), "v1"); ((true, Char), "v2"); ((true, Int), "v3"); ((true, Int), "v4"); ((true, C32), "v5"); ((true, Int), "v6"); ((false, C32), "v7"); ((true, Int), "v8")] (RetCall "ctbsv_" [Var "v0"; Var "v1"; Var "v2"; Var "v3"; Var "v4"; Var "v5"; Var "v6"; Var "v7"; Var "v8"]);
  mkW Void "ctpmv" [((true, Char), "v0"); ((true, Char), "v1"); ((true, Char), "v2"); ((true, Int), "v3"); ((true, C32), "v4"); ((false, C32), "v5"); ((true, Int), "v6")] (RetCall "ctpmv_" [Var "v0"; Var "v1"; Var "v2"; Var "v3"; Var "v4"; Var "v5"; Var "v6"]);
  mkW Void "ctpsv" [((true, Char), "v0"); ((true, Char), "v1"); ((true, Char), "v2"); ((true, Int), "v3"); ((true, C32), "v4"); ((false, C32), "v5"); ((true, Int), "v6")] (RetCall "ctpsv_" [Var "v0"; Var "v1"; Var "v2"; Var "v3"; Var "v4"; Var "v5"; Var "v6"]);
  mkW Void "ctrmv" [((true, Char), "v0"); ((true, Char), "v1"); ((true, Char), "v2"); ((true, Int), "v3"); ((true, C32), "v4"); ((true, Int), "v5"); ((false, C32), "v6"); ((true, Int), "v7")] (RetCall "ctrmv_" [Var "v0"; Var "v1"; Var "v2"; Var "v3"; Var "v4"; Var "v5"; Var "v6"; Var "v7"]);
  mkW Void "ctrsv" [((true, Char), "v0"); ((true, Char), "v1"); ((true, Char), "v2"); ((true, Int), "v3"); ((true, C32), "v4"); ((true, Int), "v5"); ((false, C32), "v6"); ((true, Int), "v7")] (RetCall "ctrsv_" [Var "v0"; Var "v1"; Var "v2"; Var "v3"; Var "v4"; Var "v5"; Var "v6"; Var "v7"]);
  mkW Void "dgbmv" [((true, Char), "v0"); ((true, Int), "v1"); ((true, Int), "v2"); ((true, Int), "v3"); ((true, Int), "v4"); ((true, F64), "v5"); ((true, F64), "v6"); ((true, Int), "v7"); ((true, F64), "v8"); ((true, Int), "v9"); ((true, F64), "v10"); ((false, F64), "v11"); ((true, Int), "v12")] (RetCall "dgbmv_" [Var "v0"; Var "v1"; Var "v2"; Var "v3"; Var "v4"; Var "v5"; Var "v6"; Var "v7"; Var "v8"; Var "v9"; Var "v10"; Var "v11"; Var "v12"]);
  mkW Void "dgemv" [((true, Char), "v0"); ((true, Int), "v1"); ((true, Int), "v2"); ((true, F64), "v3"); ((true, F64), "v4"); ((true, Int), "v5"); ((true, F64), "v6"); ((true, Int), "v7"); ((true, F64), "v8"); ((false, F64), "v9"); ((true, Int), "v10")] (RetCall "dgemv_" [Var "v0"; Var "v1"; Var "v2"; Var "v3"; Var "v4"; Var "v5"; Var "v6"; Var "v7"; Var "v8"; Var "v9"; Var "v10"]);
  mkW Void "dger" [((true, Int), "v0"); ((true, Int), "v1"); ((true, F64), "v2"); ((true, F64), "v3"); ((true, Int), "v4"); ((true, F64), "v5"); ((true, Int), "v6"); ((false, F64), "v7"); ((true, Int), "v8")] (RetCall "dger_" [Var "v0"; Var "v1"; Var "v2"; Var "v3"; Var "v4"; Var "v5"; Var "v6"; Var "v7"; Var "v8"]);
  mkW Void "dsbmv" [((true, Char), "v0"); ((true, Int), "v1"); ((true, Int), "v2"); ((true, F64), "v3"); ((true, F64), "v4"); ((true, Int), "v5"); ((true, F64), "v6"); ((true, Int), "v7"); ((true, F64), "v8"); ((false, F64), "v9"); ((true, Int), "v10")] (RetCall "dsbmv_" [Var "v0"; Var "v1"; Var "v2"; Var "v3"; Var "v4"; Var "v5"; Var "v6"; Var "v7"; Var "v8"; Var "v9"; Var "v10"]);
  mkW Void "dspmv" [((true, Char), "v0"); ((true, Int), "v1"); ((true, F64), "v2"); ((true, F64), "v3"); ((true, F64), "v4"); ((true, Int), "v5"); ((true, F64), "v6"); ((false, F64), "v7"); ((true, Int), "v8")] (RetCall "dspmv_" [Var "v0"; Var "v1"; Var "v2"; Var "v3"; Var "v4"; Var "v5"; Var "v6"; Var "v7"; Var "v8"]);
  mkW Void "dspr" [((true, Char), "v0"); ((true, Int), "v1"); ((true, F64), "v2"); ((true, F64), "v3"); ((true, Int), "v4"); ((false, F64), "v5")] (RetCall "dspr_" [Var "v0"; Var "v1"; Var "v2"; Var "v3"; Var "v4"; Var "v5"]);
  mkW Void "dspr2" [((true, Char), "v0"); ((true, Int), "v1"); ((true, F64), "v2"); ((true, F64), "v3"); ((true, Int), "v4"); ((true, F64), "v5"); ((true, Int), "v6"); ((false, F64), "v7")] (RetCall "dspr2_" [Var "v0"; Var "v1"; Var "v2"; Var "v3"; Var "v4"; Var "v5"; Var "v6"; Var "v7"]);
  mkW Void "dsymv" [((true, Char), "v0"); ((true, Int), "v1"); ((true, F64), "v2"); ((true, F64), "v3"); ((true, Int), "v4"); ((true, F64), "v5"); ((true, Int), "v6"); ((true, F64), "v7"); ((false, F64), "v8"); ((true, Int), "v9")] (RetCall "dsymv_" [Var "v0"; Var "v1"; Var "v2"; Var "v3"; Var "v4"; Var "v5"; Var "v6"; Var "v7"; Var "v8"; Var "v9"]);
  mkW Void "dsyr" [((true, Char), "v0"); ((true, Int), "v1"); ((true, F64), "v2"); ((true, F64), "v3"); ((true, Int), "v4"); ((false, F64), "v5"); ((true, Int), "v6")] (RetCall "dsyr_" [Var "v0"; Var "v1"; Var "v2"; Var "v3"; Var "v4"; Var "v5"; Var "v6"]);
  mkW Void "dsyr2" [((true, Char), "v0"); ((true, Int), "v1"); ((true, F64), "v2"); ((true, F64), "v3"); ((true, Int), "v4"); ((true, F64), "v5"); ((true, Int), "v6"); ((false, F64), "v7"); ((true, Int), "v8")] (RetCall "dsyr2_" [Var "v0"; Var "v1"; Var "v2"; Var "v3"; Var "v4"; Var "v5"; Var "v6"; Var "v7"; Var "v8"]);
  mkW Void "dtbmv" [((true, Char), "v0"); ((true, Char), "v1"); ((true, Char), "v2"); ((true, Int), "v3"); ((true, Int), "v4"); ((true, F64), "v5"); ((true, Int), "v6"); ((false, F64), "v7"); ((true, Int), "v8")] (RetCall "dtbmv_" [Var "v0"; Var "v1"; Var "v2"; Var "v3"; Var "v4"; Var "v5"; Var "v6"; Var "v7"; Var "v8"]);
  mkW Void "dtbsv" [((true, Char), "v0"); ((true, Char), "v1"); ((true, Char), "v2"); ((true, Int), "v3"); ((true, Int), "v4"); ((true, F64), "v5"); ((true, Int), "v6"); ((false, F64), "v7"); ((true, Int), "v8")] (RetCall "dtbsv_" [Var "v0"; Var "v1"; Var "v2"; Var "v3"; Var "v4"; Var "v5"; Var "v6"; Var "v7"; Var "v8"]);
  mkW Void "dtpmv" [((true, Char), "v0"); ((true, Char), "v1"); ((true, Char), "v2"); ((true, Int), "v3"); ((true, F64), "v4"); ((false, F64), "v5"); ((true, Int), "v6")] (RetCall "dtpmv_" [Var "v0"; Var "v1"; Var "v2"; Var "v3"; Var "v4"; Var "v5"; Var "v6"]);
  mkW Void "dtpsv" [((true, Char), "v0"); ((true, Char), "v1"); ((true, Char), "v2"); ((true, Int), "v3"); ((true, F64), "v4"); ((false, F64), "v5"); ((true, Int), "v6")] (RetCall "dtpsv_" [Var "v0"; Var "v1"; Var "v2"; Var "v3"; Var "v4"; Var "v5"; Var "v6"]);
  mkW Void "dtrmv" [((true, Char), "v0"); ((true, Char), "v1"); ((true, Char), "v2"); ((true, Int), "v3"); ((true, F64), "v4"); ((true, Int), "v5"); ((false, F64), "v6"); ((true, Int), "v7")] (RetCall "dtrmv_" [Var "v0"; Var "v1"; Var "v2"; Var "v3"; Var "v4"; Var "v5"; Var "v6"; Var "v7"]);
  mkW Void "dtrsv" [((true, Char), "v0"); ((true, Char), "v1"); ((true, Char), "v2"); ((true, Int), "v3"); ((true, F64), "v4"); ((true, Int), "v5"); ((false, F64), "v6"); ((true, Int), "v7")] (RetCall "dtrsv_" [Var "v0"; Var "v1"; Var "v2"; Var "v3"; Var "v4"; Var "v5"; Var "v6"; Var "v7"]);
  mkW Void "zgbmv" [((true, Char), "v0"); ((true, Int), "v1"); ((true, Int), "v2"); ((true, Int), "v3"); ((true, Int), "v4"); ((true, C64), "v5"); ((true, C64), "v6"); ((true, Int), "v7"); ((true, C64), "v8"); ((true, Int), "v9"); ((true, C64), "v10"); ((false, C64), "v11"); ((true, Int), "v12")] (RetCall "zgbmv_" [Var "v0"; Var "v1"; Var "v2"; Var "v3"; Var "v4"; Var "v5"; Var "v6"; Var "v7"; Var "v8"; Var "v9"; Var "v10"; Var "v11"; Var "v12"]);
  mkW Void "zgemv" [((true, Char), "v0"); ((true, Int), "v1"); ((true, Int), "v2"); ((true, C64), "v3"); ((true, C64), "v4"); ((true, Int), "v5"); ((true, C64), "v6"); ((true, Int), "v7"); ((true, C64), "v8"); ((false, C64), "v9"); ((true, Int), "v10")] (RetCall "zgemv_" [Var "v0"; Var "v1"; Var "v2"; Var "v3"; Var "v4"; Var "v5"; Var "v6"; Var "v7"; Var "v8"; Var "v9"; Var "v10"]);
  mkW Void "zgerc" [((true, Int), "v0"); ((true, Int), "v1"); ((true, C64), "v2"); ((true, C64), "v3"); ((true, Int), "v4"); ((true, C64), "v5"); ((true, Int), "v6"); ((false, C64), "v7"); ((true, Int), "v8")] (RetCall "zgerc_" [Var "v0"; Var "v1"; Var "v2"; Var "v3"; Var "v4"; Var "v5"; Var "v6"; Var "v7"; Var "v8"]);
  mkW Void "zgeru" [((true, Int), "v0"); ((true, Int), "v1"); ((true, C64), "v2"); ((true, C64), "v3"); ((true, Int), "v4"); ((true, C64), "v5"); ((true, Int), "v6"); ((false, C64), "v7"); ((true, Int), "v8")] (RetCall "zgeru_" [Var "v0"; Var "v1"; Var "v2"; Var "v3"; Var "v4"; Var "v5"; Var "v6"; Var "v7"; Var "v8"]);
  mkW Void "zhbmv" [((true, Char), "v0"); ((true, Int), "v1"); ((true, Int), "v2"); ((true, C64), "v3"); ((true, C64), "v4"); ((true, Int), "v5"); ((true, C64), "v6"); ((true, Int), "v7"); ((true, C64), "v8"); ((false, C64), "v9"); ((true, Int), "v10")] (RetCall "zhbmv_" [Var "v0"; Var "v1"; Var "v2"; Var "v3"; Var "v4"; Var "v5"; Var "v6"; Var "v7"; Var "v8"; Var "v9"; Var "v10"]);
  mkW Void "zhemv" [((true, Char), "v0"); ((true, Int), "v1"); ((true, C64), "v2"); ((true, C64), "v3"); ((true, Int), "v4"); ((true, C64), "v5"); ((true, Int), "v6"); ((true, C64), "v7"); ((false, C64), "v8"); ((true, Int), "v9")] (RetCall "zhemv_" [Var "v0"; Var "v1"; Var "v2"; Var "v3"; Var "v4"; Var "v5"; Var "v6"; Var "v7"; Var "v8"; Var "v9"]);
  mkW Void "zher" [((true, Char), "v0"); ((true, Int), "v1"); ((true, F64), "v2"); ((true, C64), "v3"); ((true, Int), "v4"); ((false, C64), "v5"); ((true, Int), "v6")] (RetCall "zher_" [Var "v0"; Var "v1"; Var "v2"; Var "v3"; Var "v4"; Var "v5"; Var "v6"]);
  mkW Void "zher2" [((true, Char), "v0"); ((true, Int), "v1"); ((true, C64), "v2"); ((true, C64), "v3"); ((true, Int), "v4"); ((true, C64), "v5"); ((true, Int), "v6"); ((false, C64), "v7"); ((true, Int), "v8")] (RetCall "zher2_" [Var "v0"; Var "v1"; Var "v2"; Var "v3"; Var "v4"; Var "v5"; Var "v6"; Var "v7"; Var "v8"]);
  mkW Void "zhpmv" [((true, Char), "v0"); ((true, Int), "v1"); ((true, C64), "v2"); ((true, C64), "v3"); ((true, C64), "v4"); ((true, Int), "v5"); ((true, C64), "v6"); ((false, C64), "v7"); ((true, Int), "v8")] (RetCall "zhpmv_" [Var "v0"; Var "v1"; Var "v2"; Var "v3"; Var "v4"; Var "v5"; Var "v6"; Var "v7"; Var "v8"]);
  mkW Void "zhpr" [((true, Char), "v0"); ((true, Int), "v1"); ((true, F64), "v2"); ((true, C64), "v3"); ((true, Int), "v4"); ((false, C64), "v5")] (RetCall "zhpr_" [Var "v0"; Var "v1"; Var "v2"; Var "v3"; Var "v4"; Var "v5"]);
  mkW Void "zhpr2" [((true, Char), "v0"); ((true, Int), "v1"); ((true, C64), "v2"); ((true, C64), "v3"); ((true, Int), "v4"); ((true, C64), "v5"); ((true, Int), "v6"); ((false, C64), "v7")] (RetCall "zhpr2_" [Var "v0"; Var "v1"; Var "v2"; Var "v3"; Var "v4"; Var "v5"; Var "v6"; Var "v7"]);
  mkW Void "ztbmv" [((true, Char), "v0"); ((true, Char), "v1"); ((true, Char), "v2"); ((true, Int), "v3"); ((true, Int), "v4"); ((true, C64), "v5"); ((true, Int), "v6"); ((false, C64), "v7"); ((true, Int), "v8")] (RetCall "ztbmv_" [Var "v0"; Var "v1"; Var "v2"; Var "v3"; Var "v4"; Var "v5"; Var "v6"; Var "v7"; Var "v8"]);
  mkW Void "ztbsv" [((true, Char), "v0"); ((true, Char), "v1"); ((true, Char), "v2"); ((true, Int), "v3"); ((true, Int), "v4"); ((true, C64), "v5"); ((true, Int), "v6"); ((false, C64), "v7"); ((true, Int), "v8")] (RetCall "ztbsv_" [Var "v0"; Var "v1"; Var "v2"; Var "v3"; Var "v4"; Var "v5"; Var "v6"; Var "v7"; Var "v8"]);
  mkW Void "ztpmv" [((true, Char), "v0"); ((true, Char), "v1"); ((true, Char), "v2"); ((true, Int), "v3"); ((true, C64), "v4"); ((false, C64), "v5"); ((true, Int), "v6")] (RetCall "ztpmv_" [Var "v0"; Var "v1"; Var "v2"; Var "v3"; Var "v4"; Var "v5"; Var "v6"]);
  mkW Void "ztpsv" [((true, Char), "v0"); ((true, Char), "v1"); ((true, Char), "v2"); ((true, Int), "v3"); ((true, C64), "v4"); ((false, C64), "v5"); ((true, Int), "v6")] (RetCall "ztpsv_" [Var "v0"; Var "v1"; Var "v2"; Var "v3"; Var "v4"; Var "v5"; Var "v6"]);
  mkW Void "ztrmv" [((true, Char), "v0"); ((true, Char), "v1"); ((true, Char), "v2"); ((true, Int), "v3"); ((true, C64), "v4"); ((true, Int), "v5"); ((false, C64), "v6"); ((true, Int), "v7")] (RetCall "ztrmv_" [Var "v0"; Var "v1"; Var "v2"; Var "v3"; Var "v4"; Var "v5"; Var "v6"; Var "v7"]);
  mkW Void "ztrsv" [((true, Char), "v0"); ((true, Char), "v1"); ((true, Char), "v2"); ((true, Int), "v3"); ((true, C64), "v4"); ((true, Int), "v5"); ((false, C64), "v6"); ((true, Int), "v7")] (RetCall "ztrsv_" [Var "v0"; Var "v1"; Var "v2"; Var "v3"; Var "v4"; Var "v5"; Var "v6"; Var "v7"]);
  mkW Void "sgemm" [((true, Char), "v0"); ((true, Char), "v1"); ((true, Int), "v2"); ((true, Int), "v3"); ((true, Int), "v4"); ((true, F32), "v5"); ((true, F32), "v6"); ((true, Int), "v7"); ((true, F32), "v8"); ((true, Int), "v9"); ((true, F32), "v10"); ((false, F32), "v11"); ((true, Int), "v12")] (RetCall "sgemm_" [Var "v0"; Var "v1"; Var "v2"; Var "v3"; Var "v4"; Var "v5"; Var "v6"; Var "v7"; Var "v8"; Var "v9"; Var "v10"; Var "v11"; Var "v12"]);
  mkW Void "ssymm" [((true, Char), "v0"); ((true, Char), "v1"); ((true, Int), "v2"); ((true, Int), "v3"); ((true, F32), "v4"); ((true, F32), "v5"); ((true, Int), "v6"); ((true, F32), "v7"); ((true, Int), "v8"); ((true, F32), "v9"); ((false, F32), "v10"); ((true, Int), "v11")] (RetCall "ssymm_" [Var "v0"; Var "v1"; Var "v2"; Var "v3"; Var "v4"; Var "v5"; Var "v6"; Var "v7"; Var "v8"; Var "v9"; Var "v10"; Var "v11"]);
  mkW Void "ssyr2k" [((true, Char), "v0"); ((true, Char), "v1"); ((true, Int), "v2"); ((true, Int), "v3"); ((true, F32), "v4"); ((true, F32), "v5"); ((true, Int), "v6"); ((true, F32), "v7"); ((true, Int), "v8"); ((true, F32), "v9"); ((false, F32), "v10"); ((true, Int), "v11")] (RetCall "ssyr2k_" [Var "v0"; Var "v1"; Var "v2"; Var "v3"; Var "v4"; Var "v5"; Var "v6"; Var "v7"; Var "v8"; Var "v9"; Var "v10"; Var "v11"]);
  mkW Void "ssyrk" [((true, Char), "v0"); ((true, Char), "v1"); ((true, Int), "v2"); ((true, Int), "v3"); ((true, F32), "v4"); ((true, F32), "v5"); ((true, Int), "v6"); ((true, F32), "v7"); ((false, F32), "v8"); ((true, Int), "v9")] (RetCall "ssyrk_" [Var "v0"; Var "v1"; Var "v2"; Var "v3"; Var "v4"; Var "v5"; Var "v6"; Var "v7"; Var "v8"; Var "v9"]);
  mkW Void "strmm" [((true, Char), "v0"); ((true, Char), "v1"); ((true, Char), "v2"); ((true, Char), "v3"); ((true, Int), "v4"); ((true, Int), "v5"); ((true, F32), "v6"); ((true, F32), "v7"); ((true, Int), "v8"); ((false, F32), "v9"); ((true, Int), "v10")] (RetCall "strmm_" [Var "v0"; Var "v1"; Var "v2"; Var "v3"; Var "v4"; Var "v5"; Var "v6"; Var "v7"; Var "v8"; Var "v9"; Var "v10"]);
  mkW Void "strsm" [((true, Char), "v0"); ((true, Char), "v1"); ((true, Char), "v2"); ((true, Char), "v3"); ((true, Int), "v4"); ((true, Int), "v5"); ((true, F32), "v6"); ((true, F32), "v7"); ((true, Int), "v8"); ((false, F32), "v9"); ((true, Int), "v10")] (RetCall "strsm_" [Var "v0"; Var "v1"; Var "v2"; Var "v3"; Var "v4"; Var "v5"; Var "v6"; Var "v7"; Var "v8"; Var "v9"; Var "v10"]);
  mkW Void "cgemm" [((true, Char), "v0"); ((true, Char), "v1"); ((true, Int), "v2"); ((true, Int), "v3"); ((true, Int), "v4"); ((true, C32), "v5"); ((true, C32), "v6"); ((true, Int), "v7"); ((true, C32), "v8"); ((true, Int), "v9"); ((true, C32), "v10"); ((false, C32), "v11"); ((true, Int), "v12")] (RetCall "cgemm_" [Var "v0"; Var "v1"; Var "v2"; Var "v3"; Var "v4"; Var "v5"; Var "v6"; Var "v7"; Var "v8"; Var "v9"; Var "v10"; Var "v11"; Var "v12"]);
  mkW Void "cgemm3m" [((true, Char), "v0"); ((true, Char), "v1"); ((true, Int), "v2"); ((true, Int), "v3"); ((true, Int), "v4"); ((true, C32), "v5"); ((true, C32), "v6"); ((true, Int), "v7"); ((true, C32), "v8"); ((true, Int), "v9"); ((true, C32), "v10"); ((false, C32), "v11"); ((true, Int), "v12")] (RetCall "cgemm3m_" [Var "v0"; Var "v1"; Var "v2"; Var "v3"; Var "v4"; Var "v5"; Var "v6"; Var "v7"; Var "v8"; Var "v9"; Var "v10"; Var "v11"; Var "v12"]);
  mkW Void "chemm" [((true, Char), "v0"); ((true, Char), "v1"); ((true, Int), "v2"); ((true, Int), "v3"); ((true, C32), "v4"); ((true, C32), "v5"); ((true, Int), "v6"); ((true, C32), "v7"); ((true, Int), "v8"); ((true, C32), "v9"); ((false, C32), "v10"); ((true, Int), "v11")] (RetCall "chemm_" [Var "v0"; Var "v1"; Var "v2"; Var "v3"; Var "v4"; Var "v5"; Var "v6"; Var "v7"; Var "v8"; Var "v9"; Var "v10"; Var "v11"]);
  mkW Void "cher2k" [((true, Char), "v0"); ((true, Char), "v1"); ((true, Int), "v2"); ((true, Int), "v3"); ((true, C32), "v4"); ((true, C32), "v5"); ((true, Int), "v6"); ((true, C32), "v7"); ((true, Int), "v8"); ((true, F32), "v9"); ((false, C32), "v10"); ((true, Int), "v11")] (RetCall "cher2k_" [Var "v0"; Var "v1"; Var "v2"; Var "v3"; Var "v4"; Var "v5"; Var "v6"; Var "v7"; Var "v8"; Var "v9"; Var "v10"; Var "v11"]);
  mkW Void "cherk" [((true, Char), "v0"); ((true, Char), "v1"); ((true, Int), "v2"); ((true, Int), "v3"); ((true, F32), "v4"); ((true, C32), "v5"); ((true, Int), "v6"); ((true, F32), "v7"); ((false, C32), "v8"); ((true, Int), "v9")] (RetCall "cherk_" [Var "v0"; Var "v1"; Var "v2"; Var "v3"; Var "v4"; Var "v5"; Var "v6"; Var "v7"; Var "v8"; Var "v9"]);
  mkW Void "csymm" [((true, Char), "v0"); ((true, Char), "v1"); ((true, Int), "v2"); ((true, Int), "v3"); ((true, C32), "v4"); ((true, C32), "v5"); ((true, Int), "v6"); ((true, C32), "v7"); ((true, Int), "v8"); ((true, C32), "v9"); ((false, C32), "v10"); ((true, Int), "v11")] (RetCall "csymm_" [Var "v0"; Var "v1"; Var "v2"; Var "v3"; Var "v4"; Var "v5"; Var "v6"; Var "v7"; Var "v8"; Var "v9"; Var "v10"; Var "v11"]);
  mkW Void "csyr2k" [((true, Char), "v0"); ((true, Char), "v1"); ((true, Int), "v2"); ((true, Int), "v3"); ((true, C32), "v4"); ((true, C32), "v5"); ((true, Int), "v6"); ((true, C32), "v7"); ((true, Int), "v8"); ((true, C32), "v9"); ((false, C32), "v10"); ((true, Int), "v11")] (RetCall "csyr2k_" [Var "v0"; Var "v1"; Var "v2"; Var "v3"; Var "v4"; Var "v5"; Var "v6"; Var "v7"; Var "v8"; Var "v9"; Var "v10"; Var "v11"]);
  mkW Void "csyrk" [((true, Char), "v0"); ((true, Char), "v1"); ((true, Int), "v2"); ((true, Int), "v3"); ((true, C32), "v4"); ((true, C32), "v5"); ((true, Int), "v6"); ((true, C32), "v7"); ((false, C32), "v8"); ((true, Int), "v9")] (RetCall "csyrk_" [Var "v0"; Var "v1"; Var "v2"; Var "v3"; Var "v4"; Var "v5"; Var "v6"; Var "v7"; Var "v8"; Var "v9"]);
  mkW Void "ctrmm" [((true, Char), "v0"); ((true, Char), "v1"); ((true, Char), "v2"); ((true, Char), "v3"); ((true, Int), "v4"); ((true, Int), "v5"); ((true, C32), "v6"); ((true, C32), "v7"); ((true, Int), "v8"); ((false, C32), "v9"); ((true, Int), "v10")] (RetCall "ctrmm_" [Var "v0"; Var "v1"; Var "v2"; Var "v3"; Var "v4"; Var "v5"; Var "v6"; Var "v7"; Var "v8"; Var "v9"; Var "v10"]);
  mkW Void "ctrsm" [((true, Char), "v0"); ((true, Char), "v1"); ((true, Char), "v2"); ((true, Char), "v3"); ((true, Int), "v4"); ((true, Int), "v5"); ((true, C32), "v6"); ((true, C32), "v7"); ((true, Int), "v8"); ((false, C32), "v9"); ((true, Int), "v10")] (RetCall "ctrsm_" [Var "v0"; Var "v1"; Var "v2"; Var "v3"; Var "v4"; Var "v5"; Var "v6"; Var "v7"; Var "v8"; Var "v9"; Var "v10"]);
  mkW Void "dgemm" [((true, Char), "v0"); ((true, Char), "v1"); ((true, Int), "v2"); ((true, Int), "v3"); ((true, Int), "v4"); ((true, F64), "v5"); ((true, F64), "v6"); ((true, Int), "v7"); ((true, F64), "v8"); ((true, Int), "v9"); ((true, F64), "v10"); ((false, F64), "v11"); ((true, Int), "v12")] (RetCall "dgemm_" [Var "v0"; Var "v1"; Var "v2"; Var "v3"; Var "v4"; Var "v5"; Var "v6"; Var "v7"; Var "v8"; Var "v9"; Var "v10"; Var "v11"; Var "v12"]);
  mkW Void "dsymm" [((true, Char), "v0"); ((true, Char), "v1"); ((true, Int), "v2"); ((true, Int), "v3"); ((true, F64), "v4"); ((true, F64), "v5"); ((true, Int), "v6"); ((true, F64), "v7"); ((true, Int), "v8"); ((true, F64), "v9"); ((false, F64), "v10"); ((true, Int), "v11")] (RetCall "dsymm_" [Var "v0"; Var "v1"; Var "v2"; Var "v3"; Var "v4"; Var "v5"; Var "v6"; Var "v7"; Var "v8"; Var "v9"; Var "v10"; Var "v11"]);
  mkW Void "dsyr2k" [((true, Char), "v0"); ((true, Char), "v1"); ((true, Int), "v2"); ((true, Int), "v3"); ((true, F64), "v4"); ((true, F64), "v5"); ((true, Int), "v6"); ((true, F64), "v7"); ((true, Int), "v8"); ((true, F64), "v9"); ((false, F64), "v10"); ((true, Int), "v11")] (RetCall "dsyr2k_" [Var "v0"; Var "v1"; Var "v2"; Var "v3"; Var "v4"; Var "v5"; Var "v6"; Var "v7"; Var "v8"; Var "v9"; Var "v10"; Var "v11"]);
  mkW Void "dsyrk" [((true, Char), "v0"); ((true, Char), "v1"); ((true, Int), "v2"); ((true, Int), "v3"); ((true, F64), "v4"); ((true, F64), "v5"); ((true, Int), "v6"); ((true, F64), "v7"); ((false, F64), "v8"); ((true, Int), "v9")] (RetCall "dsyrk_" [Var "v0"; Var "v1"; Var "v2"; Var "v3"; Var "v4"; Var "v5"; Var "v6"; Var "v7"; Var "v8"; Var "v9"]);
  mkW Void "dtrmm" [((true, Char), "v0"); ((true, Char), "v1"); ((true, Char), "v2"); ((true, Char), "v3"); ((true, Int), "v4"); ((true, Int), "v5"); ((true, F64), "v6"); ((true, F64), "v7"); ((true, Int), "v8"); ((false, F64), "v9"); ((true, Int), "v10")] (RetCall "dtrmm_" [Var "v0"; Var "v1"; Var "v2"; Var "v3"; Var "v4"; Var "v5"; Var "v6"; Var "v7"; Var "v8"; Var "v9"; Var "v10"]);
  mkW Void "dtrsm" [((true, Char), "v0"); ((true, Char), "v1"); ((true, Char), "v2"); ((true, Char), "v3"); ((true, Int), "v4"); ((true, Int), "v5"); ((true, F64), "v6"); ((true, F64), "v7"); ((true, Int), "v8"); ((false, F64), "v9"); ((true, Int), "v10")] (RetCall "dtrsm_" [Var "v0"; Var "v1"; Var "v2"; Var "v3"; Var "v4"; Var "v5"; Var "v6"; Var "v7"; Var "v8"; Var "v9"; Var "v10"]);
  mkW Void "zgemm" [((true, Char), "v0"); ((true, Char), "v1"); ((true, Int), "v2"); ((true, Int), "v3"); ((true, Int), "v4"); ((true, C64), "v5"); ((true, C64), "v6"); ((true, Int), "v7"); ((true, C64), "v8"); ((true, Int), "v9"); ((true, C64), "v10"); ((false, C64), "v11"); ((true, Int), "v12")] (RetCall "zgemm_" [Var "v0"; Var "v1"; Var "v2"; Var "v3"; Var "v4"; Var "v5"; Var "v6"; Var "v7"; Var "v8"; Var "v9"; Var "v10"; Var "v11"; Var "v12"]);
  mkW Void "zgemm3m" [((true, Char), "v0"); ((true, Char), "v1"); ((true, Int), "v2"); ((true, Int), "v3"); ((true, Int), "v4"); ((true, C64), "v5"); ((true, C64), "v6"); ((true, Int), "v7"); ((true, C64), "v8"); ((true, Int), "v9"); ((true, C64), "v10"); ((false, C64), "v11"); ((true, Int), "v12")] (RetCall "zgemm3m_" [Var "v0"; Var "v1"; Var "v2"; Var "v3"; Var "v4"; Var "v5"; Var "v6"; Var "v7"; Var "v8"; Var "v9"; Var "v10"; Var "v11"; Var "v12"]);
  mkW Void "zhemm" [((true, Char), "v0"); ((true, Char), "v1"); ((true, Int), "v2"); ((true, Int), "v3"); ((true, C64), "v4"); ((true, C64), "v5"); ((true, Int), "v6"); ((true, C64), "v7"); ((true, Int), "v8"); ((true, C64), "v9"); ((false, C64), "v10"); ((true, Int), "v11")] (RetCall "zhemm_" [Var "v0"; Var "v1"; Var "v2"; Var "v3"; Var "v4"; Var "v5"; Var "v6"; Var "v7"; Var "v8"; Var "v9"; Var "v10"; Var "v11"]);
  mkW Void "zher2k" [((true, Char), "v0"); ((true, Char), "v1"); ((true, Int), "v2"); ((true, Int), "v3"); ((true, C64), "v4"); ((true, C64), "v5"); ((true, Int), "v6"); ((true, C64), "v7"); ((true, Int), "v8"); ((true, F64), "v9"); ((false, C64), "v10"); ((true, Int), "v11")] (RetCall "zher2k_" [Var "v0"; Var "v1"; Var "v2"; Var "v3"; Var "v4"; Var "v5"; Var "v6"; Var "v7"; Var "v8"; Var "v9"; Var "v10"; Var "v11"]);
  mkW Void "zherk" [((true, Char), "v0"); ((true, Char), "v1"); ((true, Int), "v2"); ((true, Int), "v3"); ((true, F64), "v4"); ((true, C64), "v5"); ((true, Int), "v6"); ((true, F64), "v7"); ((false, C64), "v8"); ((true, Int), "v9")] (RetCall "zherk_" [Var "v0"; Var "v1"; Var "v2"; Var "v3"; Var "v4"; Var "v5"; Var "v6"; Var "v7"; Var "v8"; Var "v9"]);
  mkW Void "zsymm" [((true, Char), "v0"); ((true, Char), "v1"); ((true, Int), "v2"); ((true, Int), "v3"); ((true, C64), "v4"); ((true, C64), "v5"); ((true, Int), "v6"); ((true, C64), "v7"); ((true, Int), "v8"); ((true, C64), "v9"); ((false, C64), "v10"); ((true, Int), "v11")] (RetCall "zsymm_" [Var "v0"; Var "v1"; Var "v2"; Var "v3"; Var "v4"; Var "v5"; Var "v6"; Var "v7"; Var "v8"; Var "v9"; Var "v10"; Var "v11"]);
  mkW Void "zsyr2k" [((true, Char), "v0"); ((true, Char), "v1"); ((true, Int), "v2"); ((true, Int), "v3"); ((true, C64), "v4"); ((true, C64), "v5"); ((true, Int), "v6"); ((true, C64), "v7"); ((true, Int), "v8"); ((true, C64), "v9"); ((false, C64), "v10"); ((true, Int), "v11")] (RetCall "zsyr2k_" [Var "v0"; Var "v1"; Var "v2"; Var "v3"; Var "v4"; Var "v5"; Var "v6"; Var "v7"; Var "v8"; Var "v9"; Var "v10"; Var "v11"]);
  mkW Void "zsyrk" [((true, Char), "v0"); ((true, Char), "v1"); ((true, Int), "v2"); ((true, Int), "v3"); ((true, C64), "v4"); ((true, C64), "v5"); ((true, Int), "v6"); ((true, C64), "v7"); ((false, C64), "v8"); ((true, Int), "v9")] (RetCall "zsyrk_" [Var "v0"; Var "v1"; Var "v2"; Var "v3"; Var "v4"; Var "v5"; Var "v6"; Var "v7"; Var "v8"; Var "v9"]);
  mkW Void "ztrmm" [((true, Char), "v0"); ((true, Char), "v1"); ((true, Char), "v2"); ((true, Char), "v3"); ((true, Int), "v4"); ((true, Int), "v5"); ((true, C64), "v6"); ((true, C64), "v7"); ((true, Int), "v8"); ((false, C64), "v9"); ((true, Int), "v10")] (RetCall "ztrmm_" [Var "v0"; Var "v1"; Var "v2"; Var "v3"; Var "v4"; Var "v5"; Var "v6"; Var "v7"; Var "v8"; Var "v9"; Var "v10"]);
  mkW Void "ztrsm" [((true, Char), "v0"); ((true, Char), "v1"); ((true, Char), "v2"); ((true, Char), "v3"); ((true, Int), "v4"); ((true, Int), "v5"); ((true, C64), "v6"); ((true, C64), "v7"); ((true, Int), "v8"); ((false, C64), "v9"); ((true, Int), "v10")] (RetCall "ztrsm_" [Var "v0"; Var "v1"; Var "v2"; Var "v3"; Var "v4"; Var "v5"; Var "v6"; Var "v7"; Var "v8"; Var "v9"; Var "v10"]);
  mkW C32 "cdotc" [((true, Int), "v1"); ((true, C32), "v2"); ((true, Int), "v3"); ((true, C32), "v4"); ((true, Int), "v5")] (LocalCall C32 "result" "cdotc_" [AddrOf "result"; Var "v1"; Var "v2"; Var "v3"; Var "v4"; Var "v5"] "result");
  mkW C32 "cdotu" [((true, Int), "v1"); ((true, C32), "v2"); ((true, Int), "v3"); ((true, C32), "v4"); ((true, Int), "v5")] (LocalCall C32 "result" "cdotu_" [AddrOf "result"; Var "v1"; Var "v2"; Var "v3"; Var "v4"; Var "v5"] "result");
  mkW C64 "zdotc" [((true, Int), "v1"); ((true, C64), "v2"); ((true, Int), "v3"); ((true, C64), "v4"); ((true, Int), "v5")] (LocalCall C64 "result" "zdotc_" [AddrOf "result"; Var "v1"; Var "v2"; Var "v3"; Var "v4"; Var "v5"] "result");
  mkW C64 "zdotu" [((true, Int), "v1"); ((true, C64), "v2"); ((true, Int), "v3"); ((true, C64), "v4"); ((true, Int), "v5")] (LocalCall C64 "result" "zdotu_" [AddrOf "result"; Var "v1"; Var "v2"; Var "v3"; Var "v4"; Var "v5"] "result")
].

(** src/Interfaces/IntelMKL/BlasInterface_IntelMKL.cpp *)
Definition mkl_cpp : list wrapper := [
  mkW F32 "scabs1" [((true, C32), "v0")] (RetCall "scabs1_" [Var "v0"]);
  mkW F32 "sasum" [((true, Int), "v0"); ((true, F32), "v1"); ((true, Int), "v2")] (RetCall "sasum_" [Var "v0"; Var "v1"; Var "v2"]);
  mkW Void "saxpy" [((true, Int), "v0"); ((true, F32), "v1"); ((true, F32), "v2"); ((true, Int), "v3"); ((false, F32), "v4"); ((true, Int), "v5")] (RetCall "saxpy_" [Var "v0"; Var "v1"; Var "v2"; Var "v3"; Var "v4"; Var "v5"]);
  mkW Void "saxpby" [((true, Int), "v0"); ((true, F32), "v1"); ((true, F32), "v2"); ((true, Int), "v3"); ((true, F32), "v4"); ((false, F32), "v5"); ((true, Int), "v6")] (RetCall "saxpby_" [Var "v0"; Var "v1"; Var "v2"; Var "v3"; Var "v4"; Var "v5"; Var "v6"]);
  mkW F32 "scasum" [((true, Int), "v0"); ((true, C32), "v1"); ((true, Int), "v2")] (RetCall "scasum_" [Var "v0"; Var "v1"; Var "v2"]);
  mkW F32 "scnrm2" [((true, Int), "v0"); ((true, C32), "v1"); ((true, Int), "v2")] (RetCall "scnrm2_" [Var "v0"; Var "v1"; Var "v2"]);
  mkW Void "scopy" [((true, Int), "v0"); ((true, F32), "v1"); ((true, Int), "v2"); ((false, F32), "v3"); ((true, Int), "v4")] (RetCall "scopy_" [Var "v0"; Var "v1"; Var "v2"; Var "v3"; Var "v4"]);
  mkW F32 "sdot" [((true, Int), "v0"); ((true, F32), "v1"); ((true, Int), "v2"); ((true, F32), "v3"); ((true, Int), "v4")] (RetCall "sdot_" [Var "v0"; Var "v1"; Var "v2"; Var "v3"; Var "v4"]);
  mkW F32 "sdsdot" [((true, Int), "v0"); ((true, F32), "v1"); ((true, F32), "v2"); ((true, Int), "v3"); ((true, F32), "v4"); ((true, Int), "v5")] (RetCall "sdsdot_" [Var "v0"; Var "v1"; Var "v2"; Var "v3"; Var "v4"; Var "v5"]);
  mkW F32 "snrm2" [((true, Int), "v0"); ((true, F32), "v1"); ((true, Int), "v2")] (RetCall "snrm2_" [Var "v0"; Var "v1"; Var "v2"]);
  mkW Void "srot" [((true, Int), "v0"); ((false, F32), "v1"); ((true, Int), "v2"); ((false, F32), "v3"); ((true, Int), "v4"); ((true, F32), "v5"); ((true, F32), "v6")] (RetCall "srot_" [Var "v0"; Var "v1"; Var "v2"; Var "v3"; Var "v4"; Var "v5"; Var "v6"]);
  mkW Void "srotg" [((false, F32), "v0"); ((false, F32), "v1"); ((false, F32), "v2"); ((false, F32), "v3")] (RetCall "srotg_" [Var "v0"; Var "v1"; Var "v2"; Var "v3"]);
  mkW Void "srotm" [((true, Int), "v0"); ((false, F32), "v1"); ((true, Int), "v2"); ((false, F32), "v3"); ((true, Int), "v4"); ((true, F32), "v5")] (RetCall "srotm_" [Var "v0"; Var "v1"; Var "v2"; Var "v3"; Var "v4"; Var "v5"]);
  mkW Void "srotmg" [((false, F32), "v0"); ((false, F32), "v1"); ((false, F32), "v2"); ((true, F32), "v3"); ((false, F32), "v4")] (RetCall "srotmg_" [Var "v0"; Var "v1"; Var "v2"; Var "v3"; Var "v4"]);
  mkW Void "sscal" [((true, Int), "v0"); ((true, F32), "v1"); ((false, F32), "v2"); ((true, Int), "v3")] (RetCall "sscal_" [Var "v0"; Var "v1"; Var "v2"; Var "v3"]);
  mkW Void "sswap" [((true, Int), "v0"); ((false, F32), "v1"); ((true, Int), "v2"); ((false, F32), "v3"); ((true, Int), "v4")] (RetCall "sswap_" [Var "v0"; Var "v1"; Var "v2"; Var "v3"; Var "v4"]);
  mkW Int "isamax" [((true, Int), "v0"); ((true, F32), "v1"); ((true, Int), "v2")] (RetCall "isamax_" [Var "v0"; Var "v1"; Var "v2"]);
  mkW Int "isamin" [((true, Int), "v0"); ((true, F32), "v1"); ((true, Int), "v2")] (RetCall "isamin_" [Var "v0"; Var "v1"; Var "v2"]);
  mkW Void "caxpy" [((true, Int), "v0"); ((true, C32), "v1"); ((true, C32), "v2"); ((true, Int), "v3"); ((false, C32), "v4"); ((true, Int), "v5")] (RetCall "caxpy_" [Var "v0"; Var "v1"; Var "v2"; Var "v3"; Var "v4"; Var "v5"]);
  mkW Void "caxpby" [((true, Int), "v0"); ((true, C32), "v1"); ((true, C32), "v2"); ((true, Int), "v3"); ((true, C32), "v4"); ((false, C32), "v5"); ((true, Int), "v6")] (RetCall "caxpby_" [Var "v0"; Var "v1"; Var "v2"; Var "v3"; Var "v4"; Var "v5"; Var "v6"]);
  mkW Void "ccopy" [((true, Int), "v0"); ((true, C32), "v1"); ((true, Int), "v2"); ((false, C32), "v3"); ((true, Int), "v4")] (RetCall "ccopy_" [Var "v0"; Var "v1"; Var "v2"; Var "v3"; Var "v4"]);
  mkW Void "crotg" [((false, C32), "v0"); ((true, C32), "v1"); ((false, F32), "v2"); ((false, C32), "v3")] (RetCall "crotg_" [Var "v0"; Var "v1"; Var "v2"; Var "v3"]);
  mkW Void "cscal" [((true, Int), "v0"); ((true, C32), "v1"); ((false, C32), "v2"); ((true, Int), "v3")] (RetCall "cscal_" [Var "v0"; Var "v1"; Var "v2"; Var "v3"]);
  mkW Void "csrot" [((true, Int), "v0"); ((false, C32), "v1"); ((true, Int), "v2"); ((false, C32), "v3"); ((true, Int), "v4"); ((true, F32), "v5"); ((true, F32), "v6")] (RetCall "csrot_" [Var "v0"; Var "v1"; Var "v2"; Var "v3"; Var "v4"; Var "v5"; Var "v6"]);
  mkW Void "csscal" [((true, Int), "v0"); ((true, F32), "v1"); ((false, C32), "v2"); ((true, Int), "v3")] (RetCall "csscal_" [Var "v0"; Var "v1"; Var "v2"; Var "v3"]);
  mkW Void "cswap" [((true, Int), "v0"); ((false, C32), "v1"); ((true, Int), "v2"); ((false, C32), "v3"); ((true, Int), "v4")] (RetCall "cswap_" [Var "v0"; Var "v1"; Var "v2"; Var "v3"; Var "v4"]);
  mkW Int "icamax" [((true, Int), "v0"); ((true, C32), "v1"); ((true, Int), "v2")] (RetCall "icamax_" [Var "v0"; Var "v1"; Var "v2"]);
  mkW Int "icamin" [((true, Int), "v0"); ((true, C32), "v1"); ((true, Int), "v2")] (RetCall "icamin_" [Var "v0"; Var "v1"; Var "v2"]);
  mkW F64 "dcabs1" [((true, C64), "v0")] (RetCall "dcabs1_" [Var "v0"]);
  mkW F64 "dasum" [((true, Int), "v0"); ((true, F64), "v1"); ((true, Int), "v2")] (RetCall "dasum_" [Var "v0"; Var "v1"; Var "v2"]);
  mkW Void "daxpy" [((true, Int), "v0"); ((true, F64), "v1"); ((true, F64), "v2"); ((true, Int), "v3"); ((false, F64), "v4"); ((true, Int), "v5")] (RetCall "daxpy_" [Var "v0"; Var "v1"; Var "v2"; Var "v3"; Var "v4"; Var "v5"]);
  mkW Void "daxpby" [((true, Int), "v0"); ((true, F64), "v1"); ((true, F64), "v2"); ((true, Int), "v3"); ((true, F64), "v4"); ((false, F64), "v5"); ((true, Int), "v6")] (RetCall "daxpby_" [Var "v0"; Var "v1"; Var "v2"; Var "v3"; Var "v4"; Var "v5"; Var "v6"]);
  mkW Void "dcopy" [((true, Int), "v0"); ((true, F64), "v1"); ((true, Int), "v2"); ((false, F64), "v3"); ((true, Int), "v4")] (RetCall "dcopy_" [Var "v0"; Var "v1"; Var "v2"; Var "v3"; Var "v4"]);
  mkW F64 "ddot" [((true, Int), "v0"); ((true, F64), "v1"); ((true, Int), "v2"); ((true, F64), "v3"); ((true, Int), "v4")] (RetCall "ddot_" [Var "v0"; Var "v1"; Var "v2"; Var "v3"; Var "v4"]);
  mkW F64 "dsdot" [((true, Int), "v0"); ((true, F32), "v1"); ((true, Int), "v2"); ((true, F32), "v3"); ((true, Int), "v4")] (RetCall "dsdot_" [Var "v0"; Var "v1"; Var "v2"; Var "v3"; Var "v4"]);
  mkW F64 "dnrm2" [((true, Int), "v0"); ((true, F64), "v1"); ((true, Int), "v2")] (RetCall "dnrm2_" [Var "v0"; Var "v1"; Var "v2"]);
  mkW Void "drot" [((true, Int), "v0"); ((false, F64), "v1"); ((true, Int), "v2"); ((false, F64), "v3"); ((true, Int), "v4"); ((true, F64), "v5"); ((true, F64), "v6")] (RetCall "drot_" [Var "v0"; Var "v1"; Var "v2"; Var "v3"; Var "v4"; Var "v5"; Var "v6"]);
  mkW Void "drotg" [((false, F64), "v0"); ((false, F64), "v1"); ((false, F64), "v2"); ((false, F64), "v3")] (RetCall "drotg_" [Var "v0"; Var "v1"; Var "v2"; Var "v3"]);
  mkW Void "drotm" [((true, Int), "v0"); ((false, F64), "v1"); ((true, Int), "v2"); ((false, F64), "v3"); ((true, Int), "v4"); ((true, F64), "v5")] (RetCall "drotm_" [Var "v0"; Var "v1"; Var "v2"; Var "v3"; Var "v4"; Var "v5"]);
  mkW Void "drotmg" [((false, F64), "v0"); ((false, F64), "v1"); ((false, F64), "v2"); ((true, F64), "v3"); ((false, F64), "v4")] (RetCall "drotmg_" [Var "v0"; Var "v1"; Var "v2"; Var "v3"; Var "v4"]);
  mkW Void "dscal" [((true, Int), "v0"); ((true, F64), "v1"); ((false, F64), "v2"); ((true, Int), "v3")] (RetCall "dscal_" [Var "v0"; Var "v1"; Var "v2"; Var "v3"]);
  mkW Void "dswap" [((true, Int), "v0"); ((false, F64), "v1"); ((true, Int), "v2"); ((false, F64), "v3"); ((true, Int), "v4")] (RetCall "dswap_" [Var "v0"; Var "v1"; Var "v2"; Var "v3"; Var "v4"]);
  mkW F64 "dzasum" [((true, Int), "v0"); ((true, C64), "v1"); ((true, Int), "v2")] (RetCall "dzasum_" [Var "v0"; Var "v1"; Var "v2"]);
  mkW F64 "dznrm2" [((true, Int), "v0"); ((true, C64), "v1"); ((true, Int), "v2")] (RetCall "dznrm2_" [Var "v0"; Var "v1"; Var "v2"]);
  mkW Int "idamax" [((true, Int), "v0"); ((true, F64), "v1"); ((true, Int), "v2")] (RetCall "idamax_" [Var "v0"; Var "v1"; Var "v2"]);
  mkW Int "idamin" [((true, Int), "v0"); ((true, F64), "v1"); ((true, Int), "v2")] (RetCall "idamin_" [Var "v0"; Var "v1"; Var "v2"]);
  mkW Void "zaxpy" [((true, Int), "v0"); ((true, C64), "v1"); ((true, C64), "v2"); ((true, Int), "v3"); ((false, C64), "v4"); ((true, Int), "v5")] (RetCall "zaxpy_" [Var "v0"; Var "v1"; Var "v2"; Var "v3"; Var "v4"; Var "v5"]);
  mkW Void "zaxpby" [((true, Int), "v0"); ((true, C64), "v1"); ((true, C64), "v2"); ((true, Int), "v3"); ((true, C64), "v4"); ((false, C64), "v5"); ((true, Int), "v6")] (RetCall "zaxpby_" [Var "v0"; Var "v1"; Var "v2"; Var "v3"; Var "v4"; Var "v5"; Var "v6"]);
  mkW Void "zcopy" [((true, Int), "v0"); ((true, C64), "v1"); ((true, Int), "v2"); ((false, C64), "v3"); ((true, Int), "v4")] (RetCall "zcopy_" [Var "v0"; Var "v1"; Var "v2"; Var "v3"; Var "v4"]);
  mkW Void "zdrot" [((true, Int), "v0"); ((false, C64), "v1"); ((true, Int), "v2"); ((false, C64), "v3"); ((true, Int), "v4"); ((true, F64), "v5"); ((true, F64), "v6")] (RetCall "zdrot_" [Var "v0"; Var "v1"; Var "v2"; Var "v3"; Var "v4"; Var "v5"; Var "v6"]);
  mkW Void "zdscal" [((true, Int), "v0"); ((true, F64), "v1"); ((false, C64), "v2"); ((true, Int), "v3")] (RetCall "zdscal_" [Var "v0"; Var "v1"; Var "v2"; Var "v3"]);
  mkW Void "zrotg" [((false, C64), "v0"); ((true, C64), "v1"); ((false, F64), "v2"); ((false, C64), "v3")] (RetCall "zrotg_" [Var "v0"; Var "v1"; Var "v2"; Var "v3"]);
  mkW Void "zscal" [((true, Int), "v0"); ((true, C64), "v1"); ((false, C64), "v2"); ((true, Int), "v3")] (RetCall "zscal_" [Var "v0"; Var "v1"; Var "v2"; Var "v3"]);
  mkW Void "zswap" [((true, Int), "v0"); ((false, C64), "v1"); ((true, Int), "v2"); ((false, C64), "v3"); ((true, Int), "v4")] (RetCall "zswap_" [Var "v0"; Var "v1"; Var "v2"; Var "v3"; Var "v4"]);
  mkW Int "izamax" [((true, Int), "v0"); ((true, C64), "v1"); ((true, Int), "v2")] (RetCall "izamax_" [Var "v0"; Var "v1"; Var "v2"]);
  mkW Int "izamin" [((true, Int), "v0"); ((true, C64), "v1"); ((true, Int), "v2")] (RetCall "izamin_" [Var "v0"; Var "v1"; Var "v2"]);
  mkW Void "sgbmv" [((true, Char), "v0"); ((true, Int), "v1"); ((true, Int), "v2"); ((true, Int), "v3"); ((true, Int), "v4"); ((true, F32), "v5"); ((true, F32), "v6"); ((true, Int), "v7"); ((true, F32), "v8"); ((true, Int), "v9"); ((true, F32), "v10"); ((false, F32), "v11"); ((true, Int), "v12")] (RetCall "sgbmv_" [Var "v0"; Var "v1"; Var "v2"; Var "v3"; Var "v4"; Var "v5"; Var "v6"; Var "v7"; Var "v8"; Var "v9"; Var "v10"; Var "v11"; Var "v12"]);
  mkW Void "sgemv" [((true, Char), "v0"); ((true, Int), "v1"); ((true, Int), "v2"); ((true, F32), "v3"); ((true, F32), "v4"); ((true, Int), "v5"); ((true, F32), "v6"); ((true, Int), "v7"); ((true, F32), "v8"); ((false, F32), "v9"); ((true, Int), "v10")] (RetCall "sgemv_" [Var "v0"; Var "v1"; Var "v2"; Var "v3"; Var "v4"; Var "v5"; Var "v6"; Var "v7"; Var "v8"; Var "v9"; Var "v10"]);
  mkW Void "sger" [((true, Int), "v0"); ((true, Int), "v1"); ((true, F32), "v2"); ((true, F32), "v3"); ((true, Int), "v4"); ((true, F32), "v5"); ((true, Int), "v6"); ((false, F32), "v7"); ((true, Int), "v8")] (RetCall "sger_" [Var "v0"; Var "v1"; Var "v2"; Var "v3"; Var "v4"; Var "v5"; Var "v6"; Var "v7"; Var "v8"]);
  mkW Void "ssbmv" [((true, Char), "v0"); ((true, Int), "v1"); ((true, Int), "v2"); ((true, F32), "v3"); ((true, F32), "v4"); ((true, Int), "v5"); ((true, F32), "v6"); ((true, Int), "v7"); ((true, F32), "v8"); ((false, F32), "v9"); ((true, Int), "v10")] (RetCall "ssbmv_" [Var "v0"; Var "v1"; Var "v2"; Var "v3"; Var "v4"; Var "v5"; Var "v6"; Var "v7"; Var "v8"; Var "v9"; Var "v10"]);
  mkW Void "sspmv" [((true, Char), "v0"); ((true, Int), "v1"); ((true, F32), "v2"); ((true, F32), "v3"); ((true, F32), "v4"); ((true, Int), "v5"); ((true, F32), "v6"); ((false, F32), "v7"); ((true, Int), "v8")] (RetCall "sspmv_" [Var "v0"; Var "v1"; Var "v2"; Var "v3"; Var "v4"; Var "v5"; Var "v6"; Var "v7"; Var "v8"]);
  mkW Void "sspr" [((true, Char), "v0"); ((true, Int), "v1"); ((true, F32), "v2"); ((true, F32), "v3"); ((true, Int), "v4"); ((false, F32), "v5")] (RetCall "sspr_" [Var "v0"; Var "v1"; Var "v2"; Var "v3"; Var "v4"; Var "v5"]);
  mkW Void "sspr2" [((true, Char), "v0"); ((true, Int), "v1"); ((true, F32), "v2"); ((true, F32), "v3"); ((true, Int), "v4"); ((true, F32), "v5"); ((true, Int), "v6"); ((false, F32), "v7")] (RetCall "sspr2_" [Var "v0"; Var "v1"; Var "v2"; Var "v3"; Var "v4"; Var "v5"; Var "v6"; Var "v7"]);
  mkW Void "ssymv" [((true, Char), "v0"); ((true, Int), "v1"); ((true, F32), "v2"); ((true, F32), "v3"); ((true, Int), "v4"); ((true, F32), "v5"); ((true, Int), "v6"); ((true, F32), "v7"); ((false, F32), "v8"); ((true, Int), "v9")] (RetCall "ssymv_" [Var "v0"; Var "v1"; Var "v2"; Var "v3"; Var "v4"; Var "v5"; Var "v6"; Var "v7"; Var "v8"; Var "v9"]);
  mkW Void "ssyr" [((true, Char), "v0"); ((true, Int), "v1"); ((true, F32), "v2"); ((true, F32), "v3"); ((true, Int), "v4"); ((false, F32), "v5"); ((true, Int), "v6")] (RetCall "ssyr_" [Var "v0"; Var "v1"; Var "v2"; Var "v3"; Var "v4"; Var "v5"; Var "v6"]);
  mkW Void "ssyr2" [((true, Char), "v0"); ((true, Int), "v1"); ((true, F32), "v2"); ((true, F32), "v3"); ((true, Int), "v4"); ((true, F32), "v5"); ((true, Int), "v6"); ((false, F32), "v7"); ((true, Int), "v8")] (RetCall "ssyr2_" [Var "v0"; Var "v1"; Var "v2"; Var "v3"; Var "v4"; Var "v5"; Var "v6"; Var "v7"; Var "v8"]);
  mkW Void "stbmv" [((true, Char), "v0"); ((true, Char), "v1"); ((true, Char), "v2"); ((true, Int), "v3"); ((true, Int), "v4"); ((true, F32), "v5"); ((true, Int), "v6"); ((false, F32), "v7"); ((true, Int), "v8")] (RetCall "stbmv_" [Var "v0"; Var "v1"; Var "v2"; Var "v3"; Var "v4"; Var "v5"; Var "v6"; Var "v7"; Var "v8"]);
  mkW Void "stbsv" [((true, Char), "v0"); ((true, Char), "v1"); ((true, Char), "v2"); ((true, Int), "v3"); ((true, Int), "v4"); ((true, F32), "v5"); ((true, Int), "v6"); ((false, F32), "v7"); ((true, Int), "v8")] (RetCall "stbsv_" [Var "v0"; Var "v1"; Var "v2"; Var "v3"; Var "v4"; Var "v5"; Var "v6"; Var "v7"; Var "v8"]);
  mkW Void "stpmv" [((true, Char), "v0"); ((true, Char), "v1"); ((true, Char), "v2"); ((true, Int), "v3"); ((true, F32), "v4"); ((false, F32), "v5"); ((true, Int), "v6")] (RetCall "stpmv_" [Var "v0"; Var "v1"; Var "v2"; Var "v3"; Var "v4"; Var "v5"; Var "v6"]);
  mkW Void "stpsv" [((true, Char), "v0"); ((true, Char), "v1"); ((true, Char), "v2"); ((true, Int), "v3"); ((true, F32), "v4"); ((false, F32), "v5"); ((true, Int), "v6")] (RetCall "stpsv_" [Var "v0"; Var "v1"; Var "v2"; Var "v3"; Var "v4"; Var "v5"; Var "v6"]);
  mkW Void "strmv" [((true, Char), "v0"); ((true, Char), "v1"); ((true, Char), "v2"); ((true, Int), "v3"); ((true, F32), "v4"); ((true, Int), "v5"); ((false, F32), "v6"); ((true, Int), "v7")] (RetCall "strmv_" [Var "v0"; Var "v1"; Var "v2"; Var "v3"; Var "v4"; Var "v5"; Var "v6"; Var "v7"]);
  mkW Void "strsv" [((true, Char), "v0"); ((true, Char), "v1"); ((true, Char), "v2"); ((true, Int), "v3"); ((true, F32), "v4"); ((true, Int), "v5"); ((false, F32), "v6"); ((true, Int), "v7")] (RetCall "strsv_" [Var "v0"; Var "v1"; Var "v2"; Var "v3"; Var "v4"; Var "v5"; Var "v6"; Var "v7"]);
  mkW Void "cgbmv" [((true, Char), "v0"); ((true, Int), "v1"); ((true, Int), "v2"); ((true, Int), "v3"); ((true, Int), "v4"); ((true, C32), "v5"); ((true, C32), "v6"); ((true, Int), "v7"); ((true, C32), "v8"); ((true, Int), "v9"); ((true, C32), "v10"); ((false, C32), "v11"); ((true, Int), "v12")] (RetCall "cgbmv_" [Var "v0"; Var "v1"; Var "v2"; Var "v3"; Var "v4"; Var "v5"; Var "v6"; Var "v7"; Var "v8"; Var "v9"; Var "v10"; Var "v11"; Var "v12"]);
  mkW Void "cgemv" [((true, Char), "v0"); ((true, Int), "v1"); ((true, Int), "v2"); ((true, C32), "v3"); ((true, C32), "v4"); ((true, Int), "v5"); ((true, C32), "v6"); ((true, Int), "v7"); ((true, C32), "v8"); ((false, C32), "v9"); ((true, Int), "v10")] (RetCall "cgemv_" [Var "v0"; Var "v1"; Var "v2"; Var "v3"; Var "v4"; Var "v5"; Var "v6"; Var "v7"; Var "v8"; Var "v9"; Var "v10"]);
  mkW Void "cgerc" [((true, Int), "v0"); ((true, Int), "v1"); ((true, C32), "v2"); ((true, C32), "v3"); ((true, Int), "v4"); ((true, C32), "v5"); ((true, Int), "v6"); ((false, C32), "v7"); ((true, Int), "v8")] (RetCall "cgerc_" [Var "v0"; Var "v1"; Var "v2"; Var "v3"; Var "v4"; Var "v5"; Var "v6"; Var "v7"; Var "v8"]);
  mkW Void "cgeru" [((true, Int), "v0"); ((true, Int), "v1"); ((true, C32), "v2"); ((true, C32), "v3"); ((true, Int), "v4"); ((true, C32), "v5"); ((true, Int), "v6"); ((false, C32), "v7"); ((true, Int), "v8")] (RetCall "cgeru_" [Var "v0"; Var "v1"; Var "v2"; Var "v3"; Var "v4"; Var "v5"; Var "v6"; Var "v7"; Var "v8"]);
  mkW Void "chbmv" [((true, Char), "v0"); ((true, Int), "v1"); ((true, Int), "v2"); ((true, C32), "v3"); ((true, C32), "v4"); ((true, Int), "v5"); ((true, C32), "v6"); ((true, Int), "v7"); ((true, C32), "v8"); ((false, C32), "v9"); ((true, Int), "v10")] (RetCall "chbmv_" [Var "v0"; Var "v1"; Var "v2"; Var "v3"; Var "v4"; Var "v5"; Var "v6"; Var "v7"; Var "v8"; Var "v9"; Var "v10"]);
  mkW Void "chemv" [((true, Char), "v0"); ((true, Int), "v1"); ((true, C32), "v2"); ((true, C32), "v3"); ((true, Int), "v4"); ((true, C32), "v5"); ((true, Int), "v6"); ((true, C32), "v7"); ((false, C32), "v8"); ((true, Int), "v9")] (RetCall "chemv_" [Var "v0"; Var "v1"; Var "v2"; Var "v3"; Var "v4"; Var "v5"; Var "v6"; Var "v7"; Var "v8"; Var "v9"]);
  mkW Void "cher" [((true, Char), "v0"); ((true, Int), "v1"); ((true, F32), "v2"); ((true, C32), "v3"); ((true, Int), "v4"); ((false, C32), "v5"); ((true, Int), "v6")] (RetCall "cher_" [Var "v0"; Var "v1"; Var "v2"; Var "v3"; Var "v4"; Var "v5"; Var "v6"]);
  mkW Void "cher2" [((true, Char), "v0"); ((true, Int), "v1"); ((true, C32), "v2"); ((true, C32), "v3"); ((true, Int), "v4"); ((true, C32), "v5"); ((true, Int), "v6"); ((false, C32), "v7"); ((true, Int), "v8")] (RetCall "cher2_" [Var "v0"; Var "v1"; Var "v2"; Var "v3"; Var "v4"; Var "v5"; Var "v6"; Var "v7"; Var "v8"]);
  mkW Void "chpmv" [((true, Char), "v0"); ((true, Int), "v1"); ((true, C32), "v2"); ((true, C32), "v3"); ((true, C32), "v4"); ((true, Int), "v5"); ((true, C32), "v6"); ((false, C32), "v7"); ((true, Int), "v8")] (RetCall "chpmv_" [Var "v0"; Var "v1"; Var "v2"; Var "v3"; Var "v4"; Var "v5"; Var "v6"; Var "v7"; Var "v8"]);
  mkW Void "chpr" [((true, Char), "v0"); ((true, Int), "v1"); ((true, F32), "v2"); ((true, C32), "v3"); ((true, Int), "v4"); ((false, C32), "v5")] (RetCall "chpr_" [Var "v0"; Var "v1"; Var "v2"; Var "v3"; Var "v4"; Var "v5"]);
  mkW Void "chpr2" [((true, Char), "v0"); ((true, Int), "v1"); ((true, C32), "v2"); ((true, C32), "v3"); ((true, Int), "v4"); ((true, C32), "v5"); ((true, Int), "v6"); ((false, C32), "v7")] (RetCall "chpr2_" [Var "v0"; Var "v1"; Var "v2"; Var "v3"; Var "v4"; Var "v5"; Var "v6"; Var "v7"]);
  mkW Void "ctbmv" [((true, Char), "v0"); ((true, Char), "v1"); ((true, Char), "v2"); ((true, Int), "v3"); ((true, Int), "v4"); ((true, C32), "v5"); ((true, Int), "v6"); ((false, C32), "v7"); ((true, Int), "v8")] (RetCall "ctbmv_" [Var "v0"; Var "v1"; Var "v2"; Var "v3"; Var "v4"; Var "v5"; Var "v6"; Var "v7"; Var "v8"]);
  mkW Void "ctbsv" [((true, Char), "v0"); ((true, Char), "v1"); ((true, Char), "v2"); ((true, Int), "v3"); ((true, Int), "v4"); ((true, C32), "v5"); ((true, Int), "v6"); ((false, C32), "v7"); ((true, Int), "v8")] (RetCall "ctbsv_" [Var "v0"; Var "v1"; Var "v2"; Var "v3"; Var "v4"; Var "v5"; Var "v6"; Var "v7"; Var "v8"]);
  mkW Void "ctpmv" [((true, Char), "v0"); ((true, Char), "v1"); ((true, Char), "v2"); ((true, Int), "v3"); ((true, C32), "v4"); ((false, C32), "v5"); ((true, Int), "v6")] (RetCall "ctpmv_" [Var "v0"; Var "v1"; Var "v2"; Var "v3"; Var "v4"; Var "v5"; Var "v6"]);
  mkW Void "ctpsv" [((true, Char), "v0"); ((true, Char), "v1"); ((true, Char), "v2"); ((true, Int), "v3"); ((true, C32), "v4"); ((false, C32), "v5"); ((true, Int), "v6")] (RetCall "ctpsv_" [Var "v0"; Var "v1"; Var "v2"; Var "v3"; Var "v4"; Var "v5"; Var "v6"]);
  mkW Void "ctrmv" [((true, Char), "v0"); ((true, Char), "v1"); ((true, Char), "v2"); ((true, Int), "v3"); ((true, C32), "v4"); ((true, Int), "v5"); ((false, C32), "v6"); ((true, Int), "v7")] (RetCall "ctrmv_" [Var "v0"; Var "v1"; Var "v2"; Var "v3"; Var "v4"; Var "v5"; Var "v6"; Var "v7"]);
  mkW Void "ctrsv" [((true, Char), "v0"); ((true, Char), "v1"); ((true, Char), "v2"); ((true, Int), "v3"); ((true, C32), "v4"); ((true, Int), "v5"); ((false, C32), "v6"); ((true, Int), "v7")] (RetCall "ctrsv_" [Var "v0"; Var "v1"; Var "v2"; Var "v3"; Var "v4"; Var "v5"; Var "v6"; Var "v7"]);
  mkW Void "dgbmv" [((true, Char), "v0"); ((true, Int), "v1"); ((true, Int), "v2"); ((true, Int), "v3"); ((true, Int), "v4"); ((true, F64), "v5"); ((true, F64), "v6"); ((true, Int), "v7"); ((true, F64), "v8"); ((true, Int), "v9"); ((true, F64), "v10"); ((false, F64), "v11"); ((true, Int), "v12")] (RetCall "dgbmv_" [Var "v0"; Var "v1"; Var "v2"; Var "v3"; Var "v4"; Var "v5"; Var "v6"; Var "v7"; Var "v8"; Var "v9"; Var "v10"; Var "v11"; Var "v12"]);
  mkW Void "dgemv" [((true, Char), "v0"); ((true, Int), "v1"); ((true, Int), "v2"); ((true, F64), "v3"); ((true, F64), "v4"); ((true, Int), "v5"); ((true, F64), "v6"); ((true, Int), "v7"); ((true, F64), "v8"); ((false, F64), "v9"); ((true, Int), "v10")] (RetCall "dgemv_" [Var "v0"; Var "v1"; Var "v2"; Var "v3"; Var "v4"; Var "v5"; Var "v6"; Var "v7"; Var "v8"; Var "v9"; Var "v10"]);
  mkW Void "dger" [((true, Int), "v0"); ((true, Int), "v1"); ((true, F64), "v2"); ((true, F64), "v3"); ((true, Int), "v4"); ((true, F64), "v5"); ((true, Int), "v6"); ((false, F64), "v7"); ((true, Int), "v8")] (RetCall "dger_" [Var "v0"; Var "v1"; Var "v2"; Var "v3"; Var "v4"; Var "v5"; Var "v6"; Var "v7"; Var "v8"]);
  mkW Void "dsbmv" [((true, Char), "v0"); ((true, Int), "v1"); ((true, Int), "v2"); ((true, F64), "v3"); ((true, F64), "v4"); ((true, Int), "v5"); ((true, F64), "v6"); ((true, Int), "v7"); ((true, F64), "v8"); ((false, F64), "v9"); ((true, Int), "v10")] (RetCall "dsbmv_" [Var "v0"; Var "v1"; Var "v2"; Var "v3"; Var "v4"; Var "v5"; Var "v6"; Var "v7"; Var "v8"; Var "v9"; Var "v10"]);
  mkW Void "dspmv" [((true, Char), "v0"); ((true, Int), "v1"); ((true, F64), "v2"); ((true, F64), "v3"); ((true, F64), "v4"); ((true, Int), "v5"); ((true, F64), "v6"); ((false, F64), "v7"); ((true, Int), "v8")] (RetCall "dspmv_" [Var "v0"; Var "v1"; Var "v2"; Var "v3"; Var "v4"; Var "v5"; Var "v6"; Var "v7"; Var "v8"]);
  mkW Void "dspr" [((true, Char), "v0"); ((true, Int), "v1"); ((true, F64), "v2"); ((true, F64), "v3"); ((true, Int), "v4"); ((false, F64), "v5")] (RetCall "dspr_" [Var "v0"; Var "v1"; Var "v2"; Var "v3"; Var "v4"; Var "v5"]);
  mkW Void "dspr2" [((true, Char), "v0"); ((true, Int), "v1"); ((true, F64), "v2"); ((true, F64), "v3"); ((true, Int), "v4"); ((true, F64), "v5"); ((true, Int), "v6"); ((false, F64), "v7")] (RetCall "dspr2_" [Var "v0"; Var "v1"; Var "v2"; Var "v3"; Var "v4"; Var "v5"; Var "v6"; Var "v7"]);
  mkW Void "dsymv" [((true, Char), "v0"); ((true, Int), "v1"); ((true, F64), "v2"); ((true, F64), "v3"); ((true, Int), "v4"); ((true, F64), "v5"); ((true, Int), "v6"); ((true, F64), "v7"); ((false, F64), "v8"); ((true, Int), "v9")] (RetCall "dsymv_" [Var "v0"; Var "v1"; Var "v2"; Var "v3"; Var "v4"; Var "v5"; Var "v6"; Var "v7"; Var "v8"; Var "v9"]);
  mkW Void "dsyr" [((true, Char), "v0"); ((true, Int), "v1"); ((true, F64), "v2"); ((true, F64), "v3"); ((true, Int), "v4"); ((false, F64), "v5"); ((true, Int), "v6")] (RetCall "dsyr_" [Var "v0"; Var "v1"; Var "v2"; Var "v3"; Var "v4"; Var "v5"; Var "v6"]);
  mkW Void "dsyr2" [((true, Char), "v0"); ((true, Int), "v1"); ((true, F64), "v2"); ((true, F64), "v3"); ((true, Int), "v4"); ((true, F64), "v5"); ((true, Int), "v6"); ((false, F64), "v7"); ((true, Int), "v8")] (RetCall "dsyr2_" [Var "v0"; Var "v1"; Var "v2"; Var "v3"; Var "v4"; Var "v5"; Var "v6"; Var "v7"; Var "v8"]);
  mkW Void "dtbmv" [((true, Char), "v0"); ((true, Char), "v1"); ((true, Char), "v2"); ((true, Int), "v3"); ((true, Int), "v4"); ((true, F64), "v5"); ((true, Int), "v6"); ((false, F64), "v7"); ((true, Int), "v8")] (RetCall "dtbmv_" [Var "v0"; Var "v1"; Var "v2"; Var "v3"; Var "v4"; Var "v5"; Var "v6"; Var "v7"; Var "v8"]);
  mkW Void "dtbsv" [((true, Char), "v0"); ((true, Char), "v1"); ((true, Char), "v2"); ((true, Int), "v3"); ((true, Int), "v4"); ((true, F64), "v5"); ((true, Int), "v6"); ((false, F64), "v7"); ((true, Int), "v8")] (RetCall "dtbsv_" [Var "v0"; Var "v1"; Var "v2"; Var "v3"; Var "v4"; Var "v5"; Var "v6"; Var "v7"; Var "v8"]);
  mkW Void "dtpmv" [((true, Char), "v0"); ((true, Char), "v1"); ((true, Char), "v2"); ((true, Int), "v3"); ((true, F64), "v4"); ((false, F64), "v5"); ((true, Int), "v6")] (RetCall "dtpmv_" [Var "v0"; Var "v1"; Var "v2"; Var "v3"; Var "v4"; Var "v5"; Var "v6"]);
  mkW Void "dtpsv" [((true, Char), "v0"); ((true, Char), "v1"); ((true, Char), "v2"); ((true, Int), "v3"); ((true, F64), "v4"); ((false, F64), "v5"); ((true, Int), "v6")] (RetCall "dtpsv_" [Var "v0"; Var "v1"; Var "v2"; Var "v3"; Var "v4"; Var "v5"; Var "v6"]);
  mkW Void "dtrmv" [((true, Char), "v0"); ((true, Char), "v1"); ((true, Char), "v2"); ((true, Int), "v3"); ((true, F64), "v4"); ((true, Int), "v5"); ((false, F64), "v6"); ((true, Int), "v7")] (RetCall "dtrmv_" [Var "v0"; Var "v1"; Var "v2"; Var "v3"; Var "v4"; Var "v5"; Var "v6"; Var "v7"]);
  mkW Void "dtrsv" [((true, Char), "v0"); ((true, Char), "v1"); ((true, Char), "v2"); ((true, Int), "v3"); ((true, F64), "v4"); ((true, Int), "v5"); ((false, F64), "v6"); ((true, Int), "v7")] (RetCall "dtrsv_" [Var "v0"; Var "v1"; Var "v2"; Var "v3"; Var "v4"; Var "v5"; Var "v6"; Var "v7"]);
  mkW Void "zgbmv" [((true, Char), "v0"); ((true, Int), "v1"); ((true, Int), "v2"); ((true, Int), "v3"); ((true, Int), "v4"); ((true, C64), "v5"); ((true, C64), "v6"); ((true, Int), "v7"); ((true, C64), "v8"); ((true, Int), "v9"); ((true, C64), "v10"); ((false, C64), "v11"); ((true, Int), "v12")] (RetCall "zgbmv_" [Var "v0"; Var "v1"; Var "v2"; Var "v3"; Var "v4"; Var "v5"; Var "v6"; Var "v7"; Var "v8"; Var "v9"; Var "v10"; Var "v11"; Var "v12"]);
  mkW Void "zgemv" [((true, Char), "v0"); ((true, Int), "v1"); ((true, Int), "v2"); ((true, C64), "v3"); ((true, C64), "v4"); ((true, Int), "v5"); ((true, C64), "v6"); ((true, Int), "v7"); ((true, C64), "v8"); ((false, C64), "v9"); ((true, Int), "v10")] (RetCall "zgemv_" [Var "v0"; Var "v1"; Var "v2"; Var "v3"; Var "v4"; Var "v5"; Var "v6"; Var "v7"; Var "v8"; Var "v9"; Var "v10"]);
  mkW Void "zgerc" [((true, Int), "v0"); ((true, Int), "v1"); ((true, C64), "v2"); ((true, C64), "v3"); ((true, Int), "v4"); ((true, C64), "v5"); ((true, Int), "v6"); ((false, C64), "v7"); ((true, Int), "v8")] (RetCall "zgerc_" [Var "v0"; Var "v1"; Var "v2"; Var "v3"; Var "v4"; Var "v5"; Var "v6"; Var "v7"; Var "v8"]);
  mkW Void "zgeru" [((true, Int), "v0"); ((true, Int), "v1"); ((true, C64), "v2"); ((true, C64), "v3"); ((true, Int), "v4"); ((true, C64), "v5"); ((true, Int), "v6"); ((false, C64), "v7"); ((true, Int), "v8")] (RetCall "zgeru_" [Var "v0"; Var "v1"; Var "v2"; Var "v3"; Var "v4"; Var "v5"; Var "v6"; Var "v7"; Var "v8"]);
  mkW Void "zhbmv" [((true, Char), "v0"); ((true, Int), "v1"); ((true, Int), "v2"); ((true, C64), "v3"); ((true, C64), "v4"); ((true, Int), "v5"); ((true, C64), "v6"); ((true, Int), "v7"); ((true, C64), "v8"); ((false, C64), "v9"); ((true, Int), "v10")] (RetCall "zhbmv_" [Var "v0"; Var "v1"; Var "v2"; Var "v3"; Var "v4"; Var "v5"; Var "v6"; Var "v7"; Var "v8"; Var "v9"; Var "v10"]);
  mkW Void "zhemv" [((true, Char), "v0"); ((true, Int), "v1"); ((true, C64), "v2"); ((true, C64), "v3"); ((true, Int), "v4"); ((true, C64), "v5"); ((true, Int), "v6"); ((true, C64), "v7"); ((false, C64), "v8"); ((true, Int), "v9")] (RetCall "zhemv_" [Var "v0"; Var "v1"; Var "v2"; Var "v3"; Var "v4"; Var "v5"; Var "v6"; Var "v7"; Var "v8"; Var "v9"]);
  mkW Void "zher" [((true, Char), "v0"); ((true, Int), "v1"); ((true, F64), "v2"); ((true, C64), "v3"); ((true, Int), "v4"); ((false, C64), "v5"); ((true, Int), "v6")] (RetCall "zher_" [Var "v0"; Var "v1"; Var "v2"; Var "v3"; Var "v4"; Var "v5"; Var "v6"]);
  mkW Void "zher2" [((true, Char), "v0"); ((true, Int), "v1"); ((true, C64), "v2"); ((true, C64), "v3"); ((true, Int), "v4"); ((true, C64), "v5"); ((true, Int), "v6"); ((false, C64), "v7"); ((true, Int), "v8")] (RetCall "zher2_" [Var "v0"; Var "v1"; Var "v2"; Var "v3"; Var "v4"; Var "v5"; Var "v6"; Var "v7"; Var "v8"]);
  mkW Void "zhpmv" [((true, Char), "v0"); ((true, Int), "v1"); ((true, C64), "v2"); ((true, C64), "v3"); ((true, C64), "v4"); ((true, Int), "v5"); ((true, C64), "v6"); ((false, C64), "v7"); ((true, Int), "v8")] (RetCall "zhpmv_" [Var "v0"; Var "v1"; Var "v2"; Var "v3"; Var "v4"; Var "v5"; Var "v6"; Var "v7"; Var "v8"]);
  mkW Void "zhpr" [((true, Char), "v0"); ((true, Int), "v1"); ((true, F64), "v2"); ((true, C64), "v3"); ((true, Int), "v4"); ((false, C64), "v5")] (RetCall "zhpr_" [Var "v0"; Var "v1"; Var "v2"; Var "v3"; Var "v4"; Var "v5"]);
  mkW Void "zhpr2" [((true, Char), "v0"); ((true, Int), "v1"); ((true, C64), "v2"); ((true, C64), "v3"); ((true, Int), "v4"); ((true, C64), "v5"); ((true, Int), "v6"); ((false, C64), "v7")] (RetCall "zhpr2_" [Var "v0"; Var "v1"; Var "v2"; Var "v3"; Var "v4"; Var "v5"; Var "v6"; Var "v7"]);
  mkW Void "ztbmv" [((true, Char), "v0"); ((true, Char), "v1"); ((true, Char), "v2"); ((true, Int), "v3"); ((true, Int), "v4"); ((true, C64), "v5"); ((true, Int), "v6"); ((false, C64), "v7"); ((true, Int), "v8")] (RetCall "ztbmv_" [Var "v0"; Var "v1"; Var "v2"; Var "v3"; Var "v4"; Var "v5"; Var "v6"; Var "v7"; Var "v8"]);
  mkW Void "ztbsv" [((true, Char), "v0"); ((true, Char), "v1"); ((true, Char), "v2"); ((true, Int), "v3"); ((true, Int), "v4"); ((true, C64), "v5"); ((true, Int), "v6"); ((false, C64), "v7"); ((true, Int), "v8")] (RetCall "ztbsv_" [Var "v0"; Var "v1"; Var "v2"; Var "v3"; Var "v4"; Var "v5"; Var "v6"; Var "v7"; Var "v8"]);
  mkW Void "ztpmv" [((true, Char), "v0"); ((true, Char), "v1"); ((true, Char), "v2"); ((true, Int), "v3"); ((true, C64), "v4"); ((false, C64), "v5"); ((true, Int), "v6")] (RetCall "ztpmv_" [Var "v0"; Var "v1"; Var "v2"; Var "v3"; Var "v4"; Var "v5"; Var "v6"]);
  mkW Void "ztpsv" [((true, Char), "v0"); ((true, Char), "v1"); ((true, Char), "v2"); ((true, Int), "v3"); ((true, C64), "v4"); ((false, C64), "v5"); ((true, Int), "v6")] (RetCall "ztpsv_" [Var "v0"; Var "v1"; Var "v2"; Var "v3"; Var "v4"; Var "v5"; Var "v6"]);
  mkW Void "ztrmv" [((true, Char), "v0"); ((true, Char), "v1"); ((true, Char), "v2"); ((true, Int), "v3"); ((true, C64), "v4"); ((true, Int), "v5"); ((false, C64), "v6"); ((true, Int), "v7")] (RetCall "ztrmv_" [Var "v0"; Var "v1"; Var "v2"; Var "v3"; Var "v4"; Var "v5"; Var "v6"; Var "v7"]);
  mkW Void "ztrsv" [((true, Char), "v0"); ((true, Char), "v1"); ((true, Char), "v2"); ((true, Int), "v3"); ((true, C64), "v4"); ((true, Int), "v5"); ((false, C64), "v6"); ((true, Int), "v7")] (RetCall "ztrsv_" [Var "v0"; Var "v1"; Var "v2"; Var "v3"; Var "v4"; Var "v5"; Var "v6"; Var "v7"]);
  mkW Void "sgemm" [((true, Char), "v0"); ((true, Char), "v1"); ((true, Int), "v2"); ((true, Int), "v3"); ((true, Int), "v4"); ((true, F32), "v5"); ((true, F32), "v6"); ((true, Int), "v7"); ((true, F32), "v8"); ((true, Int), "v9"); ((true, F32), "v10"); ((false, F32), "v11"); ((true, Int), "v12")] (RetCall "sgemm_" [Var "v0"; Var "v1"; Var "v2"; Var "v3"; Var "v4"; Var "v5"; Var "v6"; Var "v7"; Var "v8"; Var "v9"; Var "v10"; Var "v11"; Var "v12"]);
  mkW Void "ssymm" [((true, Char), "v0"); ((true, Char), "v1"); ((true, Int), "v2"); ((true, Int), "v3"); ((true, F32), "v4"); ((true, F32), "v5"); ((true, Int), "v6"); ((true, F32), "v7"); ((true, Int), "v8"); ((true, F32), "v9"); ((false, F32), "v10"); ((true, Int), "v11")] (RetCall "ssymm_" [Var "v0"; Var "v1"; Var "v2"; Var "v3"; Var "v4"; Var "v5"; Var "v6"; Var "v7"; Var "v8"; Var "v9"; Var "v10"; Var "v11"]);
  mkW Void "ssyr2k" [((true, Char), "v0"); ((true, Char), "v1"); ((true, Int), "v2"); ((true, Int), "v3"); ((true, F32), "v4"); ((true, F32), "v5"); ((true, Int), "v6"); ((true, F32), "v7"); ((true, Int), "v8"); ((true, F32), "v9"); ((false, F32), "v10"); ((true, Int), "v11")] (RetCall "ssyr2k_" [Var "v0"; Var "v1"; Var "v2"; Var "v3"; Var "v4"; Var "v5"; Var "v6"; Var "v7"; Var "v8"; Var "v9"; Var "v10"; Var "v11"]);
  mkW Void "ssyrk" [((true, Char), "v0"); ((true, Char), "v1"); ((true, Int), "v2"); ((true, Int), "v3"); ((true, F32), "v4"); ((true, F32), "v5"); ((true, Int), "v6"); ((true, F32), "v7"); ((false, F32), "v8"); ((true, Int), "v9")] (RetCall "ssyrk_" [Var "v0"; Var "v1"; Var "v2"; Var "v3"; Var "v4"; Var "v5"; Var "v6"; Var "v7"; Var "v8"; Var "v9"]);
  mkW Void "strmm" [((true, Char), "v0"); ((true, Char), "v1"); ((true, Char), "v2"); ((true, Char), "v3"); ((true, Int), "v4"); ((true, Int), "v5"); ((true, F32), "v6"); ((true, F32), "v7"); ((true, Int), "v8"); ((false, F32), "v9"); ((true, Int), "v10")] (RetCall "strmm_" [Var "v0"; Var "v1"; Var "v2"; Var "v3"; Var "v4"; Var "v5"; Var "v6"; Var "v7"; Var "v8"; Var "v9"; Var "v10"]);
  mkW Void "strsm" [((true, Char), "v0"); ((true, Char), "v1"); ((true, Char), "v2"); ((true, Char), "v3"); ((true, Int), "v4"); ((true, Int), "v5"); ((true, F32), "v6"); ((true, F32), "v7"); ((true, Int), "v8"); ((false, F32), "v9"); ((true, Int), "v10")] (RetCall "strsm_" [Var "v0"; Var "v1"; Var "v2"; Var "v3"; Var "v4"; Var "v5"; Var "v6"; Var "v7"; Var "v8"; Var "v9"; Var "v10"]);
  mkW Void "cgemm" [((true, Char), "v0"); ((true, Char), "v1"); ((true, Int), "v2"); ((true, Int), "v3"); ((true, Int), "v4"); ((true, C32), "v5"); ((true, C32), "v6"); ((true, Int), "v7"); ((true, C32), "v8"); ((true, Int), "v9"); ((true, C32), "v10"); ((false, C32), "v11"); ((true, Int), "v12")] (RetCall "cgemm_" [Var "v0"; Var "v1"; Var "v2"; Var "v3"; Var "v4"; Var "v5"; Var "v6"; Var "v7"; Var "v8"; Var "v9"; Var "v10"; Var "v11"; Var "v12"]);
  mkW Void "cgemm3m" [((true, Char), "v0"); ((true, Char), "v1"); ((true, Int), "v2"); ((true, Int), "v3"); ((true, Int), "v4"); ((true, C32), "v5"); ((true, C32), "v6"); ((true, Int), "v7"); ((true, C32), "v8"); ((true, Int), "v9"); ((true, C32), "v10"); ((false, C32), "v11"); ((true, Int), "v12")] (RetCall "cgemm3m_" [Var "v0"; Var "v1"; Var "v2"; Var "v3"; Var "v4"; Var "v5"; Var "v6"; Var "v7"; Var "v8"; Var "v9"; Var "v10"; Var "v11"; Var "v12"]);
  mkW Void "chemm" [((true, Char), "v0"); ((true, Char), "v1"); ((true, Int), "v2"); ((true, Int), "v3"); ((true, C32), "v4"); ((true, C32), "v5"); ((true, Int), "v6"); ((true, C32), "v7"); ((true, Int), "v8"); ((true, C32), "v9"); ((false, C32), "v10"); ((true, Int), "v11")] (RetCall "chemm_" [Var "v0"; Var "v1"; Var "v2"; Var "v3"; Var "v4"; Var "v5"; Var "v6"; Var "v7"; Var "v8"; Var "v9"; Var "v10"; Var "v11"]);
  mkW Void "cher2k" [((true, Char), "v0"); ((true, Char), "v1"); ((true, Int), "v2"); ((true, Int), "v3"); ((true, C32), "v4"); ((true, C32), "v5"); ((true, Int), "v6"); ((true, C32), "v7"); ((true, Int), "v8"); ((true, F32), "v9"); ((false, C32), "v10"); ((true, Int), "v11")] (RetCall "cher2k_" [Var "v0"; Var "v1"; Var "v2"; Var "v3"; Var "v4"; Var "v5"; Var "v6"; Var "v7"; Var "v8"; Var "v9"; Var "v10"; Var "v11"]);
  mkW Void "cherk" [((true, Char), "v0"); ((true, Char), "v1"); ((true, Int), "v2"); ((true, Int), "v3"); ((true, F32), "v4"); ((true, C32), "v5"); ((true, Int), "v6"); ((true, F32), "v7"); ((false, C32), "v8"); ((true, Int), "v9")] (RetCall "cherk_" [Var "v0"; Var "v1"; Var "v2"; Var "v3"; Var "v4"; Var "v5"; Var "v6"; Var "v7"; Var "v8"; Var "v9"]);
  mkW Void "csymm" [((true, Char), "v0"); ((true, Char), "v1"); ((true, Int), "v2"); ((true, Int), "v3"); ((true, C32), "v4"); ((true, C32), "v5"); ((true, Int), "v6"); ((true, C32), "v7"); ((true, Int), "v8"); ((true, C32), "v9"); ((false, C32), "v10"); ((true, Int), "v11")] (RetCall "csymm_" [Var "v0"; Var "v1"; Var "v2"; Var "v3"; Var "v4"; Var "v5"; Var "v6"; Var "v7"; Var "v8"; Var "v9"; Var "v10"; Var "v11"]);
  mkW Void "csyr2k" [((true, Char), "v0"); ((true, Char), "v1"); ((true, Int), "v2"); ((true, Int), "v3"); ((true, C32), "v4"); ((true, C32), "v5"); ((true, Int), "v6"); ((true, C32), "v7"); ((true, Int), "v8"); ((true, C32), "v9"); ((false, C32), "v10"); ((true, Int), "v11")] (RetCall "csyr2k_" [Var "v0"; Var "v1"; Var "v2"; Var "v3"; Var "v4"; Var "v5"; Var "v6"; Var "v7"; Var "v8"; Var "v9"; Var "v10"; Var "v11"]);
  mkW Void "csyrk" [((true, Char), "v0"); ((true, Char), "v1"); ((true, Int), "v2"); ((true, Int), "v3"); ((true, C32), "v4"); ((true, C32), "v5"); ((true, Int), "v6"); ((true, C32), "v7"); ((false, C32), "v8"); ((true, Int), "v9")] (RetCall "csyrk_" [Var "v0"; Var "v1"; Var "v2"; Var "v3"; Var "v4"; Var "v5"; Var "v6"; Var "v7"; Var "v8"; Var "v9"]);
  mkW Void "ctrmm" [((true, Char), "v0"); ((true, Char), "v1"); ((true, Char), "v2"); ((true, Char), "v3"); ((true, Int), "v4"); ((true, Int), "v5"); ((true, C32), "v6"); ((true, C32), "v7"); ((true, Int), "v8"); ((false, C32), "v9"); ((true, Int), "v10")] (RetCall "ctrmm_" [Var "v0"; Var "v1"; Var "v2"; Var "v3"; Var "v4"; Var "v5"; Var "v6"; Var "v7"; Var "v8"; Var "v9"; Var "v10"]);
  mkW Void "ctrsm" [((true, Char), "v0"); ((true, Char), "v1"); ((true, Char), "v2"); ((true, Char), "v3"); ((true, Int), "v4"); ((true, Int), "v5"); ((true, C32), "v6"); ((true, C32), "v7"); ((true, Int), "v8"); ((false, C32), "v9"); ((true, Int), "v10")] (RetCall "ctrsm_" [Var "v0"; Var "v1"; Var "v2"; Var "v3"; Var "v4"; Var "v5"; Var "v6"; Var "v7"; Var "v8"; Var "v9"; Var "v10"]);
  mkW Void "dgemm" [((true, Char), "v0"); ((true, Char), "v1"); ((true, Int), "v2"); ((true, Int), "v3"); ((true, Int), "v4"); ((true, F64), "v5"); ((true, F64), "v6"); ((true, Int), "v7"); ((true, F64), "v8"); ((true, Int), "v9"); ((true, F64), "v10"); ((false, F64), "v11"); ((true, Int), "v12")] (RetCall "dgemm_" [Var "v0"; Var "v1"; Var "v2"; Var "v3"; Var "v4"; Var "v5"; Var "v6"; Var "v7"; Var "v8"; Var "v9"; Var "v10"; Var "v11"; Var "v12"]);
  mkW Void "dsymm" [((true, Char), "v0"); ((true, Char), "v1"); ((true, Int), "v2"); ((true, Int), "v3"); ((true, F64), "v4"); ((true, F64), "v5"); ((true, Int), "v6"); ((true, F64), "v7"); ((true, Int), "v8"); ((true, F64), "v9"); ((false, F64), "v10"); ((true, Int), "v11")] (RetCall "dsymm_" [Var "v0"; Var "v1"; Var "v2"; Var "v3"; Var "v4"; Var "v5"; Var "v6"; Var "v7"; Var "v8"; Var "v9"; Var "v10"; Var "v11"]);
  mkW Void "dsyr2k" [((true, Char), "v0"); ((true, Char), "v1"); ((true, Int), "v2"); ((true, Int), "v3"); ((true, F64), "v4"); ((true, F64), "v5"); ((true, Int), "v6"); ((true, F64), "v7"); ((true, Int), "v8"); ((true, F64), "v9"); ((false, F64), "v10"); ((true, Int), "v11")] (RetCall "dsyr2k_" [Var "v0"; Var "v1"; Var "v2"; Var "v3"; Var "v4"; Var "v5"; Var "v6"; Var "v7"; Var "v8"; Var "v9"; Var "v10"; Var "v11"]);
  mkW Void "dsyrk" [((true, Char), "v0"); ((true, Char), "v1"); ((true, Int), "v2"); ((true, Int), "v3"); ((true, F64), "v4"); ((true, F64), "v5"); ((true, Int), "v6"); ((true, F64), "v7"); ((false, F64), "v8"); ((true, Int), "v9")] (RetCall "dsyrk_" [Var "v0"; Var "v1"; Var "v2"; Var "v3"; Var "v4"; Var "v5"; Var "v6"; Var "v7"; Var "v8"; Var "v9"]);
  mkW Void "dtrmm" [((true, Char), "v0"); ((true, Char), "v1"); ((true, Char), "v2"); ((true, Char), "v3"); ((true, Int), "v4"); ((true, Int), "v5"); ((true, F64), "v6"); ((true, F64), "v7"); ((true, Int), "v8"); ((false, F64), "v9"); ((true, Int), "v10")] (RetCall "dtrmm_" [Var "v0"; Var "v1"; Var "v2"; Var "v3"; Var "v4"; Var "v5"; Var "v6"; Var "v7"; Var "v8"; Var "v9"; Var "v10"]);
  mkW Void "dtrsm" [((true, Char), "v0"); ((true, Char), "v1"); ((true, Char), "v2"); ((true, Char), "v3"); ((true, Int), "v4"); ((true, Int), "v5"); ((true, F64), "v6"); ((true, F64), "v7"); ((true, Int), "v8"); ((false, F64), "v9"); ((true, Int), "v10")] (RetCall "dtrsm_" [Var "v0"; Var "v1"; Var "v2"; Var "v3"; Var "v4"; Var "v5"; Var "v6"; Var "v7"; Var "v8"; Var "v9"; Var "v10"]);
  mkW Void "zgemm" [((true, Char), "v0"); ((true, Char), "v1"); ((true, Int), "v2"); ((true, Int), "v3"); ((true, Int), "v4"); ((true, C64), "v5"); ((true, C64), "v6"); ((true, Int), "v7"); ((true, C64), "v8"); ((true, Int), "v9"); ((true, C64), "v10"); ((false, C64), "v11"); ((true, Int), "v12")] (RetCall "zgemm_" [Var "v0"; Var "v1"; Var "v2"; Var "v3"; Var "v4"; Var "v5"; Var "v6"; Var "v7"; Var "v8"; Var "v9"; Var "v10"; Var "v11"; Var "v12"]);
  mkW Void "zgemm3m" [((true, Char), "v0"); ((true, Char), "v1"); ((true, Int), "v2"); ((true, Int), "v3"); ((true, Int), "v4"); ((true, C64), "v5"); ((true, C64), "v6"); ((true, Int), "v7"); ((true, C64), "v8"); ((true, Int), "v9"); ((true, C64), "v10"); ((false, C64), "v11"); ((true, Int), "v12")] (RetCall "zgemm3m_" [Var "v0"; Var "v1"; Var "v2"; Var "v3"; Var "v4"; Var "v5"; Var "v6"; Var "v7"; Var "v8"; Var "v9"; Var "v10"; Var "v11"; Var "v12"]);
  mkW Void "zhemm" [((true, Char), "v0"); ((true, Char), "v1"); ((true, Int), "v2"); ((true, Int), "v3"); ((true, C64), "v4"); ((true, C64), "v5"); ((true, Int), "v6"); ((true, C64), "v7"); ((true, Int), "v8"); ((true, C64), "v9"); ((false, C64), "v10"); ((true, Int), "v11")] (RetCall "zhemm_" [Var "v0"; Var "v1"; Var "v2"; Var "v3"; Var "v4"; Var "v5"; Var "v6"; Var "v7"; Var "v8"; Var "v9"; Var "v10"; Var "v11"]);
  mkW Void "zher2k" [((true, Char), "v0"); ((true, Char), "v1"); ((true, Int), "v2"); ((true, Int), "v3"); ((true, C64), "v4"); ((true, C64), "v5"); ((true, Int), "v6"); ((true, C64), "v7"); ((true, Int), "v8"); ((true, F64), "v9"); ((false, C64), "v10"); ((true, Int), "v11")] (RetCall "zher2k_" [Var "v0"; Var "v1"; Var "v2"; Var "v3"; Var "v4"; Var "v5"; Var "v6"; Var "v7"; Var "v8"; Var "v9"; Var "v10"; Var "v11"]);
  mkW Void "zherk" [((true, Char), "v0"); ((true, Char), "v1"); ((true, Int), "v2"); ((true, Int), "v3"); ((true, F64), "v4"); ((true, C64), "v5"); ((true, Int), "v6"); ((true, F64), "v7"); ((false, C64), "v8"); ((true, Int), "v9")] (RetCall "zherk_" [Var "v0"; Var "v1"; Var "v2"; Var "v3"; Var "v4"; Var "v5"; Var "v6"; Var "v7"; Var "v8"; Var "v9"]);
  mkW Void "zsymm" [((true, Char), "v0"); ((true, Char), "v1"); ((true, Int), "v2"); ((true, Int), "v3"); ((true, C64), "v4"); ((true, C64), "v5"); ((true, Int), "v6"); ((true, C64), "v7"); ((true, Int), "v8"); ((true, C64), "v9"); ((false, C64), "v10"); ((true, Int), "v11")] (RetCall "zsymm_" [Var "v0"; Var "v1"; Var "v2"; Var "v3"; Var "v4"; Var "v5"; Var "v6"; Var "v7"; Var "v8"; Var "v9"; Var "v10"; Var "v11"]);
  mkW Void "zsyr2k" [((true, Char), "v0"); ((true, Char), "v1"); ((true, Int), "v2"); ((true, Int), "v3"); ((true, C64), "v4"); ((true, C64), "v5"); ((true, Int), "v6"); ((true, C64), "v7"); ((true, Int), "v8"); ((true, C64), "v9"); ((false, C64), "v10"); ((true, Int), "v11")] (RetCall "zsyr2k_" [Var "v0"; Var "v1"; Var "v2"; Var "v3"; Var "v4"; Var "v5"; Var "v6"; Var "v7"; Var "v8"; Var "v9"; Var "v10"; Var "v11"]);
  mkW Void "zsyrk" [((true, Char), "v0"); ((true, Char), "v1"); ((true, Int), "v2"); ((true, Int), "v3"); ((true, C64), "v4"); ((true, C64), "v5"); ((true, Int), "v6"); ((true, C64), "v7"); ((false, C64), "v8"); ((true, Int), "v9")] (RetCall "zsyrk_" [Var "v0"; Var "v1"; Var "v2"; Var "v3"; Var "v4"; Var "v5"; Var "v6"; Var "v7"; Var "v8"; Var "v9"]);
  mkW Void "ztrmm" [((true, Char), "v0"); ((true, Char), "v1"); ((true, Char), "v2"); ((true, Char), "v3"); ((true, Int), "v4"); ((true, Int), "v5"); ((true, C64), "v6"); ((true, C64), "v7"); ((true, Int), "v8"); ((false, C64), "v9"); ((true, Int), "v10")] (RetCall "ztrmm_" [Var "v0"; Var "v1"; Var "v2"; Var "v3"; Var "v4"; Var "v5"; Var "v6"; Var "v7"; Var "v8"; Var "v9"; Var "v10"]);
  mkW Void "ztrsm" [((true, Char), "v0"); ((true, Char), "v1"); ((true, Char), "v2"); ((true, Char), "v3"); ((true, Int), "v4"); ((true, Int), "v5"); ((true, C64), "v6"); ((true, C64), "v7"); ((true, Int), "v8"); ((false, C64), "v9"); ((true, Int), "v10")] (RetCall "ztrsm_" [Var "v0"; Var "v1"; Var "v2"; Var "v3"; Var "v4"; Var "v5"; Var "v6"; Var "v7"; Var "v8"; Var "v9"; Var "v10"]);
  mkW Void "dcsrmm" [((true, Char), "v0"); ((true, Int), "v1"); ((true, Int), "v2"); ((true, Int), "v3"); ((true, F64), "v4"); ((true, Char), "v5"); ((true, F64), "v6"); ((true, Int), "v7"); ((true, Int), "v8"); ((true, Int), "v9"); ((true, F64), "v10"); ((true, Int), "v11"); ((true, F64), "v12"); ((false, F64), "v13"); ((true, Int), "v14")] (RetCall "mkl_dcsrmm" [Var "v0"; Var "v1"; Var "v2"; Var "v3"; Var "v4"; Var "v5"; Var "v6"; Var "v7"; Var "v8"; Var "v9"; Var "v10"; Var "v11"; Var "v12"; Var "v13"; Var "v14"]);
  mkW Void "dcsrmultcsr" [((true, Char), "v0"); ((true, Int), "v1"); ((true, Int), "v2"); ((true, Int), "v3"); ((true, Int), "v4"); ((true, Int), "v5"); ((false, F64), "v6"); ((false, Int), "v7"); ((false, Int), "v8"); ((false, F64), "v9"); ((false, Int), "v10"); ((false, Int), "v11"); ((false, F64), "v12"); ((false, Int), "v13"); ((false, Int), "v14"); ((true, Int), "v15"); ((false, Int), "v16")] (RetCall "mkl_dcsrmultcsr" [Var "v0"; Var "v1"; Var "v2"; Var "v3"; Var "v4"; Var "v5"; Var "v6"; Var "v7"; Var "v8"; Var "v9"; Var "v10"; Var "v11"; Var "v12"; Var "v13"; Var "v14"; Var "v15"; Var "v16"]);
  mkW Void "scsrmm" [((true, Char), "v0"); ((true, Int), "v1"); ((true, Int), "v2"); ((true, Int), "v3"); ((true, F32), "v4"); ((true, Char), "v5"); ((true, F32), "v6"); ((true, Int), "v7"); ((true, Int), "v8"); ((true, Int), "v9"); ((true, F32), "v10"); ((true, Int), "v11"); ((true, F32), "v12"); ((false, F32), "v13"); ((true, Int), "v14")] (RetCall "mkl_scsrmm" [Var "v0"; Var "v1"; Var "v2"; Var "v3"; Var "v4"; Var "v5"; Var "v6"; Var "v7"; Var "v8"; Var "v9"; Var "v10"; Var "v11"; Var "v12"; Var "v13"; Var "v14"]);
  mkW Void "scsrmultcsr" [((true, Char), "v0"); ((true, Int), "v1"); ((true, Int), "v2"); ((true, Int), "v3"); ((true, Int), "v4"); ((true, Int), "v5"); ((false, F32), "v6"); ((false, Int), "v7"); ((false, Int), "v8"); ((false, F32), "v9"); ((false, Int), "v10"); ((false, Int), "v11"); ((false, F32), "v12"); ((false, Int), "v13"); ((false, Int), "v14"); ((true, Int), "v15"); ((false, Int), "v16")] (RetCall "mkl_scsrmultcsr" [Var "v0"; Var "v1"; Var "v2"; Var "v3"; Var "v4"; Var "v5"; Var "v6"; Var "v7"; Var "v8"; Var "v9"; Var "v10"; Var "v11"; Var "v12"; Var "v13"; Var "v14"; Var "v15"; Var "v16"]);
  mkW C32 "cdotc" [((true, Int), "v1"); ((true, C32), "v2"); ((true, Int), "v3"); ((true, C32), "v4"); ((true, Int), "v5")] (LocalCall C32 "result" "cdotc_" [AddrOf "result"; Var "v1"; Var "v2"; Var "v3"; Var "v4"; Var "v5"] "result");
  mkW C32 "cdotu" [((true, Int), "v1"); ((true, C32), "v2"); ((true, Int), "v3"); ((true, C32), "v4"); ((true, Int), "v5")] (LocalCall C32 "result" "cdotu_" [AddrOf "result"; Var "v1"; Var "v2"; Var "v3"; Var "v4"; Var "v5"] "result");
  mkW C64 "zdotc" [((true, Int), "v1"); ((true, C64), "v2"); ((true, Int), "v3"); ((true, C64), "v4"); ((true, Int), "v5")] (LocalCall C64 "result" "zdotc_" [AddrOf "result"; Var "v1"; Var "v2"; Var "v3"; Var "v4"; Var "v5"] "result");
  mkW C64 "zdotu" [((true, Int), "v1"); ((true, C64), "v2"); ((true, Int), "v3"); ((true, C64), "v4"); ((true, Int), "v5")] (LocalCall C64 "result" "zdotu_" [AddrOf "result"; Var "v1"; Var "v2"; Var "v3"; Var "v4"; Var "v5"] "result")
].

(** include/BlasBooster/BlasInterface/BlasInterface_OpenBLAS.h *)
Definition openblas_h : list fn := [
  mkFn F32 "scabs1" [(true, C32)];
  mkFn F32 "sasum" [(true, Int); (true, F32); (true, Int)];
  mkFn Void "saxpy" [(true, Int); (true, F32); (true, F32); (true, Int); (false, F32); (true, Int)];
  mkFn Void "saxpby" [(true, Int); (true, F32); (true, F32); (true, Int); (true, F32); (false, F32); (true, Int)];
  mkFn F32 "scasum" [(true, Int); (true, C32); (true, Int)];
  mkFn F32 "scnrm2" [(true, Int); (true, C32); (true, Int)];
  mkFn Void "scopy" [(true, Int); (true, F32); (true, Int); (false, F32); (true, Int)];
  mkFn F32 "sdot" [(true, Int); (true, F32); (true, Int); (true, F32); (true, Int)];
  mkFn F32 "sdsdot" [(true, Int); (true, F32); (true, F32); (true, Int); (true, F32); (true, Int)];
  mkFn F32 "snrm2" [(true, Int); (true, F32); (true, Int)];
  mkFn Void "srot" [(true, Int); (false, F32); (true, Int); (false, F32); (true, Int); (true, F32); (true, F32)];
  mkFn Void "srotg" [(false, F32); (false, F32); (false, F32); (false, F32)];
  mkFn Void "srotm" [(true, Int); (false, F32); (true, Int); (false, F32); (true, Int); (true, F32)];
  mkFn Void "srotmg" [(false, F32); (false, F32); (false, F32); (true, F32); (false, F32)];
  mkFn Void "sscal" [(true, Int); (true, F32); (false, F32); (true, Int)];
  mkFn Void "sswap" [(true, Int); (false, F32); (true, Int); (false, F32); (true, Int)];
  mkFn Int "isamax" [(true, Int); (true, F32); (true, Int)];
  mkFn Int "isamin" [(true, Int); (true, F32); (true, Int)];
  mkFn Void "caxpy" [(true, Int); (true, C32); (true, C32); (true, Int); (false, C32); (true, Int)];
  mkFn Void "caxpby" [(true, Int); (true, C32); (true, C32); (true, Int); (true, C32); (false, C32); (true, Int)];
  mkFn Void "ccopy" [(true, Int); (true, C32); (true, Int); (false, C32); (true, Int)];
  mkFn Void "crotg" [(false, C32); (true, C32); (false, F32); (false, C32)];
  mkFn Void "cscal" [(true, Int); (true, C32); (false, C32); (true, Int)];
  mkFn Void "csrot" [(true, Int); (false, C32); (true, Int); (false, C32); (true, Int); (true, F32); (true, F32)];
  mkFn Void "csscal" [(true, Int); (true, F32); (false, C32); (true, Int)];
  mkFn Void "cswap" [(true, Int); (false, C32); (true, Int); (false, C32); (true, Int)];
  mkFn Int "icamax" [(true, Int); (true, C32); (true, Int)];
  mkFn Int "icamin" [(true, Int); (true, C32); (true, Int)];
  mkFn F64 "dcabs1" [(true, C64)];
  mkFn F64 "dasum" [(true, Int); (true, F64); (true, Int)];
  mkFn Void "daxpy" [(true, Int); (true, F64); (true, F64); (true, Int); (false, F64); (true, Int)];
  mkFn Void "daxpby" [(true, Int); (true, F64); (true, F64); (true, Int); (true, F64); (false, F64); (true, Int)];
  mkFn Void "dcopy" [(true, Int); (true, F64); (true, Int); (false, F64); (true, Int)];
  mkFn F64 "ddot" [(true, Int); (true, F64); (true, Int); (true, F64); (true, Int)];
  mkFn F64 "dsdot" [(true, Int); (true, F32); (true, Int); (true, F32); (true, Int)];
  mkFn F64 "dnrm2" [(true, Int); (true, F64); (true, Int)];
  mkFn Void "drot" [(true, Int); (false, F64); (true, Int); (false, F64); (true, Int); (true, F64); (true, F64)];
  mkFn Void "drotg" [(false, F64); (false, F64); (false, F64); (false, F64)];
  mkFn Void "drotm" [(true, Int); (false, F64); (true, Int); (false, F64); (true, Int); (true, F64)];
  mkFn Void "drotmg" [(false, F64); (false, F64); (false, F64); (true, F64); (false, F64)];
  mkFn Void "dscal" [(true, Int); (true, F64); (false, F64); (true, Int)];
  mkFn Void "dswap" [(true, Int); (false, F64); (true, Int); (false, F64); (true, Int)];
  mkFn F64 "dzasum" [(true, Int); (true, C64); (true, Int)];
  mkFn F64 "dznrm2" [(true, Int); (true, C64); (true, Int)];
  mkFn Int "idamax" [(true, Int); (true, F64); (true, Int)];
  mkFn Int "idamin" [(true, Int); (true, F64); (true, Int)];
  mkFn Void "zaxpy" [(true, Int); (true, C64); (true, C64); (true, Int); (false, C64); (true, Int)];
  mkFn Void "zaxpby" [(true, Int); (true, C64); (true, C64); (true, Int); (true, C64); (false, C64); (true, Int)];
  mkFn Void "zcopy" [(true, Int); (true, C64); (true, Int); (false, C64); (true, Int)];
  mkFn Void "zdrot" [(true, Int); (false, C64); (true, Int); (false, C64); (true, Int); (true, F64); (true, F64)];
  mkFn Void "zdscal" [(true, Int); (true, F64); (false, C64); (true, Int)];
  mkFn Void "zrotg" [(false, C64); (true, C64); (false, F64); (false, C64)];
  mkFn Void "zscal" [(true, Int); (true, C64); (false, C64); (true, Int)];
  mkFn Void "zswap" [(true, Int); (false, C64); (true, Int); (false, C64); (true, Int)];
  mkFn Int "izamax" [(true, Int); (true, C64); (true, Int)];
  mkFn Int "izamin" [(true, Int); (true, C64); (true, Int)];
  mkFn Void "sgbmv" [(true, Char); (true, Int); (true, Int); (true, Int); (true, Int); (true, F32); (true, F32); (true, Int); (true, F32); (true, Int); (true, F32); (false, F32); (true, Int)];
  mkFn Void "sgemv" [(true, Char); (true, Int); (true, Int); (true, F32); (true, F32); (true, Int); (true, F32); (true, Int); (true, F32); (false, F32); (true, Int)];
  mkFn Void "sger" [(true, Int); (true, Int); (true, F32); (true, F32); (true, Int); (true, F32); (true, Int); (false, F32); (true, Int)];
  mkFn Void "ssbmv" [(true, Char); (true, Int); (true, Int); (true, F32); (true, F32); (true, Int); (true, F32); (true, Int); (true, F32); (false, F32); (true, Int)];
  mkFn Void "sspmv" [(true, Char); (true, Int); (true, F32); (true, F32); (true, F32); (true, Int); (true, F32); (false, F32); (true, Int)];
  mkFn Void "sspr" [(true, Char); (true, Int); (true, F32); (true, F32); (true, Int); (false, F32)];
  mkFn Void "sspr2" [(true, Char); (true, Int); (true, F32); (true, F32); (true, Int); (true, F32); (true, Int); (false, F32)];
  mkFn Void "ssymv" [(true, Char); (true, Int); (true, F32); (true, F32); (true, Int); (true, F32); (true, Int); (true, F32); (false, F32); (true, Int)];
  mkFn Void "ssyr" [(true, Char); (true, Int); (true, F32); (true, F32); (true, Int); (false, F32); (true, Int)];
  mkFn Void "ssyr2" [(true, Char); (true, Int); (true, F32); (true, F32); (true, Int); (true, F32); (true, Int); (false, F32); (true, Int)];
  mkFn Void "stbmv" [(true, Char); (true, Char); (true, Char); (true, Int); (true, Int); (true, F32); (true, Int); (false, F32); (true, Int)];
  mkFn Void "stbsv" [(true, Char); (true, Char); (true, Char); (true, Int); (true, Int); (true, F32); (true, Int); (false, F32); (true, Int)];
  mkFn Void "stpmv" [(true, Char); (true, Char); (true, Char); (true, Int); (true, F32); (false, F32); (true, Int)];
  mkFn Void "stpsv" [(true, Char); (true, Char); (true, Char); (true, Int); (true, F32); (false, F32); (true, Int)];
  mkFn Void "strmv" [(true, Char); (true, Char); (true, Char); (true, Int); (true, F32); (true, Int); (false, F32); (true, Int)];
  mkFn Void "strsv" [(true, Char); (true, Char); (true, Char); (true, Int); (true, F32); (true, Int); (false, F32); (true, Int)];
  mkFn Void "cgbmv" [(true, Char); (true, Int); (true, Int); (true, Int); (true, Int); (true, C32); (true, C32); (true, Int); (true, C32); (true, Int); (true, C32); (false, C32); (true, Int)];
  mkFn Void "cgemv" [(true, Char); (true, Int); (true, Int); (true, C32); (true, C32); (true, Int); (true, C32); (true, Int); (true, C32); (false, C32); (true, Int)];
  mkFn Void "cgerc" [(true, Int); (true, Int); (true, C32); (true, C32); (true, Int); (true, C32); (true, Int); (false, C32); (true, Int)];
  mkFn Void "cgeru" [(true, Int); (true, Int); (true, C32); (true, C32); (true, Int); (true, C32); (true, Int); (false, C32); (true, Int)];
  mkFn Void "chbmv" [(true, Char); (true, Int); (true, Int); (true, C32); (true, C32); (true, Int); (true, C32); (true, Int); (true, C32); (false, C32); (true, Int)];
  mkFn Void "chemv" [(true, Char); (true, Int); (true, C32); (true, C32); (true, Int); (true, C32); (true, Int); (true, C32); (false, C32); (true, Int)];
  mkFn Void "cher" [(true, Char); (true, Int); (true, F32); (true, C32); (true, Int); (false, C32); (true, Int)];
  mkFn Void "cher2" [(true, Char); (true, Int); (true, C32); (true, C32); (true, Int); (true, C32); (true, Int); (false, C32); (true, Int)];
  mkFn Void "chpmv" [(true, Char); (true, Int); (true, C32); (true, C32); (true, C32); (true, Int); (true, C32); (false, C32); (true, Int)];
  mkFn Void "chpr" [(true, Char); (true, Int); (true, F32); (true, C32); (true, Int); (false, C32)];
  mkFn Void "chpr2" [(true, Char); (true, Int); (true, C32); (true, C32); (true, Int); (true, C32); (true, Int); (false, C32)];
  mkFn Void "ctbmv" [(true, Char); (true, Char); (true, Char); (true, Int); (true, Int); (true, C32); (true, Int); (false, C32); (true, Int)];
  mkFn Void "ctbsv" [(true, Char); (true, Char); (true, Char); (true, Int); (true, Int); (true, C32); (true, Int); (false, C32); (true, Int)];
  mkFn Void "ctpmv" [(true, Char); (true, Char); (true, Char); (true, Int); (true, C32); (false, C32); (true, Int)];
  mkFn Void "ctpsv" [(true, Char); (true, Char); (true, Char); (true, Int); (true, C32); (false, C32); (true, Int)];
  mkFn Void "ctrmv" [(true, Char); (true, Char); (true, Char); (true, Int); (true, C32); (true, Int); (false, C32); (true, Int)];
  mkFn Void "ctrsv" [(true, Char); (true, Char); (true, Char); (true, Int); (true, C32); (true, Int); (false, C32); (true, Int)];
  mkFn Void "dgbmv" [(true, Char); (true, Int); (true, Int); (true, Int); (true, Int); (true, F64); (true, F64); (true, Int); (true, F64); (true, Int); (true, F64); (false, F64); (true, Int)];
  mkFn Void "dgemv" [(true, Char); (true, Int); (true, Int); (true, F64); (true, F64); (true, Int); (true, F64); (true, Int); (true, F64); (false, F64); (true, Int)];
  mkFn Void "dger" [(true, Int); (true, Int); (true, F64); (true, F64); (true, Int); (true, F64); (true, Int); (false, F64); (true, Int)];
  mkFn Void "dsbmv" [(true, Char); (true, Int); (true, Int); (true, F64); (true, F64); (true, Int); (true, F64); (true, Int); (true, F64); (false, F64); (true, Int)];
  mkFn Void "dspmv" [(true, Char); (true, Int); (true, F64); (true, F64); (true, F64); (true, Int); (true, F64); (false, F64); (true, Int)];
  mkFn Void "dspr" [(true, Char); (true, Int); (true, F64); (true, F64); (true, Int); (false, F64)];
  mkFn Void "dspr2" [(true, Char); (true, Int); (true, F64); (true, F64); (true, Int); (true, F64); (true, Int); (false, F64)];
  mkFn Void "dsymv" [(true, Char); (true, Int); (true, F64); (true, F64); (true, Int); (true, F64); (true, Int); (true, F64); (false, F64); (true, Int)];
  mkFn Void "dsyr" [(true, Char); (true, Int); (true, F64); (true, F64); (true, Int); (false, F64); (true, Int)];
  mkFn Void "dsyr2" [(true, Char); (true, Int); (true, F64); (true, F64); (true, Int); (true, F64); (true, Int); (false, F64); (true, Int)];
  mkFn Void "dtbmv" [(true, Char); (true, Char); (true, Char); (true, Int); (true, Int); (true, F64); (true, Int); (false, F64); (true, Int)];
  mkFn Void "dtbsv" [(true, Char); (true, Char); (true, Char); (true, Int); (true, Int); (true, F64); (true, Int); (false, F64); (true, Int)];
  mkFn Void "dtpmv" [(true, Char); (true, Char); (true, Char); (true, Int); (true, F64); (false, F64); (true, Int)];
  mkFn Void "dtpsv" [(true, Char); (true, Char); (true, Char); (true, Int); (true, F64); (false, F64); (true, Int)];
  mkFn Void "dtrmv" [(true, Char); (true, Char); (true, Char); (true, Int); (true, F64); (true, Int); (false, F64); (true, Int)];
  mkFn Void "dtrsv" [(true, Char); (true, Char); (true, Char); (true, Int); (true, F64); (true, Int); (false, F64); (true, Int)];
  mkFn Void "zgbmv" [(true, Char); (true, Int); (true, Int); (true, Int); (true, Int); (true, C64); (true, C64); (true, Int); (true, C64); (true, Int); (true, C64); (false, C64); (true, Int)];
  mkFn Void "zgemv" [(true, Char); (true, Int); (true, Int); (true, C64); (true, C64); (true, Int); (true, C64); (true, Int); (true, C64); (false, C64); (true, Int)];
  mkFn Void "zgerc" [(true, Int); (true, Int); (true, C64); (true, C64); (true, Int); (true, C64); (true, Int); (false, C64); (true, Int)];
  mkFn Void "zgeru" [(true, Int); (true, Int); (true, C64); (true, C64); (true, Int); (true, C64); (true, Int); (false, C64); (true, Int)];
  mkFn Void "zhbmv" [(true, Char); (true, Int); (true, Int); (true, C64); (true, C64); (true, Int); (true, C64); (true, Int); (true, C64); (false, C64); (true, Int)];
  mkFn Void "zhemv" [(true, Char); (true, Int); (true, C64); (true, C64); (true, Int); (true, C64); (true, Int); (true, C64); (false, C64); (true, Int)];
  mkFn Void "zher" [(true, Char); (true, Int); (true, F64); (true, C64); (true, Int); (false, C64); (true, Int)];
  mkFn Void "zher2" [(true, Char); (true, Int); (true, C64); (true, C64); (true, Int); (true, C64); (true, Int); (false, C64); (true, Int)];
  mkFn Void "zhpmv" [(true, Char); (true, Int); (true, C64); (true, C64); (true, C64); (true, Int); (true, C64); (false, C64); (true, Int)];
  mkFn Void "zhpr" [(true, Char); (true, Int); (true, F64); (true, C64); (true, Int); (false, C64)];
  mkFn Void "zhpr2" [(true, Char); (true, Int); (true, C64); (true, C64); (true, Int); (true, C64); (true, Int); (false, C64)];
  mkFn Void "ztbmv" [(true, Char); (true, Char); (true, Char); (true, Int); (true, Int); (true, C64); (true, Int); (false, C64); (true, Int)];
  mkFn Void "ztbsv" [(true, Char); (true, Char); (true, Char); (true, Int); (true, Int); (true, C64); (true, Int); (false, C64); (true, Int)];
  mkFn Void "ztpmv" [(true, Char); (true, Char); (true, Char); (true, Int); (true, C64); (false, C64); (true, Int)];
  mkFn Void "ztpsv" [(true, Char); (true, Char); (true, Char); (true, Int); (true, C64); (false, C64); (true, Int)];
  mkFn Void "ztrmv" [(true, Char); (true, Char); (true, Char); (true, Int); (true, C64); (true, Int); (false, C64); (true, Int)];
  mkFn Void "ztrsv" [(true, Char); (true, Char); (true, Char); (true, Int); (true, C64); (true, Int); (false, C64); (true, Int)];
  mkFn Void "sgemm" [(true, Char); (true, Char); (true, Int); (true, Int); (true, Int); (true, F32); (true, F32); (true, Int); (true, F32); (true, Int); (true, F32); (false, F32); (true, Int)];
  mkFn Void "ssymm" [(true, Char); (true, Char); (true, Int); (true, Int); (true, F32); (true, F32); (true, Int); (true, F32); (true, Int); (true, F32); (false, F32); (true, Int)];
  mkFn Void "ssyr2k" [(true, Char); (true, Char); (true, Int); (true, Int); (true, F32); (true, F32); (true, Int); (true, F32); (true, Int); (true, F32); (false, F32); (true, Int)];
  mkFn Void "ssyrk" [(true, Char); (true, Char); (true, Int); (true, Int); (true, F32); (true, F32); (true, Int); (true, F32); (false, F32); (true, Int)];
  mkFn Void "strmm" [(true, Char); (true, Char); (true, Char); (true, Char); (true, Int); (true, Int); (true, F32); (true, F32); (true, Int); (false, F32); (true, Int)];
  mkFn Void "strsm" [(true, Char); (true, Char); (true, Char); (true, Char); (true, Int); (true, Int); (true, F32); (true, F32); (true, Int); (false, F32); (true, Int)];
  mkFn Void "cgemm" [(true, Char); (true, Char); (true, Int); (true, Int); (true, Int); (true, C32); (true, C32); (true, Int); (true, C32); (true, Int); (true, C32); (false, C32); (true, Int)];
  mkFn Void "cgemm3m" [(true, Char); (true, Char); (true, Int); (true, Int); (true, Int); (true, C32); (true, C32); (true, Int); (true, C32); (true, Int); (true, C32); (false, C32); (true, Int)];
  mkFn Void "chemm" [(true, Char); (true, Char); (true, Int); (true, Int); (true, C32); (true, C32); (true, Int); (true, C32); (true, Int); (true, C32); (false, C32); (true, Int)];
  mkFn Void "cher2k" [(true, Char); (true, Char); (true, Int); (true, Int); (true, C32); (true, C32); (true, Int); (true, C32); (true, Int); (true, F32); (false, C32); (true, Int)];
  mkFn Void "cherk" [(true, Char); (true, Char); (true, Int); (true, Int); (true, F32); (true, C32); (true, Int); (true, F32); (false, C32); (true, Int)];
  mkFn Void "csymm" [(true, Char); (true, Char); (true, Int); (true, Int); (true, C32); (true, C32); (true, Int); (true, C32); (true, Int); (true, C32); (false, C32); (true, Int)];
  mkFn Void "csyr2k" [(true, Char); (true, Char); (true, Int); (true, Int); (true, C32); (true, C32); (true, Int); (true, C32); (true, Int); (true, C32); (false, C32); (true, Int)];
  mkFn Void "csyrk" [(true, Char); (true, Char); (true, Int); (true, Int); (true, C32); (true, C32); (true, Int); (true, C32); (false, C32); (true, Int)];
  mkFn Void "ctrmm" [(true, Char); (true, Char); (true, Char); (true, Char); (true, Int); (true, Int); (true, C32); (true, C32); (true, Int); (false, C32); (true, Int)];
  mkFn Void "ctrsm" [(true, Char); (true, Char); (true, Char); (true, Char); (true, Int); (true, Int); (true, C32); (true, C32); (true, Int); (false, C32); (true, Int)];
  mkFn Void "dgemm" [(true, Char); (true, Char); (true, Int); (true, Int); (true, Int); (true, F64); (true, F64); (true, Int); (true, F64); (true, Int); (true, F64); (false, F64); (true, Int)];
  mkFn Void "dsymm" [(true, Char); (true, Char); (true, Int); (true, Int); (true, F64); (true, F64); (true, Int); (true, F64); (true, Int); (true, F64); (false, F64); (true, Int)];
  mkFn Void "dsyr2k" [(true, Char); (true, Char); (true, Int); (true, Int); (true, F64); (true, F64); (true, Int); (true, F64); (true, Int); (true, F64); (false, F64); (true, Int)];
  mkFn Void "dsyrk" [(true, Char); (true, Char); (true, Int); (true, Int); (true, F64); (true, F64); (true, Int); (true, F64); (false, F64); (true, Int)];
  mkFn Void "dtrmm" [(true, Char); (true, Char); (true, Char); (true, Char); (true, Int); (true, Int); (true, F64); (true, F64); (true, Int); (false, F64); (true, Int)];
  mkFn Void "dtrsm" [(true, Char); (true, Char); (true, Char); (true, Char); (true, Int); (true, Int); (true, F64); (true, F64); (true, Int); (false, F64); (true, Int)];
  mkFn Void "zgemm" [(true, Char); (true, Char); (true, Int); (true, Int); (true, Int); (true, C64); (true, C64); (true, Int); (true, C64); (true, Int); (true, C64); (false, C64); (true, Int)];
  mkFn Void "zgemm3m" [(true, Char); (true, Char); (true, Int); (true, Int); (true, Int); (true, C64); (true, C64); (true, Int); (true, C64); (true, Int); (true, C64); (false, C64); (true, Int)];
  mkFn Void "zhemm" [(true, Char); (true, Char); (true, Int); (true, Int); (true, C64); (true, C64); (true, Int); (true, C64); (true, Int); (true, C64); (false, C64); (true, Int)];
  mkFn Void "zher2k" [(true, Char); (true, Char); (true, Int); (true, Int); (true, C64); (true, C64); (true, Int); (true, C64); (true, Int); (true, F64); (false, C64); (true, Int)];
  mkFn Void "zherk" [(true, Char); (true, Char); (true, Int); (true, Int); (true, F64); (true, C64); (true, Int); (true, F64); (false, C64); (true, Int)];
  mkFn Void "zsymm" [(true, Char); (true, Char); (true, Int); (true, Int); (true, C64); (true, C64); (true, Int); (true, C64); (true, Int); (true, C64); (false, C64); (true, Int)];
  mkFn Void "zsyr2k" [(true, Char); (true, Char); (true, Int); (true, Int); (true, C64); (true, C64); (true, Int); (true, C64); (true, Int); (true, C64); (false, C64); (true, Int)];
  mkFn Void "zsyrk" [(true, Char); (true, Char); (true, Int); (true, Int); (true, C64); (true, C64); (true, Int); (true, C64); (false, C64); (true, Int)];
  mkFn Void "ztrmm" [(true, Char); (true, Char); (true, Char); (true, Char); (true, Int); (true, Int); (true, C64); (true, C64); (true, Int); (false, C64); (true, Int)];
  mkFn Void "ztrsm" [(true, Char); (true, Char); (true, Char); (true, Char); (true, Int); (true, Int); (true, C64); (true, C64); (true, Int); (false, C64); (true, Int)];
  mkFn C32 "cdotc" [(true, Int); (true, C32); (true, Int); (true, C32); (true, Int)];
  mkFn C32 "cdotu" [(true, Int); (true, C32); (true, Int); (true, C32); (true, Int)];
  mkFn C64 "zdotc" [(true, Int); (true, C64); (true, Int); (true, C64); (true, Int)];
  mkFn C64 "zdotu" [(true, Int); (true, C64); (true, Int); (true, C64); (true, Int)]
].

(** include/BlasBooster/BlasInterface/BlasInterface_IntelMKL.h *)
Definition mkl_h : list fn := [
  mkFn F32 "scabs1" [(true, C32)];
  mkFn F32 "sasum" [(true, Int); (true, F32); (true, Int)];
  mkFn Void "saxpy" [(true, Int); (true, F32); (true, F32); (true, Int); (false, F32); (true, Int)];
  mkFn Void "saxpby" [(true, Int); (true, F32); (true, F32); (true, Int); (true, F32); (false, F32); (true, Int)];
  mkFn F32 "scasum" [(true, Int); (true, C32); (true, Int)];
  mkFn F32 "scnrm2" [(true, Int); (true, C32); (true, Int)];
  mkFn Void "scopy" [(true, Int); (true, F32); (true, Int); (false, F32); (true, Int)];
  mkFn F32 "sdot" [(true, Int); (true, F32); (true, Int); (true, F32); (true, Int)];
  mkFn F32 "sdsdot" [(true, Int); (true, F32); (true, F32); (true, Int); (true, F32); (true, Int)];
  mkFn F32 "snrm2" [(true, Int); (true, F32); (true, Int)];
  mkFn Void "srot" [(true, Int); (false, F32); (true, Int); (false, F32); (true, Int); (true, F32); (true, F32)];
  mkFn Void "srotg" [(false, F32); (false, F32); (false, F32); (false, F32)];
  mkFn Void "srotm" [(true, Int); (false, F32); (true, Int); (false, F32); (true, Int); (true, F32)];
  mkFn Void "srotmg" [(false, F32); (false, F32); (false, F32); (true, F32); (false, F32)];
  mkFn Void "sscal" [(true, Int); (true, F32); (false, F32); (true, Int)];
  mkFn Void "sswap" [(true, Int); (false, F32); (true, Int); (false, F32); (true, Int)];
  mkFn Int "isamax" [(true, Int); (true, F32); (true, Int)];
  mkFn Int "isamin" [(true, Int); (true, F32); (true, Int)];
  mkFn Void "caxpy" [(true, Int); (true, C32); (true, C32); (true, Int); (false, C32); (true, Int)];
  mkFn Void "caxpby" [(true, Int); (true, C32); (true, C32); (true, Int); (true, C32); (false, C32); (true, Int)];
  mkFn Void "ccopy" [(true, Int); (true, C32); (true, Int); (false, C32); (true, Int)];
  mkFn Void "crotg" [(false, C32); (true, C32); (false, F32); (false, C32)];
  mkFn Void "cscal" [(true, Int); (true, C32); (false, C32); (true, Int)];
  mkFn Void "csrot" [(true, Int); (false, C32); (true, Int); (false, C32); (true, Int); (true, F32); (true, F32)];
  mkFn Void "csscal" [(true, Int); (true, F32); (false, C32); (true, Int)];
  mkFn Void "cswap" [(true, Int); (false, C32); (true, Int); (false, C32); (true, Int)];
  mkFn Int "icamax" [(true, Int); (true, C32); (true, Int)];
  mkFn Int "icamin" [(true, Int); (true, C32); (true, Int)];
  mkFn F64 "dcabs1" [(true, C64)];
  mkFn F64 "dasum" [(true, Int); (true, F64); (true, Int)];
  mkFn Void "daxpy" [(true, Int); (true, F64); (true, F64); (true, Int); (false, F64); (true, Int)];
  mkFn Void "daxpby" [(true, Int); (true, F64); (true, F64); (true, Int); (true, F64); (false, F64); (true, Int)];
  mkFn Void "dcopy" [(true, Int); (true, F64); (true, Int); (false, F64); (true, Int)];
  mkFn F64 "ddot" [(true, Int); (true, F64); (true, Int); (true, F64); (true, Int)];
  mkFn F64 "dsdot" [(true, Int); (true, F32); (true, Int); (true, F32); (true, Int)];
  mkFn F64 "dnrm2" [(true, Int); (true, F64); (true, Int)];
  mkFn Void "drot" [(true, Int); (false, F64); (true, Int); (false, F64); (true, Int); (true, F64); (true, F64)];
  mkFn Void "drotg" [(false, F64); (false, F64); (false, F64); (false, F64)];
  mkFn Void "drotm" [(true, Int); (false, F64); (true, Int); (false, F64); (true, Int); (true, F64)];
  mkFn Void "drotmg" [(false, F64); (false, F64); (false, F64); (true, F64); (false, F64)];
  mkFn Void "dscal" [(true, Int); (true, F64); (false, F64); (true, Int)];
  mkFn Void "dswap" [(true, Int); (false, F64); (true, Int); (false, F64); (true, Int)];
  mkFn F64 "dzasum" [(true, Int); (true, C64); (true, Int)];
  mkFn F64 "dznrm2" [(true, Int); (true, C64); (true, Int)];
  mkFn Int "idamax" [(true, Int); (true, F64); (true, Int)];
  mkFn Int "idamin" [(true, Int); (true, F64); (true, Int)];
  mkFn Void "zaxpy" [(true, Int); (true, C64); (true, C64); (true, Int); (false, C64); (true, Int)];
  mkFn Void "zaxpby" [(true, Int); (true, C64); (true, C64); (true, Int); (true, C64); (false, C64); (true, Int)];
  mkFn Void "zcopy" [(true, Int); (true, C64); (true, Int); (false, C64); (true, Int)];
  mkFn Void "zdrot" [(true, Int); (false, C64); (true, Int); (false, C64); (true, Int); (true, F64); (true, F64)];
  mkFn Void "zdscal" [(true, Int); (true, F64); (false, C64); (true, Int)];
  mkFn Void "zrotg" [(false, C64); (true, C64); (false, F64); (false, C64)];
  mkFn Void "zscal" [(true, Int); (true, C64); (false, C64); (true, Int)];
  mkFn Void "zswap" [(true, Int); (false, C64); (true, Int); (false, C64); (true, Int)];
  mkFn Int "izamax" [(true, Int); (true, C64); (true, Int)];
  mkFn Int "izamin" [(true, Int); (true, C64); (true, Int)];
  mkFn Void "sgbmv" [(true, Char); (true, Int); (true, Int); (true, Int); (true, Int); (true, F32); (true, F32); (true, Int); (true, F32); (true, Int); (true, F32); (false, F32); (true, Int)];
  mkFn Void "sgemv" [(true, Char); (true, Int); (true, Int); (true, F32); (true, F32); (true, Int); (true, F32); (true, Int); (true, F32); (false, F32); (true, Int)];
  mkFn Void "sger" [(true, Int); (true, Int); (true, F32); (true, F32); (true, Int); (true, F32); (true, Int); (false, F32); (true, Int)];
  mkFn Void "ssbmv" [(true, Char); (true, Int); (true, Int); (true, F32); (true, F32); (true, Int); (true, F32); (true, Int); (true, F32); (false, F32); (true, Int)];
  mkFn Void "sspmv" [(true, Char); (true, Int); (true, F32); (true, F32); (true, F32); (true, Int); (true, F32); (false, F32); (true, Int)];
  mkFn Void "sspr" [(true, Char); (true, Int); (true, F32); (true, F32); (true, Int); (false, F32)];
  mkFn Void "sspr2" [(true, Char); (true, Int); (true, F32); (true, F32); (true, Int); (true, F32); (true, Int); (false, F32)];
  mkFn Void "ssymv" [(true, Char); (true, Int); (true, F32); (true, F32); (true, Int); (true, F32); (true, Int); (true, F32); (false, F32); (true, Int)];
  mkFn Void "ssyr" [(true, Char); (true, Int); (true, F32); (true, F32); (true, Int); (false, F32); (true, Int)];
  mkFn Void "ssyr2" [(true, Char); (true, Int); (true, F32); (true, F32); (true, Int); (true, F32); (true, Int); (false, F32); (true, Int)];
  mkFn Void "stbmv" [(true, Char); (true, Char); (true, Char); (true, Int); (true, Int); (true, F32); (true, Int); (false, F32); (true, Int)];
  mkFn Void "stbsv" [(true, Char); (true, Char); (true, Char); (true, Int); (true, Int); (true, F32); (true, Int); (false, F32); (true, Int)];
  mkFn Void "stpmv" [(true, Char); (true, Char); (true, Char); (true, Int); (true, F32); (false, F32); (true, Int)];
  mkFn Void "stpsv" [(true, Char); (true, Char); (true, Char); (true, Int); (true, F32); (false, F32); (true, Int)];
  mkFn Void "strmv" [(true, Char); (true, Char); (true, Char); (true, Int); (true, F32); (true, Int); (false, F32); (true, Int)];
  mkFn Void "strsv" [(true, Char); (true, Char); (true, Char); (true, Int); (true, F32); (true, Int); (false, F32); (true, Int)];
  mkFn Void "cgbmv" [(true, Char); (true, Int); (true, Int); (true, Int); (true, Int); (true, C32); (true, C32); (true, Int); (true, C32); (true, Int); (true, C32); (false, C32); (true, Int)];
  mkFn Void "cgemv" [(true, Char); (true, Int); (true, Int); (true, C32); (true, C32); (true, Int); (true, C32); (true, Int); (true, C32); (false, C32); (true, Int)];
  mkFn Void "cgerc" [(true, Int); (true, Int); (true, C32); (true, C32); (true, Int); (true, C32); (true, Int); (false, C32); (true, Int)];
  mkFn Void "cgeru" [(true, Int); (true, Int); (true, C32); (true, C32); (true, Int); (true, C32); (true, Int); (false, C32); (true, Int)];
  mkFn Void "chbmv" [(true, Char); (true, Int); (true, Int); (true, C32); (true, C32); (true, Int); (true, C32); (true, Int); (true, C32); (false, C32); (true, Int)];
  mkFn Void "chemv" [(true, Char); (true, Int); (true, C32); (true, C32); (true, Int); (true, C32); (true, Int); (true, C32); (false, C32); (true, Int)];
  mkFn Void "cher" [(true, Char); (true, Int); (true, F32); (true, C32); (true, Int); (false, C32); (true, Int)];
  mkFn Void "cher2" [(true, Char); (true, Int); (true, C32); (true, C32); (true, Int); (true, C32); (true, Int); (false, C32); (true, Int)];
  mkFn Void "chpmv" [(true, Char); (true, Int); (true, C32); (true, C32); (true, C32); (true, Int); (true, C32); (false, C32); (true, Int)];
  mkFn Void "chpr" [(true, Char); (true, Int); (true, F32); (true, C32); (true, Int); (false, C32)];
  mkFn Void "chpr2" [(true, Char); (true, Int); (true, C32); (true, C32); (true, Int); (true, C32); (true, Int); (false, C32)];
  mkFn Void "ctbmv" [(true, Char); (true, Char); (true, Char); (true, Int); (true, Int); (true, C32); (true, Int); (false, C32); (true, Int)];
  mkFn Void "ctbsv" [(true, Char); (true, Char); (true, Char); (true, Int); (true, Int); (true, C32); (true, Int); (false, C32); (true, Int)];
  mkFn Void "ctpmv" [(true, Char); (true, Char); (true, Char); (true, Int); (true, C32); (false, C32); (true, Int)];
  mkFn Void "ctpsv" [(true, Char); (true, Char); (true, Char); (true, Int); (true, C32); (false, C32); (true, Int)];
  mkFn Void "ctrmv" [(true, Char); (true, Char); (true, Char); (true, Int); (true, C32); (true, Int); (false, C32); (true, Int)];
  mkFn Void "ctrsv" [(true, Char); (true, Char); (true, Char); (true, Int); (true, C32); (true, Int); (false, C32); (true, Int)];
  mkFn Void "dgbmv" [(true, Char); (true, Int); (true, Int); (true, Int); (true, Int); (true, F64); (true, F64); (true, Int); (true, F64); (true, Int); (true, F64); (false, F64); (true, Int)];
  mkFn Void "dgemv" [(true, Char); (true, Int); (true, Int); (true, F64); (true, F64); (true, Int); (true, F64); (true, Int); (true, F64); (false, F64); (true, Int)];
  mkFn Void "dger" [(true, Int); (true, Int); (true, F64); (true, F64); (true, Int); (true, F64); (true, Int); (false, F64); (true, Int)];
  mkFn Void "dsbmv" [(true, Char); (true, Int); (true, Int); (true, F64); (true, F64); (true, Int); (true, F64); (true, Int); (true, F64); (false, F64); (true, Int)];
  mkFn Void "dspmv" [(true, Char); (true, Int); (true, F64); (true, F64); (true, F64); (true, Int); (true, F64); (false, F64); (true, Int)];
  mkFn Void "dspr" [(true, Char); (true, Int); (true, F64); (true, F64); (true, Int); (false, F64)];
  mkFn Void "dspr2" [(true, Char); (true, Int); (true, F64); (true, F64); (true, Int); (true, F64); (true, Int); (false, F64)];
  mkFn Void "dsymv" [(true, Char); (true, Int); (true, F64); (true, F64); (true, Int); (true, F64); (true, Int); (true, F64); (false, F64); (true, Int)];
  mkFn Void "dsyr" [(true, Char); (true, Int); (true, F64); (true, F64); (true, Int); (false, F64); (true, Int)];
  mkFn Void "dsyr2" [(true, Char); (true, Int); (true, F64); (true, F64); (true, Int); (true, F64); (true, Int); (false, F64); (true, Int)];
  mkFn Void "dtbmv" [(true, Char); (true, Char); (true, Char); (true, Int); (true, Int); (true, F64); (true, Int); (false, F64); (true, Int)];
  mkFn Void "dtbsv" [(true, Char); (true, Char); (true, Char); (true, Int); (true, Int); (true, F64); (true, Int); (false, F64); (true, Int)];
  mkFn Void "dtpmv" [(true, Char); (true, Char); (true, Char); (true, Int); (true, F64); (false, F64); (true, Int)];
  mkFn Void "dtpsv" [(true, Char); (true, Char); (true, Char); (true, Int); (true, F64); (false, F64); (true, Int)];
  mkFn Void "dtrmv" [(true, Char); (true, Char); (true, Char); (true, Int); (true, F64); (true, Int); (false, F64); (true, Int)];
  mkFn Void "dtrsv" [(true, Char); (true, Char); (true, Char); (true, Int); (true, F64); (true, Int); (false, F64); (true, Int)];
  mkFn Void "zgbmv" [(true, Char); (true, Int); (true, Int); (true, Int); (true, Int); (true, C64); (true, C64); (true, Int); (true, C64); (true, Int); (true, C64); (false, C64); (true, Int)];
  mkFn Void "zgemv" [(true, Char); (true, Int); (true, Int); (true, C64); (true, C64); (true, Int); (true, C64); (true, Int); (true, C64); (false, C64); (true, Int)];
  mkFn Void "zgerc" [(true, Int); (true, Int); (true, C64); (true, C64); (true, Int); (true, C64); (true, Int); (false, C64); (true, Int)];
  mkFn Void "zgeru" [(true, Int); (true, Int); (true, C64); (true, C64); (true, Int); (true, C64); (true, Int); (false, C64); (true, Int)];
  mkFn Void "zhbmv" [(true, Char); (true, Int); (true, Int); (true, C64); (true, C64); (true, Int); (true, C64); (true, Int); (true, C64); (false, C64); (true, Int)];
  mkFn Void "zhemv" [(true, Char); (true, Int); (true, C64); (true, C64); (true, Int); (true, C64); (true, Int); (true, C64); (false, C64); (true, Int)];
  mkFn Void "zher" [(true, Char); (true, Int); (true, F64); (true, C64); (true, Int); (false, C64); (true, Int)];
  mkFn Void "zher2" [(true, Char); (true, Int); (true, C64); (true, C64); (true, Int); (true, C64); (true, Int); (false, C64); (true, Int)];
  mkFn Void "zhpmv" [(true, Char); (true, Int); (true, C64); (true, C64); (true, C64); (true, Int); (true, C64); (false, C64); (true, Int)];
  mkFn Void "zhpr" [(true, Char); (true, Int); (true, F64); (true, C64); (true, Int); (false, C64)];
  mkFn Void "zhpr2" [(true, Char); (true, Int); (true, C64); (true, C64); (true, Int); (true, C64); (true, Int); (false, C64)];
  mkFn Void "ztbmv" [(true, Char); (true, Char); (true, Char); (true, Int); (true, Int); (true, C64); (true, Int); (false, C64); (true, Int)];
  mkFn Void "ztbsv" [(true, Char); (true, Char); (true, Char); (true, Int); (true, Int); (true, C64); (true, Int); (false, C64); (true, Int)];
  mkFn Void "ztpmv" [(true, Char); (true, Char); (true, Char); (true, Int); (true, C64); (false, C64); (true, Int)];
  mkFn Void "ztpsv" [(true, Char); (true, Char); (true, Char); (true, Int); (true, C64); (false, C64); (true, Int)];
  mkFn Void "ztrmv" [(true, Char); (true, Char); (true, Char); (true, Int); (true, C64); (true, Int); (false, C64); (true, Int)];
  mkFn Void "ztrsv" [(true, Char); (true, Char); (true, Char); (true, Int); (true, C64); (true, Int); (false, C64); (true, Int)];
  mkFn Void "sgemm" [(true, Char); (true, Char); (true, Int); (true, Int); (true, Int); (true, F32); (true, F32); (true, Int); (true, F32); (true, Int); (true, F32); (false, F32); (true, Int)];
  mkFn Void "ssymm" [(true, Char); (true, Char); (true, Int); (true, Int); (true, F32); (true, F32); (true, Int); (true, F32); (true, Int); (true, F32); (false, F32); (true, Int)];
  mkFn Void "ssyr2k" [(true, Char); (true, Char); (true, Int); (true, Int); (true, F32); (true, F32); (true, Int); (true, F32); (true, Int); (true, F32); (false, F32); (true, Int)];
  mkFn Void "ssyrk" [(true, Char); (true, Char); (true, Int); (true, Int); (true, F32); (true, F32); (true, Int); (true, F32); (false, F32); (true, Int)];
  mkFn Void "strmm" [(true, Char); (true, Char); (true, Char); (true, Char); (true, Int); (true, Int); (true, F32); (true, F32); (true, Int); (false, F32); (true, Int)];
  mkFn Void "strsm" [(true, Char); (true, Char); (true, Char); (true, Char); (true, Int); (true, Int); (true, F32); (true, F32); (true, Int); (false, F32); (true, Int)];
  mkFn Void "cgemm" [(true, Char); (true, Char); (true, Int); (true, Int); (true, Int); (true, C32); (true, C32); (true, Int); (true, C32); (true, Int); (true, C32); (false, C32); (true, Int)];
  mkFn Void "cgemm3m" [(true, Char); (true, Char); (true, Int); (true, Int); (true, Int); (true, C32); (true, C32); (true, Int); (true, C32); (true, Int); (true, C32); (false, C32); (true, Int)];
  mkFn Void "chemm" [(true, Char); (true, Char); (true, Int); (true, Int); (true, C32); (true, C32); (true, Int); (true, C32); (true, Int); (true, C32); (false, C32); (true, Int)];
  mkFn Void "cher2k" [(true, Char); (true, Char); (true, Int); (true, Int); (true, C32); (true, C32); (true, Int); (true, C32); (true, Int); (true, F32); (false, C32); (true, Int)];
  mkFn Void "cherk" [(true, Char); (true, Char); (true, Int); (true, Int); (true, F32); (true, C32); (true, Int); (true, F32); (false, C32); (true, Int)];
  mkFn Void "csymm" [(true, Char); (true, Char); (true, Int); (true, Int); (true, C32); (true, C32); (true, Int); (true, C32); (true, Int); (true, C32); (false, C32); (true, Int)];
  mkFn Void "csyr2k" [(true, Char); (true, Char); (true, Int); (true, Int); (true, C32); (true, C32); (true, Int); (true, C32); (true, Int); (true, C32); (false, C32); (true, Int)];
  mkFn Void "csyrk" [(true, Char); (true, Char); (true, Int); (true, Int); (true, C32); (true, C32); (true, Int); (true, C32); (false, C32); (true, Int)];
  mkFn Void "ctrmm" [(true, Char); (true, Char); (true, Char); (true, Char); (true, Int); (true, Int); (true, C32); (true, C32); (true, Int); (false, C32); (true, Int)];
  mkFn Void "ctrsm" [(true, Char); (true, Char); (true, Char); (true, Char); (true, Int); (true, Int); (true, C32); (true, C32); (true, Int); (false, C32); (true, Int)];
  mkFn Void "dgemm" [(true, Char); (true, Char); (true, Int); (true, Int); (true, Int); (true, F64); (true, F64); (true, Int); (true, F64); (true, Int); (true, F64); (false, F64); (true, Int)];
  mkFn Void "dsymm" [(true, Char); (true, Char); (true, Int); (true, Int); (true, F64); (true, F64); (true, Int); (true, F64); (true, Int); (true, F64); (false, F64); (true, Int)];
  mkFn Void "dsyr2k" [(true, Char); (true, Char); (true, Int); (true, Int); (true, F64); (true, F64); (true, Int); (true, F64); (true, Int); (true, F64); (false, F64); (true, Int)];
  mkFn Void "dsyrk" [(true, Char); (true, Char); (true, Int); (true, Int); (true, F64); (true, F64); (true, Int); (true, F64); (false, F64); (true, Int)];
  mkFn Void "dtrmm" [(true, Char); (true, Char); (true, Char); (true, Char); (true, Int); (true, Int); (true, F64); (true, F64); (true, Int); (false, F64); (true, Int)];
  mkFn Void "dtrsm" [(true, Char); (true, Char); (true, Char); (true, Char); (true, Int); (true, Int); (true, F64); (true, F64); (true, Int); (false, F64); (true, Int)];
  mkFn Void "zgemm" [(true, Char); (true, Char); (true, Int); (true, Int); (true, Int); (true, C64); (true, C64); (true, Int); (true, C64); (true, Int); (true, C64); (false, C64); (true, Int)];
  mkFn Void "zgemm3m" [(true, Char); (true, Char); (true, Int); (true, Int); (true, Int); (true, C64); (true, C64); (true, Int); (true, C64); (true, Int); (true, C64); (false, C64); (true, Int)];
  mkFn Void "zhemm" [(true, Char); (true, Char); (true, Int); (true, Int); (true, C64); (true, C64); (true, Int); (true, C64); (true, Int); (true, C64); (false, C64); (true, Int)];
  mkFn Void "zher2k" [(true, Char); (true, Char); (true, Int); (true, Int); (true, C64); (true, C64); (true, Int); (true, C64); (true, Int); (true, F64); (false, C64); (true, Int)];
  mkFn Void "zherk" [(true, Char); (true, Char); (true, Int); (true, Int); (true, F64); (true, C64); (true, Int); (true, F64); (false, C64); (true, Int)];
  mkFn Void "zsymm" [(true, Char); (true, Char); (true, Int); (true, Int); (true, C64); (true, C64); (true, Int); (true, C64); (true, Int); (true, C64); (false, C64); (true, Int)];
  mkFn Void "zsyr2k" [(true, Char); (true, Char); (true, Int); (true, Int); (true, C64); (true, C64); (true, Int); (true, C64); (true, Int); (true, C64); (false, C64); (true, Int)];
  mkFn Void "zsyrk" [(true, Char); (true, Char); (true, Int); (true, Int); (true, C64); (true, C64); (true, Int); (true, C64); (false, C64); (true, Int)];
  mkFn Void "ztrmm" [(true, Char); (true, Char); (true, Char); (true, Char); (true, Int); (true, Int); (true, C64); (true, C64); (true, Int); (false, C64); (true, Int)];
  mkFn Void "ztrsm" [(true, Char); (true, Char); (true, Char); (true, Char); (true, Int); (true, Int); (true, C64); (true, C64); (true, Int); (false, C64); (true, Int)];
  mkFn C32 "cdotc" [(true, Int); (true, C32); (true, Int); (true, C32); (true, Int)];
  mkFn C32 "cdotu" [(true, Int); (true, C32); (true, Int); (true, C32); (true, Int)];
  mkFn C64 "zdotc" [(true, Int); (true, C64); (true, Int); (true, C64); (true, Int)];
  mkFn C64 "zdotu" [(true, Int); (true, C64); (true, Int); (true, C64); (true, Int)];
  mkFn Void "dcsrmm" [(true, Char); (true, Int); (true, Int); (true, Int); (true, F64); (true, Char); (true, F64); (true, Int); (true, Int); (true, Int); (true, F64); (true, Int); (true, F64); (false, F64); (true, Int)];
  mkFn Void "dcsrmultcsr" [(true, Char); (true, Int); (true, Int); (true, Int); (true, Int); (true, Int); (false, F64); (false, Int); (false, Int); (false, F64); (false, Int); (false, Int); (false, F64); (false, Int); (false, Int); (true, Int); (false, Int)];
  mkFn Void "scsrmm" [(true, Char); (true, Int); (true, Int); (true, Int); (true, F32); (true, Char); (true, F32); (true, Int); (true, Int); (true, Int); (true, F32); (true, Int); (true, F32); (false, F32); (true, Int)];
  mkFn Void "scsrmultcsr" [(true, Char); (true, Int); (true, Int); (true, Int); (true, Int); (true, Int); (false, F32); (false, Int); (false, Int); (false, F32); (false, Int); (false, Int); (false, F32); (false, Int); (false, Int); (true, Int); (false, Int)]
].

(** include/BlasBooster/BlasInterface/Blas.h *)
Definition blas_h : list fn := [
  mkFn F32 "scabs1_" [(true, C32)];
  mkFn F32 "sasum_" [(true, Int); (true, F32); (true, Int)];
  mkFn Void "saxpy_" [(true, Int); (true, F32); (true, F32); (true, Int); (false, F32); (true, Int)];
  mkFn Void "saxpby_" [(true, Int); (true, F32); (true, F32); (true, Int); (true, F32); (false, F32); (true, Int)];
  mkFn F32 "scasum_" [(true, Int); (true, C32); (true, Int)];
  mkFn F32 "scnrm2_" [(true, Int); (true, C32); (true, Int)];
  mkFn Void "scopy_" [(true, Int); (true, F32); (true, Int); (false, F32); (true, Int)];
  mkFn F32 "sdot_" [(true, Int); (true, F32); (true, Int); (true, F32); (true, Int)];
  mkFn F32 "sdsdot_" [(true, Int); (true, F32); (true, F32); (true, Int); (true, F32); (true, Int)];
  mkFn F32 "snrm2_" [(true, Int); (true, F32); (true, Int)];
  mkFn Void "srot_" [(true, Int); (false, F32); (true, Int); (false, F32); (true, Int); (true, F32); (true, F32)];
  mkFn Void "srotg_" [(false, F32); (false, F32); (false, F32); (false, F32)];
  mkFn Void "srotm_" [(true, Int); (false, F32); (true, Int); (false, F32); (true, Int); (true, F32)];
  mkFn Void "srotmg_" [(false, F32); (false, F32); (false, F32); (true, F32); (false, F32)];
  mkFn Void "sscal_" [(true, Int); (true, F32); (false, F32); (true, Int)];
  mkFn Void "sswap_" [(true, Int); (false, F32); (true, Int); (false, F32); (true, Int)];
  mkFn Int "isamax_" [(true, Int); (true, F32); (true, Int)];
  mkFn Int "isamin_" [(true, Int); (true, F32); (true, Int)];
  mkFn Void "caxpy_" [(true, Int); (true, C32); (true, C32); (true, Int); (false, C32); (true, Int)];
  mkFn Void "caxpby_" [(true, Int); (true, C32); (true, C32); (true, Int); (true, C32); (false, C32); (true, Int)];
  mkFn Void "ccopy_" [(true, Int); (true, C32); (true, Int); (false, C32); (true, Int)];
  mkFn Void "crotg_" [(false, C32); (true, C32); (false, F32); (false, C32)];
  mkFn Void "cscal_" [(true, Int); (true, C32); (false, C32); (true, Int)];
  mkFn Void "csrot_" [(true, Int); (false, C32); (true, Int); (false, C32); (true, Int); (true, F32); (true, F32)];
  mkFn Void "csscal_" [(true, Int); (true, F32); (false, C32); (true, Int)];
  mkFn Void "cswap_" [(true, Int); (false, C32); (true, Int); (false, C32); (true, Int)];
  mkFn Int "icamax_" [(true, Int); (true, C32); (true, Int)];
  mkFn Int "icamin_" [(true, Int); (true, C32); (true, Int)];
  mkFn F64 "dcabs1_" [(true, C64)];
  mkFn F64 "dasum_" [(true, Int); (true, F64); (true, Int)];
  mkFn Void "daxpy_" [(true, Int); (true, F64); (true, F64); (true, Int); (false, F64); (true, Int)];
  mkFn Void "daxpby_" [(true, Int); (true, F64); (true, F64); (true, Int); (true, F64); (false, F64); (true, Int)];
  mkFn Void "dcopy_" [(true, Int); (true, F64); (true, Int); (false, F64); (true, Int)];
  mkFn F64 "ddot_" [(true, Int); (true, F64); (true, Int); (true, F64); (true, Int)];
  mkFn F64 "dsdot_" [(true, Int); (true, F32); (true, Int); (true, F32); (true, Int)];
  mkFn F64 "dnrm2_" [(true, Int); (true, F64); (true, Int)];
  mkFn Void "drot_" [(true, Int); (false, F64); (true, Int); (false, F64); (true, Int); (true, F64); (true, F64)];
  mkFn Void "drotg_" [(false, F64); (false, F64); (false, F64); (false, F64)];
  mkFn Void "drotm_" [(true, Int); (false, F64); (true, Int); (false, F64); (true, Int); (true, F64)];
  mkFn Void "drotmg_" [(false, F64); (false, F64); (false, F64); (true, F64); (false, F64)];
  mkFn Void "dscal_" [(true, Int); (true, F64); (false, F64); (true, Int)];
  mkFn Void "dswap_" [(true, Int); (false, F64); (true, Int); (false, F64); (true, Int)];
  mkFn F64 "dzasum_" [(true, Int); (true, C64); (true, Int)];
  mkFn F64 "dznrm2_" [(true, Int); (true, C64); (true, Int)];
  mkFn Int "idamax_" [(true, Int); (true, F64); (true, Int)];
  mkFn Int "idamin_" [(true, Int); (true, F64); (true, Int)];
  mkFn Void "zaxpy_" [(true, Int); (true, C64); (true, C64); (true, Int); (false, C64); (true, Int)];
  mkFn Void "zaxpby_" [(true, Int); (true, C64); (true, C64); (true, Int); (true, C64); (false, C64); (true, Int)];
  mkFn Void "zcopy_" [(true, Int); (true, C64); (true, Int); (false, C64); (true, Int)];
  mkFn Void "zdrot_" [(true, Int); (false, C64); (true, Int); (false, C64); (true, Int); (true, F64); (true, F64)];
  mkFn Void "zdscal_" [(true, Int); (true, F64); (false, C64); (true, Int)];
  mkFn Void "zrotg_" [(false, C64); (true, C64); (false, F64); (false, C64)];
  mkFn Void "zscal_" [(true, Int); (true, C64); (false, C64); (true, Int)];
  mkFn Void "zswap_" [(true, Int); (false, C64); (true, Int); (false, C64); (true, Int)];
  mkFn Int "izamax_" [(true, Int); (true, C64); (true, Int)];
  mkFn Int "izamin_" [(true, Int); (true, C64); (true, Int)];
  mkFn Void "sgbmv_" [(true, Char); (true, Int); (true, Int); (true, Int); (true, Int); (true, F32); (true, F32); (true, Int); (true, F32); (true, Int); (true, F32); (false, F32); (true, Int)];
  mkFn Void "sgemv_" [(true, Char); (true, Int); (true, Int); (true, F32); (true, F32); (true, Int); (true, F32); (true, Int); (true, F32); (false, F32); (true, Int)];
  mkFn Void "sger_" [(true, Int); (true, Int); (true, F32); (true, F32); (true, Int); (true, F32); (true, Int); (false, F32); (true, Int)];
  mkFn Void "ssbmv_" [(true, Char); (true, Int); (true, Int); (true, F32); (true, F32); (true, Int); (true, F32); (true, Int); (true, F32); (false, F32); (true, Int)];
  mkFn Void "sspmv_" [(true, Char); (true, Int); (true, F32); (true, F32); (true, F32); (true, Int); (true, F32); (false, F32); (true, Int)];
  mkFn Void "sspr_" [(true, Char); (true, Int); (true, F32); (true, F32); (true, Int); (false, F32)];
  mkFn Void "sspr2_" [(true, Char); (true, Int); (true, F32); (true, F32); (true, Int); (true, F32); (true, Int); (false, F32)];
  mkFn Void "ssymv_" [(true, Char); (true, Int); (true, F32); (true, F32); (true, Int); (true, F32); (true, Int); (true, F32); (false, F32); (true, Int)];
  mkFn Void "ssyr_" [(true, Char); (true, Int); (true, F32); (true, F32); (true, Int); (false, F32); (true, Int)];
  mkFn Void "ssyr2_" [(true, Char); (true, Int); (true, F32); (true, F32); (true, Int); (true, F32); (true, Int); (false, F32); (true, Int)];
  mkFn Void "stbmv_" [(true, Char); (true, Char); (true, Char); (true, Int); (true, Int); (true, F32); (true, Int); (false, F32); (true, Int)];
  mkFn Void "stbsv_" [(true, Char); (true, Char); (true, Char); (true, Int); (true, Int); (true, F32); (true, Int); (false, F32); (true, Int)];
  mkFn Void "stpmv_" [(true, Char); (true, Char); (true, Char); (true, Int); (true, F32); (false, F32); (true, Int)];
  mkFn Void "stpsv_" [(true, Char); (true, Char); (true, Char); (true, Int); (true, F32); (false, F32); (true, Int)];
  mkFn Void "strmv_" [(true, Char); (true, Char); (true, Char); (true, Int); (true, F32); (true, Int); (false, F32); (true, Int)];
  mkFn Void "strsv_" [(true, Char); (true, Char); (true, Char); (true, Int); (true, F32); (true, Int); (false, F32); (true, Int)];
  mkFn Void "cgbmv_" [(true, Char); (true, Int); (true, Int); (true, Int); (true, Int); (true, C32); (true, C32); (true, Int); (true, C32); (true, Int); (true, C32); (false, C32); (true, Int)];
  mkFn Void "cgemv_" [(true, Char); (true, Int); (true, Int); (true, C32); (true, C32); (true, Int); (true, C32); (true, Int); (true, C32); (false, C32); (true, Int)];
  mkFn Void "cgerc_" [(true, Int); (true, Int); (true, C32); (true, C32); (true, Int); (true, C32); (true, Int); (false, C32); (true, Int)];
  mkFn Void "cgeru_" [(true, Int); (true, Int); (true, C32); (true, C32); (true, Int); (true, C32); (true, Int); (false, C32); (true, Int)];
  mkFn Void "chbmv_" [(true, Char); (true, Int); (true, Int); (true, C32); (true, C32); (true, Int); (true, C32); (true, Int); (true, C32); (false, C32); (true, Int)];
  mkFn Void "chemv_" [(true, Char); (true, Int); (true, C32); (true, C32); (true, Int); (true, C32); (true, Int); (true, C32); (false, C32); (true, Int)];
  mkFn Void "cher_" [(true, Char); (true, Int); (true, F32); (true, C32); (true, Int); (false, C32); (true, Int)];
  mkFn Void "cher2_" [(true, Char); (true, Int); (true, C32); (true, C32); (true, Int); (true, C32); (true, Int); (false, C32); (true, Int)];
  mkFn Void "chpmv_" [(true, Char); (true, Int); (true, C32); (true, C32); (true, C32); (true, Int); (true, C32); (false, C32); (true, Int)];
  mkFn Void "chpr_" [(true, Char); (true, Int); (true, F32); (true, C32); (true, Int); (false, C32)];
  mkFn Void "chpr2_" [(true, Char); (true, Int); (true, C32); (true, C32); (true, Int); (true, C32); (true, Int); (false, C32)];
  mkFn Void "ctbmv_" [(true, Char); (true, Char); (true, Char); (true, Int); (true, Int); (true, C32); (true, Int); (false, C32); (true, Int)];
  mkFn Void "ctbsv_" [(true, Char); (true, Char); (true, Char); (true, Int); (true, Int); (true, C32); (true, Int); (false, C32); (true, Int)];
  mkFn Void "ctpmv_" [(true, Char); (true, Char); (true, Char); (true, Int); (true, C32); (false, C32); (true, Int)];
  mkFn Void "ctpsv_" [(true, Char); (true, Char); (true, Char); (true, Int); (true, C32); (false, C32); (true, Int)];
  mkFn Void "ctrmv_" [(true, Char); (true, Char); (true, Char); (true, Int); (true, C32); (true, Int); (false, C32); (true, Int)];
  mkFn Void "ctrsv_" [(true, Char); (true, Char); (true, Char); (true, Int); (true, C32); (true, Int); (false, C32); (true, Int)];
  mkFn Void "dgbmv_" [(true, Char); (true, Int); (true, Int); (true, Int); (true, Int); (true, F64); (true, F64); (true, Int); (true, F64); (true, Int); (true, F64); (false, F64); (true, Int)];
  mkFn Void "dgemv_" [(true, Char); (true, Int); (true, Int); (true, F64); (true, F64); (true, Int); (true, F64); (true, Int); (true, F64); (false, F64); (true, Int)];
  mkFn Void "dger_" [(true, Int); (true, Int); (true, F64); (true, F64); (true, Int); (true, F64); (true, Int); (false, F64); (true, Int)];
  mkFn Void "dsbmv_" [(true, Char); (true, Int); (true, Int); (true, F64); (true, F64); (true, Int); (true, F64); (true, Int); (true, F64); (false, F64); (true, Int)];
  mkFn Void "dspmv_" [(true, Char); (true, Int); (true, F64); (true, F64); (true, F64); (true, Int); (true, F64); (false, F64); (true, Int)];
  mkFn Void "dspr_" [(true, Char); (true, Int); (true, F64); (true, F64); (true, Int); (false, F64)];
  mkFn Void "dspr2_" [(true, Char); (true, Int); (true, F64); (true, F64); (true, Int); (true, F64); (true, Int); (false, F64)];
  mkFn Void "dsymv_" [(true, Char); (true, Int); (true, F64); (true, F64); (true, Int); (true, F64); (true, Int); (true, F64); (false, F64); (true, Int)];
  mkFn Void "dsyr_" [(true, Char); (true, Int); (true, F64); (true, F64); (true, Int); (false, F64); (true, Int)];
  mkFn Void "dsyr2_" [(true, Char); (true, Int); (true, F64); (true, F64); (true, Int); (true, F64); (true, Int); (false, F64); (true, Int)];
  mkFn Void "dtbmv_" [(true, Char); (true, Char); (true, Char); (true, Int); (true, Int); (true, F64); (true, Int); (false, F64); (true, Int)];
  mkFn Void "dtbsv_" [(true, Char); (true, Char); (true, Char); (true, Int); (true, Int); (true, F64); (true, Int); (false, F64); (true, Int)];
  mkFn Void "dtpmv_" [(true, Char); (true, Char); (true, Char); (true, Int); (true, F64); (false, F64); (true, Int)];
  mkFn Void "dtpsv_" [(true, Char); (true, Char); (true, Char); (true, Int); (true, F64); (false, F64); (true, Int)];
  mkFn Void "dtrmv_" [(true, Char); (true, Char); (true, Char); (true, Int); (true, F64); (true, Int); (false, F64); (true, Int)];
  mkFn Void "dtrsv_" [(true, Char); (true, Char); (true, Char); (true, Int); (true, F64); (true, Int); (false, F64); (true, Int)];
  mkFn Void "zgbmv_" [(true, Char); (true, Int); (true, Int); (true, Int); (true, Int); (true, C64); (true, C64); (true, Int); (true, C64); (true, Int); (true, C64); (false, C64); (true, Int)];
  mkFn Void "zgemv_" [(true, Char); (true, Int); (true, Int); (true, C64); (true, C64); (true, Int); (true, C64); (true, Int); (true, C64); (false, C64); (true, Int)];
  mkFn Void "zgerc_" [(true, Int); (true, Int); (true, C64); (true, C64); (true, Int); (true, C64); (true, Int); (false, C64); (true, Int)];
  mkFn Void "zgeru_" [(true, Int); (true, Int); (true, C64); (true, C64); (true, Int); (true, C64); (true, Int); (false, C64); (true, Int)];
  mkFn Void "zhbmv_" [(true, Char); (true, Int); (true, Int); (true, C64); (true, C64); (true, Int); (true, C64); (true, Int); (true, C64); (false, C64); (true, Int)];
  mkFn Void "zhemv_" [(true, Char); (true, Int); (true, C64); (true, C64); (true, Int); (true, C64); (true, Int); (true, C64); (false, C64); (true, Int)];
  mkFn Void "zher_" [(true, Char); (true, Int); (true, F64); (true, C64); (true, Int); (false, C64); (true, Int)];
  mkFn Void "zher2_" [(true, Char); (true, Int); (true, C64); (true, C64); (true, Int); (true, C64); (true, Int); (false, C64); (true, Int)];
  mkFn Void "zhpmv_" [(true, Char); (true, Int); (true, C64); (true, C64); (true, C64); (true, Int); (true, C64); (false, C64); (true, Int)];
  mkFn Void "zhpr_" [(true, Char); (true, Int); (true, F64); (true, C64); (true, Int); (false, C64)];
  mkFn Void "zhpr2_" [(true, Char); (true, Int); (true, C64); (true, C64); (true, Int); (true, C64); (true, Int); (false, C64)];
  mkFn Void "ztbmv_" [(true, Char); (true, Char); (true, Char); (true, Int); (true, Int); (true, C64); (true, Int); (false, C64); (true, Int)];
  mkFn Void "ztbsv_" [(true, Char); (true, Char); (true, Char); (true, Int); (true, Int); (true, C64); (true, Int); (false, C64); (true, Int)];
  mkFn Void "ztpmv_" [(true, Char); (true, Char); (true, Char); (true, Int); (true, C64); (false, C64); (true, Int)];
  mkFn Void "ztpsv_" [(true, Char); (true, Char); (true, Char); (true, Int); (true, C64); (false, C64); (true, Int)];
  mkFn Void "ztrmv_" [(true, Char); (true, Char); (true, Char); (true, Int); (true, C64); (true, Int); (false, C64); (true, Int)];
  mkFn Void "ztrsv_" [(true, Char); (true, Char); (true, Char); (true, Int); (true, C64); (true, Int); (false, C64); (true, Int)];
  mkFn Void "sgemm_" [(true, Char); (true, Char); (true, Int); (true, Int); (true, Int); (true, F32); (true, F32); (true, Int); (true, F32); (true, Int); (true, F32); (false, F32); (true, Int)];
  mkFn Void "ssymm_" [(true, Char); (true, Char); (true, Int); (true, Int); (true, F32); (true, F32); (true, Int); (true, F32); (true, Int); (true, F32); (false, F32); (true, Int)];
  mkFn Void "ssyr2k_" [(true, Char); (true, Char); (true, Int); (true, Int); (true, F32); (true, F32); (true, Int); (true, F32); (true, Int); (true, F32); (false, F32); (true, Int)];
  mkFn Void "ssyrk_" [(true, Char); (true, Char); (true, Int); (true, Int); (true, F32); (true, F32); (true, Int); (true, F32); (false, F32); (true, Int)];
  mkFn Void "strmm_" [(true, Char); (true, Char); (true, Char); (true, Char); (true, Int); (true, Int); (true, F32); (true, F32); (true, Int); (false, F32); (true, Int)];
  mkFn Void "strsm_" [(true, Char); (true, Char); (true, Char); (true, Char); (true, Int); (true, Int); (true, F32); (true, F32); (true, Int); (false, F32); (true, Int)];
  mkFn Void "cgemm_" [(true, Char); (true, Char); (true, Int); (true, Int); (true, Int); (true, C32); (true, C32); (true, Int); (true, C32); (true, Int); (true, C32); (false, C32); (true, Int)];
  mkFn Void "cgemm3m_" [(true, Char); (true, Char); (true, Int); (true, Int); (true, Int); (true, C32); (true, C32); (true, Int); (true, C32); (true, Int); (true, C32); (false, C32); (true, Int)];
  mkFn Void "chemm_" [(true, Char); (true, Char); (true, Int); (true, Int); (true, C32); (true, C32); (true, Int); (true, C32); (true, Int); (true, C32); (false, C32); (true, Int)];
  mkFn Void "cher2k_" [(true, Char); (true, Char); (true, Int); (true, Int); (true, C32); (true, C32); (true, Int); (true, C32); (true, Int); (true, F32); (false, C32); (true, Int)];
  mkFn Void "cherk_" [(true, Char); (true, Char); (true, Int); (true, Int); (true, F32); (true, C32); (true, Int); (true, F32); (false, C32); (true, Int)];
  mkFn Void "csymm_" [(true, Char); (true, Char); (true, Int); (true, Int); (true, C32); (true, C32); (true, Int); (true, C32); (true, Int); (true, C32); (false, C32); (true, Int)];
  mkFn Void "csyr2k_" [(true, Char); (true, Char); (true, Int); (true, Int); (true, C32); (true, C32); (true, Int); (true, C32); (true, Int); (true, C32); (false, C32); (true, Int)];
  mkFn Void "csyrk_" [(true, Char); (true, Char); (true, Int); (true, Int); (true, C32); (true, C32); (true, Int); (true, C32); (false, C32); (true, Int)];
  mkFn Void "ctrmm_" [(true, Char); (true, Char); (true, Char); (true, Char); (true, Int); (true, Int); (true, C32); (true, C32); (true, Int); (false, C32); (true, Int)];
  mkFn Void "ctrsm_" [(true, Char); (true, Char); (true, Char); (true, Char); (true, Int); (true, Int); (true, C32); (true, C32); (true, Int); (false, C32); (true, Int)];
  mkFn Void "dgemm_" [(true, Char); (true, Char); (true, Int); (true, Int); (true, Int); (true, F64); (true, F64); (true, Int); (true, F64); (true, Int); (true, F64); (false, F64); (true, Int)];
  mkFn Void "dsymm_" [(true, Char); (true, Char); (true, Int); (true, Int); (true, F64); (true, F64); (true, Int); (true, F64); (true, Int); (true, F64); (false, F64); (true, Int)];
  mkFn Void "dsyr2k_" [(true, Char); (true, Char); (true, Int); (true, Int); (true, F64); (true, F64); (true, Int); (true, F64); (true, Int); (true, F64); (false, F64); (true, Int)];
  mkFn Void "dsyrk_" [(true, Char); (true, Char); (true, Int); (true, Int); (true, F64); (true, F64); (true, Int); (true, F64); (false, F64); (true, Int)];
  mkFn Void "dtrmm_" [(true, Char); (true, Char); (true, Char); (true, Char); (true, Int); (true, Int); (true, F64); (true, F64); (true, Int); (false, F64); (true, Int)];
  mkFn Void "dtrsm_" [(true, Char); (true, Char); (true, Char); (true, Char); (true, Int); (true, Int); (true, F64); (true, F64); (true, Int); (false, F64); (true, Int)];
  mkFn Void "zgemm_" [(true, Char); (true, Char); (true, Int); (true, Int); (true, Int); (true, C64); (true, C64); (true, Int); (true, C64); (true, Int); (true, C64); (false, C64); (true, Int)];
  mkFn Void "zgemm3m_" [(true, Char); (true, Char); (true, Int); (true, Int); (true, Int); (true, C64); (true, C64); (true, Int); (true, C64); (true, Int); (true, C64); (false, C64); (true, Int)];
  mkFn Void "zhemm_" [(true, Char); (true, Char); (true, Int); (true, Int); (true, C64); (true, C64); (true, Int); (true, C64); (true, Int); (true, C64); (false, C64); (true, Int)];
  mkFn Void "zher2k_" [(true, Char); (true, Char); (true, Int); (true, Int); (true, C64); (true, C64); (true, Int); (true, C64); (true, Int); (true, F64); (false, C64); (true, Int)];
  mkFn Void "zherk_" [(true, Char); (true, Char); (true, Int); (true, Int); (true, F64); (true, C64); (true, Int); (true, F64); (false, C64); (true, Int)];
  mkFn Void "zsymm_" [(true, Char); (true, Char); (true, Int); (true, Int); (true, C64); (true, C64); (true, Int); (true, C64); (true, Int); (true, C64); (false, C64); (true, Int)];
  mkFn Void "zsyr2k_" [(true, Char); (true, Char); (true, Int); (true, Int); (true, C64); (true, C64); (true, Int); (true, C64); (true, Int); (true, C64); (false, C64); (true, Int)];
  mkFn Void "zsyrk_" [(true, Char); (true, Char); (true, Int); (true, Int); (true, C64); (true, C64); (true, Int); (true, C64); (false, C64); (true, Int)];
  mkFn Void "ztrmm_" [(true, Char); (true, Char); (true, Char); (true, Char); (true, Int); (true, Int); (true, C64); (true, C64); (true, Int); (false, C64); (true, Int)];
  mkFn Void "ztrsm_" [(true, Char); (true, Char); (true, Char); (true, Char); (true, Int); (true, Int); (true, C64); (true, C64); (true, Int); (false, C64); (true, Int)];
  mkFn Void "cdotc_" [(false, C32); (true, Int); (true, C32); (true, Int); (true, C32); (true, Int)];
  mkFn Void "cdotu_" [(false, C32); (true, Int); (true, C32); (true, Int); (true, C32); (true, Int)];
  mkFn Void "zdotc_" [(false, C64); (true, Int); (true, C64); (true, Int); (true, C64); (true, Int)];
  mkFn Void "zdotu_" [(false, C64); (true, Int); (true, C64); (true, Int); (true, C64); (true, Int)]
].

(** include/BlasBooster/BlasInterface/IntelMKL_SpBlas.h *)
Definition spblas_h : list fn := [
  mkFn Void "mkl_dcsrmm" [(true, Char); (true, Int); (true, Int); (true, Int); (true, F64); (true, Char); (true, F64); (true, Int); (true, Int); (true, Int); (true, F64); (true, Int); (true, F64); (false, F64); (true, Int)];
  mkFn Void "mkl_dcsrmultcsr" [(true, Char); (true, Int); (true, Int); (true, Int); (true, Int); (true, Int); (false, F64); (false, Int); (false, Int); (false, F64); (false, Int); (false, Int); (false, F64); (false, Int); (false, Int); (true, Int); (false, Int)];
  mkFn Void "mkl_scsrmm" [(true, Char); (true, Int); (true, Int); (true, Int); (true, F32); (true, Char); (true, F32); (true, Int); (true, Int); (true, Int); (true, F32); (true, Int); (true, F32); (false, F32); (true, Int)];
  mkFn Void "mkl_scsrmultcsr" [(true, Char); (true, Int); (true, Int); (true, Int); (true, Int); (true, Int); (false, F32); (false, Int); (false, Int); (false, F32); (false, Int); (false, Int); (false, F32); (false, Int); (false, Int); (true, Int); (false, Int)]
].

(** include/BlasBooster/BlasInterface/FunctionTypes.h *)
Definition function_types : list (string * string) := [
  ("scabs1", "scabs1");
  ("sasum", "sasum");
  ("saxpy", "saxpy");
  ("saxpby", "saxpby");
  ("scasum", "scasum");
  ("scnrm2", "scnrm2");
  ("scopy", "scopy");
  ("sdot", "sdot");
  ("sdsdot", "sdsdot");
  ("snrm2", "snrm2");
  ("srot", "srot");
  ("srotg", "srotg");
  ("srotm", "srotm");
  ("srotmg", "srotmg");
  ("sscal", "sscal");
  ("sswap", "sswap");
  ("isamax", "isamax");
  ("isamin", "isamin");
  ("caxpy", "caxpy");
  ("caxpby", "caxpby");
  ("ccopy", "ccopy");
  ("crotg", "crotg");
  ("cscal", "cscal");
  ("csrot", "csrot");
  ("csscal", "csscal");
  ("cswap", "cswap");
  ("icamax", "icamax");
  ("icamin", "icamin");
  ("dcabs1", "dcabs1");
  ("dasum", "dasum");
  ("daxpy", "daxpy");
  ("daxpby", "daxpby");
  ("dcopy", "dcopy");
  ("ddot", "ddot");
  ("dsdot", "dsdot");
  ("dnrm2", "dnrm2");
  ("drot", "drot");
  ("drotg", "drotg");
  ("drotm", "drotm");
  ("drotmg", "drotmg");
  ("dscal", "dscal");
  ("dswap", "dswap");
  ("dzasum", "dzasum");
  ("dznrm2", "dznrm2");
  ("idamax", "idamax");
  ("idamin", "idamin");
  ("zaxpy", "zaxpy");
  ("zaxpby", "zaxpby");
  ("zcopy", "zcopy");
  ("zdrot", "zdrot");
  ("zdscal", "zdscal");
  ("zrotg", "zrotg");
  ("zscal", "zscal");
  ("zswap", "zswap");
  ("izamax", "izamax");
  ("izamin", "izamin");
  ("sgbmv", "sgbmv");
  ("sgemv", "sgemv");
  ("sger", "sger");
  ("ssbmv", "ssbmv");
  ("sspmv", "sspmv");
  ("sspr", "sspr");
  ("sspr2", "sspr2");
  ("ssymv", "ssymv");
  ("ssyr", "ssyr");
  ("ssyr2", "ssyr2");
  ("stbmv", "stbmv");
  ("stbsv", "stbsv");
  ("stpmv", "stpmv");
  ("stpsv", "stpsv");
  ("strmv", "strmv");
  ("strsv", "strsv");
  ("cgbmv", "cgbmv");
  ("cgemv", "cgemv");
  ("cgerc", "cgerc");
  ("cgeru", "cgeru");
  ("chbmv", "chbmv");
  ("chemv", "chemv");
  ("cher", "cher");
  ("cher2", "cher2");
  ("chpmv", "chpmv");
  ("chpr", "chpr");
  ("chpr2", "chpr2");
  ("ctbmv", "ctbmv");
  ("ctbsv", "ctbsv");
  ("ctpmv", "ctpmv");
  ("ctpsv", "ctpsv");
  ("ctrmv", "ctrmv");
  ("ctrsv", "ctrsv");
  ("dgbmv", "dgbmv");
  ("dgemv", "dgemv");
  ("dger", "dger");
  ("dsbmv", "dsbmv");
  ("dspmv", "dspmv");
  ("dspr", "dspr");
  ("dspr2", "dspr2");
  ("dsymv", "dsymv");
  ("dsyr", "dsyr");
  ("dsyr2", "dsyr2");
  ("dtbmv", "dtbmv");
  ("dtbsv", "dtbsv");
  ("dtpmv", "dtpmv");
  ("dtpsv", "dtpsv");
  ("dtrmv", "dtrmv");
  ("dtrsv", "dtrsv");
  ("zgbmv", "zgbmv");
  ("zgemv", "zgemv");
  ("zgerc", "zgerc");
  ("zgeru", "zgeru");
  ("zhbmv", "zhbmv");
  ("zhemv", "zhemv");
  ("zher", "zher");
  ("zher2", "zher2");
  ("zhpmv", "zhpmv");
  ("zhpr", "zhpr");
  ("zhpr2", "zhpr2");
  ("ztbmv", "ztbmv");
  ("ztbsv", "ztbsv");
  ("ztpmv", "ztpmv");
  ("ztpsv", "ztpsv");
  ("ztrmv", "ztrmv");
  ("ztrsv", "ztrsv");
  ("sgemm", "sgemm");
  ("ssymm", "ssymm");
  ("ssyr2k", "ssyr2k");
  ("ssyrk", "ssyrk");
  ("strmm", "strmm");
  ("strsm", "strsm");
  ("cgemm", "cgemm");
  ("cgemm3m", "cgemm3m");
  ("chemm", "chemm");
  ("cher2k", "cher2k");
  ("cherk", "cherk");
  ("csymm", "csymm");
  ("csyr2k", "csyr2k");
  ("csyrk", "csyrk");
  ("ctrmm", "ctrmm");
  ("ctrsm", "ctrsm");
  ("dgemm", "dgemm");
  ("dsymm", "dsymm");
  ("dsyr2k", "dsyr2k");
  ("dsyrk", "dsyrk");
  ("dtrmm", "dtrmm");
  ("dtrsm", "dtrsm");
  ("zgemm", "zgemm");
  ("zgemm3m", "zgemm3m");
  ("zhemm", "zhemm");
  ("zher2k", "zher2k");
  ("zherk", "zherk");
  ("zsymm", "zsymm");
  ("zsyr2k", "zsyr2k");
  ("zsyrk", "zsyrk");
  ("ztrmm", "ztrmm");
  ("ztrsm", "ztrsm");
  ("cdotc", "cdotc");
  ("cdotu", "cdotu");
  ("zdotc", "zdotc");
  ("zdotu", "zdotu");
  ("dcsrmm", "dcsrmm");
  ("dcsrmultcsr", "dcsrmultcsr");
  ("scsrmm", "scsrmm");
  ("scsrmultcsr", "scsrmultcsr")
].
