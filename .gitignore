*.vo
*.vok
*.vos
*.glob
*.aux
.*.aux
.lia.cache
.nia.cache
.coqdeps.d
.Makefile.coq.d
.Makefile.d
rocq/Makefile
rocq/Makefile.conf
.nra.cache
