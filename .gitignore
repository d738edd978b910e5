*.vo
*.vok
*.vos
*.glob
*.aux
.*.aux
.lia.cache
.nia.cache
.coqdeps.d
.Makefile.d
Makefile
Makefile.conf
CoqMakefile*
.nra.cache
