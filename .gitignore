*.vo
*.vos
*.vok
*.glob
.*.aux
*.aux
Makefile
Makefile.conf
.Makefile.d
.lia.cache
.nia.cache
.coqdeps.d
CoqMakefile.conf
.nra.cache
.lia.cache
.nia.cache
