*.vo
*.vok
*.vos
*.glob
*.aux
.*.aux
.lia.cache
.nia.cache
Makefile
Makefile.conf
.Makefile.d
CoqMakefile*
.lia.cache
.nia.cache
