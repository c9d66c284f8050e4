*.vo
*.vos
*.vok
*.glob
*.aux
.*.aux
.*.cache
*.cache
.Makefile.d
Makefile
Makefile.conf
.coqdeps.d
